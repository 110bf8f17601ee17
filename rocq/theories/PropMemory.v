(** C89: memory that is managed by hand.  Specification: SpecMemory.v. *)
From Coq Require Import Lia.
From Verif Require Import Base Proton Descriptors SpecDescriptors Writer SpecWriter Script SpecScript CordaFile Tools
  Memory SpecMemory MemoryProofs.
Import List ListNotations.
Open Scope string_scope.

(** The model with memory is the model without it: what serialise gives or throws
    is the same, whatever has been allocated before. *)
Theorem C89_same : forall o h,
  match exec_blob o new_writer with
  | Ok d _ => exists h', serialise_h o h = Ok d h'
  | Throw e _ => exists h', serialise_h o h = Throw e h'
  | Abort => serialise_h o h = Abort
  | UB => serialise_h o h = UB
  | Fuel => serialise_h o h = Fuel
  end.
Proof.
  intros o h. pose proof (serialise_same o h) as H. destruct (exec_blob o new_writer); auto; eexists; exact H.
Qed.
Print Assumptions C89_same.

(** Buffers: a CordaBytes releases its own, however the file turns out and
    whether what is done with it returns or throws.  (It can be neither copied nor
    moved, having a destructor and a std::unique_ptr.) *)
Theorem C89_buffers : forall A f config (use : CordaBytes -> heap -> outcome heap A) h,
  (forall cb h1, match use cb h1 with Ok _ h2 | Throw _ h2 => buffers h2 = buffers h1 | _ => True end) ->
  match with_bytes_h f config use h with Ok _ h' | Throw _ h' => buffers h' = buffers h | _ => True end.
Proof. exact @bytes_released. Qed.
Print Assumptions C89_buffers.

(** Reading a blob with anything that returns or throws: the bytes are released,
    and the outcome is that of the function applied to what was decoded; the tree
    stays. *)
Theorem C89_reading : forall S A decode f config (use : data -> outcome S A) h cb t,
  open_ f config = Ret cb -> decode (cb_bytes cb) = Some t ->
  match use (decoded t) with
  | Ok a _ => read_h decode f config use h = Ok a (more_trees 1 h)
  | Throw e _ => read_h decode f config use h = Throw e (more_trees 1 h)
  | _ => True
  end.
Proof.
  intros S A decode f config use h cb t H1 H2. pose proof (read_result decode f config use h) as R. rewrite H1, H2 in R.
  destruct (use (decoded t)); auto.
Qed.
Print Assumptions C89_reading.
(** A file that is rejected leaves nothing behind. *)
Theorem C89_rejected : forall S A decode f config (use : data -> outcome S A) h e,
  open_ f config = Exc e -> read_h decode f config use h = Throw e h.
Proof. intros S A decode f config use h e H. pose proof (read_result decode f config use h) as R. now rewrite H in R. Qed.
Print Assumptions C89_rejected.

(** Trees: not one is ever released.  Serialising an object leaves three, one for
    every type and one for every property of the schema, whatever was done before;
    if an exception leaves, one and one for every property that was begun. *)
Theorem C89_trees_refuted : forall o, allowed o -> is_ref o = false -> no_clash_begun o ->
  exists ts, schema_begun o ts /\ forall h, serialise_h o h =
    match thrown o with
    | None => Ok (decoded (envelope_tree (written o) [ts] [leaf ANull])) (more_trees (3 + List.length ts + properties_in ts) h)
    | Some e => Throw e (more_trees (1 + properties_in ts) h)
    end.
Proof. exact serialise_trees. Qed.
Print Assumptions C89_trees_refuted.

(** Without any condition on the object: at least three trees, or one. *)
Theorem C89_never_released_refuted : forall o h,
  match serialise_h o h with
  | Ok _ h' => trees h + 3 <= trees h' /\ buffers h' = buffers h
  | Throw _ h' => trees h + 1 <= trees h' /\ buffers h' = buffers h
  | _ => True
  end.
Proof. exact never_released. Qed.
Print Assumptions C89_never_released_refuted.

(** A program that saves objects grows without bound: saving the same object [n]
    times gives the same file [n] times and leaves [n] times as many trees. *)
Theorem C89_growth_refuted : forall encode o, allowed o -> is_ref o = false -> no_clash_begun o -> thrown o = None ->
  exists ts, schema_begun o ts /\ forall n h,
    save_all_h encode (repeat o n) h =
      Ok (repeat (toFile (of_blob (encode [envelope_tree (written o) [ts] [leaf ANull]]))) n)
         (more_trees (n * (3 + List.length ts + properties_in ts)) h).
Proof. exact save_trees. Qed.
Print Assumptions C89_growth_refuted.

(** ** Cases *)

Definition a_point (y : acts) : obj := OObject "net.Point" "f:p" (AWrite "x" "int" (OPrim (OfInt 1)) y).
Definition a_line (last : acts) : obj :=
  OObject "net.Line" "f:l"
    (AWrite "from" "net.Point" (a_point (AWrite "y" "int" (OPrim (OfInt 2)) ADone))
    (AWrite "to" "net.Point" (a_point last) ADone)).

(** Two types and four properties: nine trees.  If the second point throws before
    its second property: five. *)
Example C89_ex : forall h,
  (exists d, serialise_h (a_line (AWrite "y" "int" (OPrim (OfInt 3)) ADone)) h = Ok d (Heap (9 + trees h) (buffers h))) /\
  serialise_h (a_line (AThrow RuntimeError)) h = Throw RuntimeError (Heap (5 + trees h) (buffers h)).
Proof. intros [t b]. split; [eexists|]; vm_compute; reflexivity. Qed.
Example C89_ex_met : allowed (a_line ADone) /\ is_ref (a_line ADone) = false /\ no_clash_begun (a_line ADone) /\ thrown (a_line ADone) = None.
Proof.
  split; [cbn; tauto|]. split; [reflexivity|]. split; [|reflexivity].
  intros k s H1 H2; cbn in H1, H2; repeat match goal with H : _ \/ _ |- _ => destruct H end; try contradiction; congruence.
Qed.
Example C89_ex_read : forall decode t h, decode "x" = Some t ->
  read_h decode (toFile (of_blob "x")) default_config (fun d => Ok (forest d) tt) h = Ok [t] (Heap (S (trees h)) (buffers h)).
Proof.
  intros decode t h E. refine (C89_reading unit _ decode _ default_config (fun d => Ok (forest d) tt) h {| cb_encoding := DATA_AND_STOP; cb_size := 1; cb_bytes := "x" |} t _ E).
  vm_compute. reflexivity.
Qed.
