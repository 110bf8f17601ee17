(** Property theorems C100: which objects are saved as the same blob or file.
    Specification: SpecIdentity.v.  Model: Writer.v, Programs.v, CordaFile.v. *)
From Coq Require Import Permutation.
From Verif Require Import SpecTypes Base Proton TypeNames SpecDescriptors Writer SpecWriter WriterProofs CordaFile Tools SpecTools SpecAmqp
  SpecIdentity SpecPrograms WriterTests WriterTestsProofs ProgramChecks Programs ProgramsProofs IdentityProofs.
Import List ListNotations.
Open Scope string_scope.

(** Of a program whose types have different fingerprints, two objects, of the
    same type or not, are saved as the same blob exactly if they are the same. *)
Theorem C100_blobs_told_apart : forall P T U x y, NoDup (map (fingerprint P) (types_of P)) ->
  In T (types_of P) -> In U (types_of P) -> of_type P T x -> of_type P U y ->
  is_target x = true -> is_target y = true -> well_formed x -> well_formed y -> one_kind x -> one_kind y ->
  (saved_alike x y <-> same x y).
Proof. exact told_apart. Qed.
Print Assumptions C100_blobs_told_apart.

(** So are the files, whatever AMQP 1.0 encoder proton is. *)
Theorem C100_files_told_apart : forall P T U x y encode b b' w w', NoDup (map (fingerprint P) (types_of P)) ->
  In T (types_of P) -> In U (types_of P) -> of_type P T x -> of_type P U y ->
  is_target x = true -> is_target y = true -> well_formed x -> well_formed y -> no_clash x -> no_clash y ->
  serialise_blob x new_writer = Ok b w -> serialise_blob y new_writer = Ok b' w' ->
  follows_amqp encode b -> follows_amqp encode b' -> saved encode b = saved encode b' -> same x y.
Proof. exact files_told_apart. Qed.
Print Assumptions C100_files_told_apart.

(** C100 fails for two versions of a class with the same fingerprint that write
    their properties in different orders: the blob does not say which value goes
    with which name. *)
Theorem C100_versions_refuted : forall n fp p names names' vs, Permutation names names' -> List.length names = List.length vs ->
  Forall (fun v => type_of v = p /\ prim_ok v) vs -> saved_alike (flat_object n fp names vs) (flat_object n fp names' vs).
Proof. exact renamed. Qed.
Print Assumptions C100_versions_refuted.

Example C100_ex_versions :
  let x := flat_object "net.A" "f:a" ["a"; "b"] [OfInt 1; OfInt 2] in
  let y := flat_object "net.A" "f:a" ["b"; "a"] [OfInt 1; OfInt 2] in
  x = IObject "net.A" "f:a" [("a", ("", IPrim (OfInt 1))); ("b", ("", IPrim (OfInt 2)))] /\
  y = IObject "net.A" "f:a" [("b", ("", IPrim (OfInt 1))); ("a", ("", IPrim (OfInt 2)))] /\ saved_alike x y /\ ~ same x y.
Proof.
  cbv zeta. split; [reflexivity|]. split; [reflexivity|]. split.
  - apply (C100_versions_refuted _ _ CInt); [apply perm_swap|reflexivity|repeat constructor].
  - intros H. inversion H as [| |? ? ? ? F| | | |]; subst. inversion F as [|? ? ? ? [E _]]; subst. discriminate.
Qed.

(** A map from ints to lists of objects with lists. *)
Definition kept : item := object12 [(1%Z, [("a", [1%Z; 2%Z]); ("b", [])]); (2%Z, [])].
Definition other : item := object12 [(1%Z, [("a", [1%Z; 2%Z]); ("b", [])]); (3%Z, [])].
Example C100_ex : NoDup (map (fingerprint program12) (types_of program12)) /\ In (class "DeSerialiseMe") (types_of program12) /\
  (forall x, x = kept \/ x = other ->
   of_type program12 (class "DeSerialiseMe") x /\ is_target x = true /\ well_formed x /\ one_kind x) /\
  ~ saved_alike kept other /\ saved_alike kept kept.
Proof.
  assert (O : in_order program12) by (apply orderlyb_ok; reflexivity).
  assert (I : In (class "DeSerialiseMe") (types_of program12)) by (cbn; tauto).
  assert (A : forall x, x = kept \/ x = other ->
   of_type program12 (class "DeSerialiseMe") x /\ is_target x = true /\ well_formed x /\ one_kind x).
  { assert (T : forall x, x = kept \/ x = other -> of_type program12 (class "DeSerialiseMe") x) by (intros x [-> | ->]; apply type12).
    intros x Hx. split; [auto|]. split; [destruct Hx as [-> | ->]; reflexivity|]. split; [|exact (typed_one_kind _ _ x O I (T x Hx))].
    destruct Hx as [-> | ->]; cbn; tauto. }
  destruct (A kept) as (T1 & R1 & W1 & K1); [auto|]. destruct (A other) as (T2 & R2 & W2 & K2); [auto|].
  split; [apply O|]. split; [exact I|]. split; [exact A|]. split.
  - intros H. apply (C100_blobs_told_apart program12 _ _ kept other (proj2 (proj2 O)) I I T1 T2 R1 R2 W1 W2 K1 K2) in H.
    apply same_wire in H. discriminate.
  - destruct (serialise_correct kept W1 eq_refl (kind_clash _ K1)) as (w & ts & E & _). eexists _, _, _. split; exact E.
Qed.
