(** C87: exceptions thrown by a serialiseImpl.  Specification: SpecScript.v. *)
From Verif Require Import Base Proton ProtonProofs Descriptors SpecDescriptors Schema Factory Readers Blob
  Writer SpecWriter WriterProofs Script SpecScript ScriptProofs ScriptWireProofs.
Import List ListNotations.
Open Scope string_scope.

(** Objects that do not throw are serialised as before. *)
Theorem C87_without_exceptions : forall i w,
  exec_blob (of_item i) w = serialise_blob i w /\ cut (of_item i) = (i, None).
Proof. intros i w. split; [apply exec_blob_of_item|apply cut_of_item]. Qed.
Print Assumptions C87_without_exceptions.

(** Whatever throws: an exception that is not caught reaches the caller of
    serialise, which gets no blob.  What has been written by then, and the blob
    that results if all exceptions are caught, is everything that was written
    before the exceptions, with every object that was begun closed, and a schema
    for the types and properties that were begun. *)
Theorem C87_exceptions : forall o, allowed o -> is_ref o = false -> no_clash_begun o ->
  exists w ts, forest (m_payload w) = [written o] /\ schema_begun o ts /\
    exec o new_writer = match thrown o with None => Ok tt w | Some e => Throw e w end /\
    exec_blob o new_writer =
      match thrown o with None => Ok (decoded (envelope_tree (written o) [ts] [leaf ANull])) w | Some e => Throw e w end /\
    toBlob w = Ok (decoded (envelope_tree (written o) [ts] [leaf ANull])) w.
Proof. exact script_result. Qed.
Print Assumptions C87_exceptions.

(** If no key of a map throws, that is the same as serialising the objects as far
    as they had been written: those in which an exception was thrown end there,
    and nothing else is affected. *)
Theorem C87_cut : forall o, calm_keys o ->
  well_formed (fst (cut o)) -> is_pointer (fst (cut o)) = false -> no_clash (fst (cut o)) ->
  exists blob w, serialise_blob (fst (cut o)) new_writer = Ok blob w /\
    exec_blob o new_writer = match snd (cut o) with None => Ok blob w | Some e => Throw e w end.
Proof. exact exception_result. Qed.
Print Assumptions C87_cut.

(** The same for any use of a blob that is being written. *)
Theorem C87_cut_anywhere : forall o w w', calm_keys o -> serialise (fst (cut o)) w = Ok tt w' ->
  exec o w = match snd (cut o) with None => Ok tt w' | Some e => Throw e w' end.
Proof. exact exec_cut. Qed.
Print Assumptions C87_cut_anywhere.

(** Whatever throws, keys of maps included: when serialise returns or an exception
    leaves it, one value has been added at the place where the caller was writing
    and every object that was begun since has been closed, so that what the caller
    writes next is written where it would have been.  (Aborts and undefined
    behaviour are those of pointers used as elements.) *)
Theorem C87_closed : forall o w, at_end (m_payload w) ->
  match exec o w with
  | Ok _ w' | Throw _ w' => exists t, added (m_payload w) (m_payload w') [t]
  | Abort | UB => True
  | Fuel => False
  end.
Proof. exact always_closed. Qed.
Print Assumptions C87_closed.

(** ** Cases *)

Definition point (y : acts) : obj :=
  OObject "net.Point" "f:p" (AWrite "x" "int" (OPrim (OfInt 1)) y).
Definition whole_point : obj := point (AWrite "y" "int" (OPrim (OfInt 2)) ADone).
Definition half_point : obj := point (AThrow RuntimeError).

(** Two points, the second of which throws. *)
Definition line_ (second : obj -> acts) : obj :=
  OObject "net.Line" "f:l" (AWrite "from" "net.Point" whole_point (second half_point)).
Definition uncaught_line : obj := line_ (fun p => AWrite "to" "net.Point" p (AWrite "width" "int" (OPrim (OfInt 3)) ADone)).
Definition caught_line : obj := line_ (fun p => ATry (AWrite "to" "net.Point" p ADone) (AWrite "width" "int" (OPrim (OfInt 3)) ADone)).

Ltac distinct_keys := intros k s H1 H2; cbn in H1, H2; repeat match goal with H : _ \/ _ |- _ => destruct H end; try contradiction; congruence.

Example C87_ex :
  (calm_keys uncaught_line /\ well_formed (fst (cut uncaught_line)) /\ no_clash (fst (cut uncaught_line)) /\
   snd (cut uncaught_line) = Some RuntimeError /\ exists w, exec_blob uncaught_line new_writer = Throw RuntimeError w) /\
  (calm_keys caught_line /\ well_formed (fst (cut caught_line)) /\ no_clash (fst (cut caught_line)) /\
   snd (cut caught_line) = None /\ exists blob w, exec_blob caught_line new_writer = Ok blob w).
Proof.
  assert (W1 : well_formed (fst (cut uncaught_line))) by (cbn; tauto).
  assert (W2 : well_formed (fst (cut caught_line))) by (cbn; tauto).
  assert (N1 : no_clash (fst (cut uncaught_line))) by distinct_keys.
  assert (N2 : no_clash (fst (cut caught_line))) by distinct_keys.
  split.
  - split; [cbn; tauto|]. split; [exact W1|]. split; [exact N1|]. split; [reflexivity|].
    destruct (C87_cut uncaught_line ltac:(cbn; tauto) W1 eq_refl N1) as (b & w & _ & E). exists w. exact E.
  - split; [cbn; tauto|]. split; [exact W2|]. split; [exact N2|]. split; [reflexivity|].
    destruct (C87_cut caught_line ltac:(cbn; tauto) W2 eq_refl N2) as (b & w & _ & E). exists b, w. exact E.
Qed.

(** A caught exception is not without consequences: the class of the object that
    ended early is described with all of its properties, and inspection shows a
    value for one that was never written (that of the property before it). *)
Theorem C87_inspected_refuted : forall fmt custom mo kf,
  exists blob w st, exec_blob caught_line new_writer = Ok blob w /\
    dumpContents fmt custom mo kf 50 (blob, new_factory) =
      Ok "{ Parsed : { from : { x : 1, y : 2 }, to : { x : 1, y : 1 }, width : 3 } }" st.
Proof.
  intros fmt custom mo kf. destruct (exec_blob caught_line new_writer) as [blob w| | | |] eqn:E; try (vm_compute in E; discriminate).
  exists blob, w. vm_compute in E. injection E as <- _. destruct mo; eexists; (split; [reflexivity|vm_compute; reflexivity]).
Qed.
Print Assumptions C87_inspected_refuted.

(** A key that throws leaves a map with a key that has no value. *)
Definition book : obj :=
  OObject "net.Book" "f:b"
    (ATry (AWrite "places" "java.util.Map<net.Point, int>"
             (OMap "java.util.Map<net.Point, int>" "f:m" (MCons half_point (OPrim (OfInt 7)) MNil)) ADone) ADone).
Definition described (fp : string) (kind : atom) (parts : list tree) : tree :=
  Node ADescribed [leaf (ASymbol fp); Node kind parts].
Theorem C87_key_refuted : exists w,
  exec book new_writer = Ok tt w /\
  forest (m_payload w) =
    [described "f:b" AList [described "f:m" AMap [described "f:p" AList [leaf (AInt 1)]]]].
Proof. eexists. split; [vm_compute; reflexivity|reflexivity]. Qed.
Print Assumptions C87_key_refuted.
Example C87_ex_key :
  allowed book /\ is_ref book = false /\ no_clash_begun book /\ thrown book = None /\
  written book = described "f:b" AList [described "f:m" AMap [described "f:p" AList [leaf (AInt 1)]]] /\
  map fst (begun book) = [("net.Book", "f:b"); ("java.util.Map<net.Point, int>", "f:m"); ("net.Point", "f:p")].
Proof.
  split; [cbn; tauto|]. split; [reflexivity|]. split; [distinct_keys|]. repeat split; reflexivity.
Qed.
Example C87_ex_closed : at_end (m_payload new_writer) /\
  (exists w, exec half_point new_writer = Throw RuntimeError w) /\ exists w, exec book new_writer = Ok tt w.
Proof. split; [reflexivity|]. split; eexists; vm_compute; reflexivity. Qed.
