(** Property theorems C70, C71: what deserialising accepts and returns for any
    blob; from an object through a file back to the object.
    Specification: SpecReadBack.v, SpecDeserialise.v, SpecFile.v and SpecTools.v.
    [cs] gives the types that each class reads, in order.  [fuel] bounds the
    nesting that is explored: any number from the height of the blob on will do. *)
From Coq Require Import Lia.
From Verif Require Import Base Proton ProtonProofs CordaFile SpecFile SpecDescriptors Readers SpecReaders Blob Factory
  Writer SpecWriter WriterProofs Deserialise SpecDeserialise DeserialiseProofs SpecAccept SpecDisplay SpecReadBack ReadBackProofs
  SpecHistory HistoryProofs Tools SpecTools ToolsProofs.
Import List ListNotations.
Open Scope string_scope.

(** C70, for any blob: an object is returned exactly if the payload reads as it; *)
Theorem C70_deserialised_exactly : forall cs fuel ty t x, height t <= fuel ->
  (exists d, deserialise cs fuel ty (decoded t) = Ok x d) <-> exists p, payload t p /\ reads_as cs ty (Some p) x.
Proof. exact deserialised_exactly. Qed.
Print Assumptions C70_deserialised_exactly.

(** the behaviour is undefined exactly as specified; *)
Theorem C70_undefined_exactly : forall cs fuel ty t, height t <= fuel ->
  deserialise cs fuel ty (decoded t) = UB <-> exists p, payload t p /\ undefined cs ty (Some p).
Proof. exact undefined_exactly. Qed.
Print Assumptions C70_undefined_exactly.

(** and otherwise an exception is thrown. *)
Theorem C70_otherwise_throws : forall cs fuel ty t, height t <= fuel ->
  (exists x d, deserialise cs fuel ty (decoded t) = Ok x d) \/ (exists d, deserialise cs fuel ty (decoded t) = Throw RuntimeError d) \/
  deserialise cs fuel ty (decoded t) = UB.
Proof. exact otherwise_throws. Qed.
Print Assumptions C70_otherwise_throws.

(** So it is never undefined for classes that read no strings and no vectors. *)
Theorem C70_without_strings : forall cs fuel c pointer t, height t <= fuel ->
  (forall n p, ~ In (RPrim CString p) (cs n)) -> (forall n p, ~ In (RVector p) (cs n)) ->
  deserialise cs fuel (RClass c pointer) (decoded t) <> UB.
Proof.
  intros cs fuel c pointer t H Hs Hv E. apply (undefined_exactly cs fuel (RClass c pointer) t H) in E as (p & _ & U).
  assert (K : forall ty o, undefined cs ty o -> match ty with RClass _ _ => False | _ => True end).
  { clear - Hs Hv. induction 1 as [| |c q t body b ty a xs _ _ _ E _ U IH]; try exact I.
    assert (I : In ty (cs c)) by (rewrite E; apply in_elt). inversion U; subst; [eapply Hs; eauto|eapply Hv; eauto|exact IH]. }
  exact (K _ _ U).
Qed.
Print Assumptions C70_without_strings.

(** It is undefined for some blobs for any class that reads a string at all first. *)
Theorem C70_undefined_refuted : forall cs fuel c pointer p ts a, cs c = RPrim CString p :: ts -> (forall s, a <> AString s) -> 6 <= fuel ->
  let blob := Node ADescribed [leaf (AULong (vendor 1)); list_of [Node ADescribed [leaf (ASymbol "f"); list_of [leaf a]]; leaf ANull; leaf ANull]] in
  deserialise cs fuel (RClass c pointer) (decoded blob) = UB.
Proof.
  intros cs fuel c pointer p ts a E Ha Hf blob. apply undefined_exactly; [exact (Nat.le_trans _ _ _ (le_n 5) (Nat.le_trans _ _ _ (le_S _ _ (le_n 5)) Hf))|].
  eexists. split; [split; [reflexivity|]; eexists; repeat split|].
  eapply undefined_inside with (before := []); [reflexivity|reflexivity|reflexivity|exact E|constructor|]. constructor.
  cbn. intros t s [= <-]. apply Ha.
Qed.
Print Assumptions C70_undefined_refuted.

Definition person_blob : tree := envelope_tree (wire (person (Some (OfBool true)))) [] [leaf ANull].
Example C70_ex : height person_blob <= 20 /\
  (exists p, payload person_blob p /\ reads_as sample_classes (RClass "net.Person" false) (Some p) person_back) /\
  (exists p, payload person_blob p /\ undefined sample_classes (RClass "net.Pet" false) (Some p)) /\
  (exists d, deserialise sample_classes 20 (RClass "net.Pair" false) (decoded person_blob) = Throw RuntimeError d).
Proof.
  split; [vm_compute; repeat constructor|]. split; [|split].
  - apply (proj1 (deserialised_exactly sample_classes 20 (RClass "net.Person" false) person_blob person_back ltac:(vm_compute; repeat constructor))).
    eexists. vm_compute. reflexivity.
  - apply (proj1 (undefined_exactly sample_classes 20 (RClass "net.Pet" false) person_blob ltac:(vm_compute; repeat constructor))).
    vm_compute. reflexivity.
  - eexists. vm_compute. reflexivity.
Qed.

(** C71.  An object is serialised; the blob may be looked at in any way ([ops]);
    it is saved, the file is opened, and the object is read. *)
Theorem C71_through_a_file : forall decode encode fmt custom mo kf double float tn,
  (forall which name, stays_put (custom which name)) ->
  forall cs c root o fuel, back cs (RClass c false) root o -> well_formed root -> no_clash root -> height (wire root) <= fuel ->
  exists blob w, serialise_blob root new_writer = Ok blob w /\
  forall ops cf d' cf', perform fmt custom mo kf double float tn fuel ops (blob, cf) = Ok tt (d', cf') ->
    heights (forest blob) <= fuel -> decodes decode encode blob -> fits (magic ++ String "000" (encode (forest blob))) ->
    forall config, good_config config -> exists cb blob' d,
      open_ (saved encode d') config = Ret cb /\ decodable cb = true /\ AMQPBlob_ decode cb = Ret blob' /\
      deserialise cs fuel (RClass c false) blob' = Ok o d.
Proof.
  intros decode encode fmt custom mo kf double float tn Hs cs c root o fuel B W N H.
  destruct (round_trip cs c root o fuel B W N H) as (blob & w & d & E & D). exists blob, w. split; [exact E|].
  intros ops cf d' cf' P Hh (t & Ef & Hd) Hf config Hc.
  assert (T : is_target root = true) by (inversion B; subst; reflexivity).
  destruct (written root blob w W T N E) as (ws & _ & ->). rewrite forest_decoded in *. injection Ef as <-.
  destruct (save_after_reading decode encode fmt custom mo kf double float tn Hs ops fuel (envelope_tree (wire root) [ws] [leaf ANull]) cf d' cf' ltac:(unfold heights in Hh; cbn [fold_right] in Hh; lia) P Hd Hf config Hc) as (cb & H1 & H2 & H3).
  exists cb, (decoded (envelope_tree (wire root) [ws] [leaf ANull])), d. auto.
Qed.
Print Assumptions C71_through_a_file.

(** The person above, with a stand-in for proton. *)
Example C71_ex : let root := person (Some (OfBool true)) in exists blob w t, serialise_blob root new_writer = Ok blob w /\
  back sample_classes (RClass "net.Person" false) root person_back /\ well_formed root /\ no_clash root /\ height (wire root) <= 20 /\
  forest blob = [t] /\ heights (forest blob) <= 20 /\ decodes (fun s => if String.eqb s "person" then Some t else None) (fun _ => "person") blob /\
  fits (magic ++ String "000" "person") /\ good_config default_config /\
  forall fmt custom mo kf double float tn, perform fmt custom mo kf double float tn 20 [] (blob, new_factory) = Ok tt (blob, new_factory).
Proof.
  destruct (person_ok (Some (OfBool true)) (conj eq_refl I)) as (W & N & _).
  do 3 eexists. split; [vm_compute; reflexivity|]. split; [exact person_reads|]. split; [exact W|]. split; [exact N|]. split; [vm_compute; repeat constructor|].
  split; [vm_compute; reflexivity|]. split; [vm_compute; repeat constructor|]. split; [eexists; split; vm_compute; reflexivity|].
  split; [vm_compute; reflexivity|]. split; [apply default_good|]. intros. reflexivity.
Qed.
