(** Property theorems C43 - C48, C57: deserialising.
    Specification: SpecWriter.v (what is written) and SpecDeserialise.v (what
    should be read).
    [cs] gives the types that each class reads, in order.  [fuel] bounds the
    nesting that is explored: any number from the height of the blob on will do. *)
From Verif Require Import Base Proton ProtonProofs SpecDescriptors Readers SpecReaders Blob Factory
  Writer SpecWriter WriterProofs Deserialise SpecDeserialise DeserialiseProofs.
Import List ListNotations.
Open Scope string_scope.

(** C43 *)
Theorem C43_round_trip : forall cs c root o fuel,
  back cs (RClass c false) root o -> well_formed root -> no_clash root -> height (wire root) <= fuel ->
  exists blob w d, serialise_blob root new_writer = Ok blob w /\ deserialise cs fuel (RClass c false) blob = Ok o d.
Proof. exact round_trip. Qed.
Print Assumptions C43_round_trip.

Example C43_ex : let root := person (Some (OfBool true)) in
  back sample_classes (RClass "net.Person" false) root person_back /\ well_formed root /\ no_clash root /\ height (wire root) <= 5.
Proof.
  destruct (person_ok (Some (OfBool true)) (conj eq_refl I)) as (W & N & _).
  split; [exact person_reads|]. split; [exact W|]. split; [exact N|vm_compute; repeat constructor].
Qed.

(** C44 is false of strings with a zero byte. *)
Definition C44_full : Prop := forall s : string, exists blob w d,
  serialise_blob (IObject "net.S" "f:s" [("s", ("string", IPrim (OfString s)))]) new_writer = Ok blob w /\
  deserialise (fun _ => [RPrim CString false]) 9 (RClass "net.S" false) blob = Ok (OClass "net.S" [OPrim (OfString s)]) d.
Theorem C44_strings_refuted : ~ C44_full.
Proof.
  intros H. destruct (H (String nul "b")) as (b & w & d & E & D). vm_compute in E. injection E as <- <-. vm_compute in D. discriminate D.
Qed.
Print Assumptions C44_strings_refuted.

(** C44: what is read is, for every string in the object, the part before its
    first zero byte.  Missing: the rest of the string. *)
Theorem C44_strings_partial : forall cs c root o fuel,
  back cs (RClass c false) (cut_item root) o -> well_formed root -> no_clash root -> height (wire root) <= fuel ->
  exists blob w d, serialise_blob root new_writer = Ok blob w /\ deserialise cs fuel (RClass c false) blob = Ok o d.
Proof. exact strings_cut. Qed.
Print Assumptions C44_strings_partial.

(** C44: strings without a zero byte are not cut. *)
Theorem C44_plain_partial : forall s, ~ In nul (list_ascii_of_string s) -> cut (OfString s) = OfString s.
Proof. intros s. exact (cut_plain (OfString s)). Qed.
Print Assumptions C44_plain_partial.

Definition nul_pet : item := IObject "net.Pet" "f:pet" [("name", ("string", IPrim (OfString (String "R" (String nul "ex"))))); ("sort", ("char", IPrim (OfChar 7)))].
Example C44_ex : back sample_classes (RClass "net.Pet" false) (cut_item nul_pet) (OClass "net.Pet" [OPrim (OfString "R"); OPrim (OfChar 7)]) /\
  well_formed nul_pet /\ no_clash nul_pet.
Proof.
  repeat split; try discriminate; try Lia.lia.
  - apply back_class. cbn. apply back_cons; [apply (back_prim _ (OfString "R"))|apply back_cons; [apply (back_prim _ (OfChar 7))|apply back_nil]];
      cbn; unfold nul_free; cbn; [|Lia.lia]. intuition discriminate.
  - intros k s H1 H2. cbn in H2. destruct H2 as [H2|[]]. discriminate.
Qed.

(** C45 is false: no object with a null pointer can be read back.  The null may
    be at any depth; what comes before it is as in C43.  For a pointer to a
    string the behaviour is undefined, for any other an exception is thrown. *)
Theorem C45_null_refuted : forall cs t root fuel,
  first_wrong cs (fun t i => is_null_pointer i = true /\ reads_string t = false) t root ->
  well_formed root -> is_target root = true -> no_clash root -> height (wire root) <= fuel ->
  exists blob w d, serialise_blob root new_writer = Ok blob w /\ deserialise cs fuel t blob = Throw RuntimeError d.
Proof. exact null_throws. Qed.
Print Assumptions C45_null_refuted.

Theorem C45_null_string_refuted : forall cs t root fuel,
  first_wrong cs (fun t i => is_null_pointer i = true /\ reads_string t = true) t root ->
  well_formed root -> is_target root = true -> no_clash root -> height (wire root) <= fuel ->
  exists blob w, serialise_blob root new_writer = Ok blob w /\ deserialise cs fuel t blob = UB.
Proof. exact null_ub. Qed.
Print Assumptions C45_null_string_refuted.

Example C45_ex : let root := person None in
  first_wrong sample_classes (fun t i => is_null_pointer i = true /\ reads_string t = false) (RClass "net.Person" false) root /\
  well_formed root /\ is_target root = true /\ no_clash root.
Proof.
  destruct (person_ok None I) as (W & N & T). split; [|exact (conj W (conj T N))].
  pose proof person_reads as P. unfold person_back in P. inversion P as [| |c n fp ps os B E1 E2 E3|]; subst.
  inversion B as [|t1 ts1 i1 is1 o1 os1 B1 B2]; subst. inversion B2 as [|t2 ts2 i2 is2 o2 os2 B3 B4]; subst.
  inversion B4 as [|t3 ts3 i3 is3 o3 os3 B5 B6]; subst.
  eapply wrong_inside with (ts1 := [RPrim CInt false; RPrim CString false; RClass "net.Pet" true]) (t := RPrim CBool true) (ts2 := [])
    (is1 := [IPrim (OfInt 44); IPrim (OfString "Ann"); IPointer (Some pet)]) (i := IPrimPtr CBool None) (is2 := []);
    [reflexivity|reflexivity| |apply wrong_here; split; reflexivity].
  repeat (apply back_cons; [eassumption|]). apply back_nil.
Qed.
Definition nameless : item := IObject "net.Name" "f:name" [("n", ("string", IPrimPtr CString None))].
Example C45_string_ex :
  first_wrong sample_classes (fun t i => is_null_pointer i = true /\ reads_string t = true) (RClass "net.Name" false) nameless /\
  well_formed nameless /\ is_target nameless = true /\ no_clash nameless.
Proof.
  repeat split.
  - eapply wrong_inside with (ts1 := []) (t := RPrim CString true) (ts2 := []) (is1 := []) (i := IPrimPtr CString None) (is2 := []);
      [reflexivity|reflexivity|apply back_nil|apply wrong_here; split; reflexivity].
  - discriminate.
  - intros k s H1 H2. cbn in H2. destruct H2 as [H2|[]]. discriminate.
Qed.

(** C46 is false: no object with a vector can be read back, whatever is in it. *)
Theorem C46_vectors_refuted : forall cs t root fuel,
  first_wrong cs (fun t i => is_vector i = true /\ exists pointer, t = RVector pointer) t root ->
  well_formed root -> is_target root = true -> no_clash root -> height (wire root) <= fuel ->
  exists blob w d, serialise_blob root new_writer = Ok blob w /\ deserialise cs fuel t blob = Throw RuntimeError d.
Proof. exact vectors_throw. Qed.
Print Assumptions C46_vectors_refuted.

Example C46_ex : let root := box [IPrim (OfInt 1); IPrim (OfInt 2)] in
  first_wrong sample_classes (fun t i => is_vector i = true /\ exists pointer, t = RVector pointer) (RClass "net.Box" false) root /\
  well_formed root /\ is_target root = true /\ no_clash root.
Proof.
  split; [|split; [|split; [reflexivity|]]].
  - eapply wrong_inside with (ts1 := [RPrim CInt false]) (t := RVector false) (ts2 := []) (is1 := [IPrim (OfInt 1)]) (is2 := []);
      [reflexivity|reflexivity|repeat (apply back_cons; [apply (back_prim _ (OfInt 1) I)|]); apply back_nil|apply wrong_here; split; [reflexivity|eauto]].
  - cbn. tauto.
  - intros k s H1 H2. cbn in *. repeat (destruct H1 as [H1|H1]; [|try contradiction]);
      repeat (destruct H2 as [H2|H2]; [|try contradiction]); congruence.
Qed.

(** C47 is false: an object is read as any class that reads properties of the
    same types, whatever name and fingerprint it was written with. *)
Theorem C47_wrong_class_refuted : forall cs c n fp n' fp' ps o fuel,
  back cs (RClass c false) (IObject n fp ps) o ->
  well_formed (IObject n' fp' ps) -> no_clash (IObject n' fp' ps) -> height (wire (IObject n' fp' ps)) <= fuel ->
  exists blob w d, serialise_blob (IObject n' fp' ps) new_writer = Ok blob w /\
    deserialise cs fuel (RClass c false) blob = Ok o d.
Proof.
  intros cs c n fp n' fp' ps o fuel B W N H. exact (round_trip cs c _ o fuel (back_renamed cs c n fp ps o n' fp' B) W N H).
Qed.
Print Assumptions C47_wrong_class_refuted.

(** C47: what is rejected is a blob with a value, at any depth, of another kind
    than the one read for it, unless a string is read, which is undefined.
    Missing: classes that differ in other ways. *)
Theorem C47_wrong_kind_partial : forall cs t root fuel,
  first_wrong cs (fun t i => (~ right_kind t i /\ well_formed i) /\ reads_string t = false) t root ->
  well_formed root -> is_target root = true -> no_clash root -> height (wire root) <= fuel ->
  exists blob w d, serialise_blob root new_writer = Ok blob w /\ deserialise cs fuel t blob = Throw RuntimeError d.
Proof. exact wrong_kind_throws. Qed.
Print Assumptions C47_wrong_kind_partial.
Theorem C47_wrong_string_refuted : forall cs t root fuel,
  first_wrong cs (fun t i => (~ right_kind t i /\ well_formed i) /\ reads_string t = true) t root ->
  well_formed root -> is_target root = true -> no_clash root -> height (wire root) <= fuel ->
  exists blob w, serialise_blob root new_writer = Ok blob w /\ deserialise cs fuel t blob = UB.
Proof. exact wrong_kind_ub. Qed.
Print Assumptions C47_wrong_string_refuted.

(** A pet written, something else read. *)
Example C47_ex :
  back sample_classes (RClass "net.Pet" false) (IObject "net.Car" "f:car" [("name", ("string", IPrim (OfString "Rex"))); ("sort", ("char", IPrim (OfChar (-3))))])
    (OClass "net.Pet" [OPrim (OfString "Rex"); OPrim (OfChar (-3))]) /\
  first_wrong sample_classes (fun t i => (~ right_kind t i /\ well_formed i) /\ reads_string t = false) (RClass "net.Pair" false) pet /\
  first_wrong sample_classes (fun t i => (~ right_kind t i /\ well_formed i) /\ reads_string t = true) (RClass "net.Pet" false) (box []) /\
  well_formed pet /\ is_target pet = true /\ no_clash pet.
Proof.
  split; [apply back_class; exact pet_back|]. split; [|split].
  - eapply wrong_inside with (ts1 := []) (is1 := []); [reflexivity|reflexivity|apply back_nil|].
    apply wrong_here. repeat split. cbn. discriminate.
  - eapply wrong_inside with (ts1 := []) (is1 := []); [reflexivity|reflexivity|apply back_nil|].
    apply wrong_here. repeat split. cbn. discriminate.
  - repeat split; try discriminate. intros k s H1 H2. cbn in H2. destruct H2 as [H2|[]]. discriminate.
Qed.

(** C48 is false: after a successful read the same blob can never be read again,
    as any type. *)
Theorem C48_again_refuted : forall cs c root o fuel,
  back cs (RClass c false) root o -> well_formed root -> no_clash root -> height (wire root) <= fuel ->
  exists blob w d d', serialise_blob root new_writer = Ok blob w /\ deserialise cs fuel (RClass c false) blob = Ok o d /\
    forall t, deserialise cs fuel t d = Throw RuntimeError d'.
Proof. exact second_throws. Qed.
Print Assumptions C48_again_refuted.
(** Its hypotheses are those of C43. *)

(** C57 is false: properties that the class does not read are ignored, ... *)
Theorem C57_fewer_refuted : forall cs c n fp ps is1 is2 os fuel,
  values ps = (is1 ++ is2)%list -> back_all cs (cs c) is1 os ->
  well_formed (IObject n fp ps) -> no_clash (IObject n fp ps) -> height (wire (IObject n fp ps)) <= fuel ->
  exists blob w d, serialise_blob (IObject n fp ps) new_writer = Ok blob w /\
    deserialise cs fuel (RClass c false) blob = Ok (OClass c os) d.
Proof. exact fewer_accepted. Qed.
Print Assumptions C57_fewer_refuted.

(** ... and for a property that was not written the last one is read again. *)
Theorem C57_more_refuted : forall cs c n fp ps ts t is i os o fuel,
  cs c = (ts ++ [t; t])%list -> values ps = (is ++ [i])%list -> back_all cs ts is os -> back cs t i o ->
  well_formed (IObject n fp ps) -> no_clash (IObject n fp ps) -> height (wire (IObject n fp ps)) <= fuel ->
  exists blob w d, serialise_blob (IObject n fp ps) new_writer = Ok blob w /\
    deserialise cs fuel (RClass c false) blob = Ok (OClass c (os ++ [o; o])) d.
Proof. exact more_accepted. Qed.
Print Assumptions C57_more_refuted.

Definition one : item := IObject "net.One" "f:one" [("n", ("int", IPrim (OfInt 5)))].
Example C57_ex : exists blob w d, serialise_blob one new_writer = Ok blob w /\
  deserialise sample_classes 9 (RClass "net.Pair" false) blob = Ok (OClass "net.Pair" [OPrim (OfInt 5); OPrim (OfInt 5)]) d.
Proof.
  apply (more_accepted sample_classes "net.Pair" "net.One" "f:one" [("n", ("int", IPrim (OfInt 5)))] [] (RPrim CInt false) [] (IPrim (OfInt 5)) [] (OPrim (OfInt 5)) 9);
    try reflexivity; [apply back_nil|apply (back_prim _ (OfInt 5) I)|cbn; tauto| |vm_compute; repeat constructor].
  intros k s H1 H2. cbn in H2. destruct H2 as [H2|[]]. discriminate.
Qed.
