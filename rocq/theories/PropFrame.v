(** Property theorems C79 and C80: factories that have been used for other types,
    and the blob-inspector on files made from objects.  Specification:
    SpecFrame.v, SpecWriterTests.v, and those of the library calls. *)
From Coq Require Import Permutation.
From Verif Require Import SpecTypes Base Proton ProtonProofs TypeNames CordaFile SpecFile Schema SpecSchema Descriptors SpecDescriptors
  Factory SpecFactory FactoryProofs Readers SpecReaders Blob ReadersProofs SpecAccept Writer SpecWriter WriterProofs SpecWriteRead WriteReadProofs
  Tools SpecTools Programs SpecPrograms ProgramChecks WriterTests SpecWriterTests WriterTestsProofs SpecFrame FrameProofs FrameObjects.
Import List ListNotations.
Open Scope string_scope.

(** C79.  Two factories with different pasts: what inspecting a blob gives is the
    same if the types its schema mentions have not been described to either
    before, no failed operation left a null pointer for one of them, and the same
    serialisers have been installed for them.  (The types have distinct names,
    none the name of a primitive type.  The fingerprint of the payload is that
    of one of them, or was not seen before.) *)
Theorem C79_other_uses : forall fmt custom mo kf fuel h1 f1 h2 f2 t,
  run mo h1 new_factory f1 -> run mo h2 new_factory f2 ->
  (forall e, accepted_envelope t e -> let ts := List.concat (s_types (e_schema e)) in
     (forall u, In u ts -> SpecTypes.primitive_name (n_name u) = false) /\
     (forall u v, In u ts -> In v ts -> n_name u = n_name v -> u = v) /\
     apart h1 f1 ts /\ apart h2 f2 ts /\
     (forall r, mentioned ts (reader_type r) -> In (Install r) h1 <-> In (Install r) h2) /\
     (In (e_descriptor e) (map n_descriptor ts) \/
      ~ In (e_descriptor e) (map n_descriptor (entries_of h1)) /\ ~ In (e_descriptor e) (map n_descriptor (entries_of h2)))) ->
  same_result (dumpContents fmt custom mo kf fuel (decoded t, f1)) (dumpContents fmt custom mo kf fuel (decoded t, f2)).
Proof. exact other_uses. Qed.
Print Assumptions C79_other_uses.

(** A class with a property of a class that is missing; a serialiser has been
    installed and a schema processed in one of the factories. *)
Definition t_alone : tree :=
  envelope_tree (payload_tree "f:a" [list_of [leaf ANull]]) [[wclass "net.A" "f:a" [wfield "p" "net.B" [] false]]] [leaf ANull].
Definition h_other : list op :=
  [Install RPublicKey; Process (Schema.schema_of [[TComposite {| c_name := "net.Other"; c_label := ""; c_provides := []; c_descriptor := "f:o"; c_fields := [] |}]])].
Lemma h_other_runs mo : exists f, run_well mo h_other new_factory f.
Proof.
  eexists. eapply well_cons; [split; [exact I|reflexivity]|reflexivity|].
  eapply well_cons; [|destruct mo; vm_compute; reflexivity|apply well_nil]. cbn. constructor; [|constructor]. split; [constructor|reflexivity].
Qed.
Example C79_ex : forall mo, exists f, run mo h_other new_factory f /\ run mo [] new_factory new_factory /\
  (exists e, accepted_envelope t_alone e) /\
  (forall e, accepted_envelope t_alone e -> let ts := List.concat (s_types (e_schema e)) in
     (forall u, In u ts -> SpecTypes.primitive_name (n_name u) = false) /\
     (forall u v, In u ts -> In v ts -> n_name u = n_name v -> u = v) /\
     apart h_other f ts /\ apart [] new_factory ts /\
     (forall r, mentioned ts (reader_type r) -> In (Install r) h_other <-> In (Install r) []) /\
     In (e_descriptor e) (map n_descriptor ts)).
Proof.
  intros mo. destruct (h_other_runs mo) as (f & R). exists f. destruct (successes_clean _ _ _ R) as [Q U].
  destruct (successes_clean mo [] new_factory (well_nil _ _)) as [_ U0]. split; [exact Q|]. split; [constructor|]. split.
  { assert (exists e d, read_envelope 9 (decoded t_alone) = Ok e d) as (e & d & E) by (do 2 eexists; vm_compute; reflexivity).
    apply ContentsProofs.read_envelope_inv in E. apply AcceptProofs.accepts_only in E as [_ A]. now exists e. }
  intros e (body & (_ & _ & Hb) & (p & Hp & _ & q & Hq & Hd) & (p' & Hp' & (body' & xs & (_ & _ & Hb') & Hx & HP))) ts.
  injection Hb as <-. injection Hp as <-. injection Hq as <-. injection Hd as Hd. injection Hp' as <-. injection Hb' as <-.
  cbn [flat_map tree_children list_of map app] in Hx. inversion Hx as [|? x ? l A B]; subst. inversion B; subst. clear B Hx.
  fold ts in HP. apply Permutation_sym, Permutation_length_1_inv in HP. rewrite HP.
  assert (K : n_name x = "net.A" /\ n_descriptor x = "f:a" /\ forall k, named_by x k -> k = "net.B").
  { destruct x as [c|r]; [|destruct A as (? & ? & ? & (_ & (c & cs & E & Ec) & _) & _); injection E as <- _; discriminate].
    destruct A as (b & (_ & _ & Eb) & (p1 & E1 & F1) & _ & _ & (p2 & E2 & b2 & (_ & _ & E3) & p3 & E4 & F4) & p5 & E5 & F5).
    injection Eb as <-. injection E1 as <-. injection E2 as <-. injection E3 as <-. injection E4 as <-. injection E5 as <-.
    injection F1 as F1. injection F4 as F4. split; [now symmetry|]. split; [now symmetry|].
    cbn [tree_children list_of map] in F5. intros k (fd' & Hfd & Hk).
    destruct (c_fields c) as [|fd [|? ?]]; [destruct Hfd| |inversion F5 as [|? ? ? ? _ B]; inversion B]. inversion_clear F5 as [|? ? ? ? A _]. destruct Hfd as [<- |[]].
    destruct A as (b & rs & (_ & _ & G1) & _ & (p1 & G2 & G3) & _). injection G1 as <-. injection G2 as <-. injection G3 as G3.
    unfold SpecSchema.property_type in Hk. rewrite <- G3 in Hk. cbn in Hk. congruence. }
  destruct K as (K1 & K2 & K3).
  assert (M : forall k, mentioned [x] k -> k = "net.A" \/ k = "net.B").
  { intros k (u & [<- |[]] & [<- |Hk]); [now left|right; auto]. }
  split; [intros u [<- |[]]; now rewrite K1|]. split; [intros u v [<- |[]] [<- |[]]; reflexivity|].
  split; [split; [intros u [<- |[]] H; destruct (M _ H); discriminate|intros; apply U]|].
  split; [split; [intros u []|intros; apply U0]|]. split; [|left; cbn; congruence].
  intros r Hr. split; [|intros []]. intros [E|[E|[]]]; [|discriminate]. injection E as <-. destruct (M _ Hr); discriminate.
Qed.

(** For objects of a program: neither factory has been told about the types of
    the program, and no serialiser has been installed in only one of them for
    such a type. *)
Theorem C79_objects : forall fmt custom mo kf P T root h1 f1 h2 f2,
  in_order P -> In T (types_of P) -> of_type P T root -> well_formed root ->
  run_well mo h1 new_factory f1 -> run_well mo h2 new_factory f2 ->
  (forall u, In u (entries_of h1) \/ In u (entries_of h2) -> ~ spoken_of P (n_name u)) ->
  (forall r, spoken_of P (reader_type r) -> In (Install r) h1 <-> In (Install r) h2) ->
  exists blob w, serialise_blob root new_writer = Ok blob w /\
    exists n, forall fuel, n < fuel ->
    same_result (dumpContents fmt custom mo kf fuel (blob, f1)) (dumpContents fmt custom mo kf fuel (blob, f2)).
Proof. exact objects_other_uses. Qed.
Print Assumptions C79_objects.
Example C79_ex_objects : forall mo, in_order program12 /\ (forall m, of_type program12 (class "DeSerialiseMe") (object12 m)) /\
  well_formed (object12 [(1%Z, [("a", [2; 3]%Z)])]) /\
  exists f, run_well mo h_other new_factory f /\ (forall u, In u (entries_of h_other) \/ In u (entries_of []) -> ~ spoken_of program12 (n_name u)) /\
    (forall r, spoken_of program12 (reader_type r) -> In (Install r) h_other <-> In (Install r) []).
Proof.
  intros mo. split; [apply orderlyb_ok; reflexivity|]. split; [exact type12|]. split; [cbn; tauto|].
  destruct (h_other_runs mo) as (f & R). exists f. split; [exact R|].
  assert (N : forall k, ~ In k (map java_of (types_of program12)) -> (forall t, k <> m_type t /\ k <> java_of (Prim t)) -> ~ spoken_of program12 k).
  { intros k H1 H2 [H|(t & [H|H])]; [contradiction|elim (proj1 (H2 t) H)|elim (proj2 (H2 t) H)]. }
  split.
  - intros u [[<- |[]]|[]]. apply N; [vm_compute; intuition discriminate|intros []; split; discriminate].
  - intros r Hr. split; [|intros []]. intros [E|[E|[]]]; [|discriminate]. injection E as <-. revert Hr.
    apply N; [vm_compute; intuition discriminate|intros []; split; discriminate].
Qed.

(** C80.  What inspection gives with a new factory is what the blob-inspector
    shows of the file that holds the object; where inspection throws, the
    exception escapes. *)
Theorem C80_object_file : forall fmt custom P T root result,
  in_order P -> In T (types_of P) -> of_type P T root -> well_formed root -> ~ spoken_of P "java.security.PublicKey" ->
  inspection fmt custom root result -> file_inspection fmt custom root result.
Proof. exact object_file. Qed.
Print Assumptions C80_object_file.

(** All objects of bin/writer-tests are of this kind: C78 says what is shown. *)
Theorem C80_writer_tests : forall fmt custom root result,
  sample root -> inspection fmt custom root result -> file_inspection fmt custom root result.
Proof. exact sample_file. Qed.
Print Assumptions C80_writer_tests.
(** In particular the first; and the float ends the inspector, *)
Theorem C80_first_test : forall fmt custom val,
  file_inspection fmt custom (object1 val) (inl ("{ Parsed : { m_val : " ++ dec val ++ ", m_val2 : " ++ dec (val + 50) ++ " } }")).
Proof. intros. apply C80_writer_tests; [constructor|apply test1]. Qed.
Print Assumptions C80_first_test.
(** ... as do vectors and maps without elements. *)
Theorem C80_terminated_refuted : forall fmt custom,
  (forall a b c d e, file_inspection fmt custom (object4 a b c d e) (inr RuntimeError)) /\
  file_inspection fmt custom (object8 []) (inr RuntimeError) /\
  file_inspection fmt custom (object9 []) (inr RuntimeError) /\
  file_inspection fmt custom (object11 []) (inr RuntimeError) /\
  (forall m, (forall k is, In (k, is) m -> is = []) -> file_inspection fmt custom (object12 m) (inr RuntimeError)).
Proof.
  intros fmt custom. split; [intros; apply C80_writer_tests; [constructor|apply test4]|].
  split; [apply C80_writer_tests; [constructor|apply test8_empty]|]. split; [apply C80_writer_tests; [constructor|apply test9_empty]|].
  split; [apply C80_writer_tests; [constructor|apply test11_empty]|]. intros m H. apply C80_writer_tests; [constructor|now apply test12_empty].
Qed.
Print Assumptions C80_terminated_refuted.
(** A file with the object of writer-test-01; the letter T stands for what proton
    would write. *)
Example C80_ex : forall fmt custom, exists blob w t, serialise_blob (object1 100) new_writer = Ok blob w /\ forest blob = [t] /\
  decodes (fun _ => Some t) (fun _ => "T") blob /\ fits (magic ++ String "000" "T") /\
  SpecTools.shows (blob_inspector (fun _ => Some t) fmt custom true true 40 (fun _ => saved (fun _ => "T") blob) ["bi"; "file"])
    "{ Parsed : { m_val : 100, m_val2 : 150 } }".
Proof.
  intros fmt custom. do 3 eexists. split; [vm_compute; reflexivity|]. split; [reflexivity|]. split; [eexists; split; reflexivity|].
  split; [cbn; repeat constructor|]. vm_compute. reflexivity.
Qed.
