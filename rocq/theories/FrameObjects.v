(** Inspecting the objects of a program with a factory that has been used for
    other things. *)
From Coq Require Import Sorting.Sorted Permutation Lia.
From Verif Require Import Base Proton ProtonProofs TypeNames SpecTypes TypeNamesProofs MakePrimProofs Ordering Schema SpecSchema SchemaProofs
  SpecOrdering Descriptors SpecDescriptors DescriptorsProofs
  Factory SpecFactory FactoryProofs Readers SpecReaders Blob ReadersProofs
  Writer SpecWriter WriterProofs SpecWriteRead WriteReadProofs ManyProofs Programs SpecPrograms ProgramsProofs DecideProofs HiddenProofs
  CordaFile SpecFile CordaFileProofs Tools SpecTools ToolsProofs ProgramChecks WriterTests SpecWriterTests WriterTestsProofs SpecFrame FrameProofs.
Import List ListNotations.
Open Scope string_scope.

Section Program.
Context (P : program).
Hypothesis (HP : in_order P).
Context (T : cpp) (root : item) (ws : list wire_type).
Hypothesis (HT : In T (types_of P)) (HR : of_type P T root) (HS : schema_for root ws).
Let ts := all_results ws.

Lemma read_types : Forall2 type_means ws ts.
Proof. apply all_results_means. eapply typed_readable; eauto. Qed.
Lemma mentioned_spoken k : mentioned ts k -> spoken_of P k.
Proof.
  pose proof read_types as HM. intros (t & Ht & Hk). destruct (named_listed P HP T root HT HR _ (entry_named P HP T root ws ts HT HR HS HM t Ht)) as (u & Hu & En & Ho).
  assert (J : forall v, In v (types_of P) -> spoken_of P (java_of v)) by (intros v Hv; left; now apply in_map).
  destruct Hk as [<- |Hk]; [rewrite En; auto|].
  assert (In (java_of u) (names_in root)) as Hn by (rewrite <- En; exact (entry_named P HP T root ws ts HT HR HS HM t Ht)).
  assert (JE : forall e, element_ok P e -> spoken_of P (java_of e)).
  { intros e He. destruct e as [p| | | | |]; try contradiction; try (apply J; exact He). right. exists p. now right. }
  pose proof (listed_ok P HP _ Hu) as K. destruct u as [p|p|c|e|k0 v|x]; try contradiction.
  - destruct (class_instance _ _ Ho) as (ps & Hps).
    pose proof (instances_typed P HP (java_of (Obj c), Programs.fingerprint P (Obj c)) root T (listed_property P HP _ HT) HR) as Hi. rewrite Forall_forall in Hi.
    destruct (Hi ps Hps) as (q & Hq & E & ->). injection E as En' _. apply (java_inj P HP) in En'; auto. injection En' as <-.
    destruct (class_fields P HP T root ws ts HT HR HS HM c Hu Hn Hps) as (x & Hx & Ex & Hf).
    assert (t = TComposite x) by (apply (same_entry P HP T root ws ts HT HR HS HM); [assumption|assumption|rewrite En; symmetry; exact Ex]). subst t. destruct Hk as (fd & Hfd & Hk).
    assert (exists d, In d (declared P c) /\ SpecSchema.property_type fd = Some (name_for (snd d))) as (d & Hd & Ed).
    { clear - Hf Hfd. induction Hf as [|d fd' ds fds A B IH]; [destruct Hfd|]. destruct Hfd as [<- |Hfd]; [exists d; split; [now left|exact A]|].
      destruct (IH Hfd) as (d' & H1 & H2). exists d'. split; [now right|exact H2]. }
    rewrite Hk in Ed. injection Ed as ->.
    destruct K as (_ & _ & K). rewrite Forall_forall in K. specialize (K d Hd). destruct (snd d) as [p|p|c'|e|k1 v|x']; cbn [name_for]; try (apply J; exact K).
    + right. exists p. now left.
    + right. exists p. now left.
    + exact (J x' K).
  - destruct (vector_entry P HP T root ws ts HT HR HS HM e Hu Hn) as (x & Hx & Ex & E1 & E2).
    assert (t = TRestricted x) by (apply (same_entry P HP T root ws ts HT HR HS HM); [assumption|assumption|rewrite En; symmetry; exact Ex]). subst t. cbn in Hk. rewrite E1, E2 in Hk. destruct Hk as [<- |[]]. now apply JE.
  - destruct (map_entry P HP T root ws ts HT HR HS HM k0 v Hu Hn) as (x & Hx & Ex & E1 & E2). destruct K as [K1 K2].
    assert (t = TRestricted x) by (apply (same_entry P HP T root ws ts HT HR HS HM); [assumption|assumption|rewrite En; symmetry; exact Ex]). subst t. cbn in Hk. rewrite E1, E2 in Hk. destruct Hk as [<- |[<- |[]]]; now apply JE.
Qed.

(** What is read from the blob. *)
Lemma written_read fuel : height (envelope_tree (wire root) [ws] [leaf ANull]) < fuel ->
  exists e, read_envelope fuel (decoded (envelope_tree (wire root) [ws] [leaf ANull])) = Ok e (decoded (envelope_tree (wire root) [ws] [leaf ANull])) /\
    Permutation (List.concat (s_types (e_schema e))) ts /\ In (e_descriptor e) (map n_descriptor (List.concat (s_types (e_schema e)))).
Proof.
  intros Hfuel. pose proof read_types as HM. destruct (all_results_exact ws) as [H2 H3]; [eapply typed_readable; eauto|]. fold ts in H2, H3.
  destruct (inserts_conserve _ H3) as (levels & Hi & Hperm & _).
  assert (Hp : exists fp body, wire root = payload_tree fp body /\ In fp (map n_descriptor ts)).
  { assert (Hin : exists n fp body k, wire root = payload_tree fp body /\ In ((n, fp), k) (occurrences root)).
    { pose proof (root_target P HP T root HT HR) as Htg. destruct root as [| |n fp ps|n fp es|n fp kvs|]; try discriminate; cbn [wire].
      - exists n, fp, [list_of (map (fun p => wire (snd (snd p))) ps)], Class. split; [reflexivity|now left].
      - exists n, fp. do 2 eexists. split; [reflexivity|now left].
      - exists n, fp. do 2 eexists. split; [reflexivity|now left]. }
    destruct Hin as (n & fp & body & k & Ew & Hk). exists fp, body. split; [exact Ew|].
    destruct HS as (_ & K & _). apply (in_map fst) in Hk. cbn [fst] in Hk. apply K in Hk.
    rewrite <- (entries_keys_same root ws (root_occurrences P HP T root HT HR) HS ts HM) in Hk. apply in_map_iff in Hk as (t & E & Ht). injection E as _ <-. now apply in_map. }
  destruct Hp as (fp & body & Ew & Hfp).
  assert (exists m, S fuel = S (S (S (S m)))) as (m & Em).
  { revert Hfuel. rewrite Ew. unfold envelope_tree, described, list_of, payload_tree. rewrite !height_node, !heights_cons, !height_node, !heights_cons, !height_node. intros H.
    destruct fuel as [|[|[|n]]]; try lia. eauto. }
  exists {| e_schema := Schema.schema_of levels; e_descriptor := fp |}. split; [|split].
  - apply read_envelope_parsed; [exact I|]. unfold decoded. rewrite Em, Ew, envelope_parses. unfold envelope_result, schema_result.
    assert (Ec : List.concat [ws] = ws) by (cbn; apply app_nil_r). rewrite Ec, (add_types_spec _ _ _ H2), Hi. reflexivity.
  - exact Hperm.
  - cbn [e_descriptor e_schema]. apply in_map_iff in Hfp as (t & E & Ht). apply in_map_iff. exists t. split; [exact E|].
    eapply Permutation_in; [apply Permutation_sym; exact Hperm|exact Ht].
Qed.
End Program.

Theorem objects_other_uses fmt custom mo kf P T root h1 f1 h2 f2 :
  in_order P -> In T (types_of P) -> of_type P T root -> well_formed root ->
  run_well mo h1 new_factory f1 -> run_well mo h2 new_factory f2 ->
  (forall u, In u (entries_of h1) \/ In u (entries_of h2) -> ~ spoken_of P (n_name u)) ->
  (forall r, spoken_of P (reader_type r) -> In (Install r) h1 <-> In (Install r) h2) ->
  exists blob w, serialise_blob root new_writer = Ok blob w /\
    exists n, forall fuel, n < fuel ->
    same_result (dumpContents fmt custom mo kf fuel (blob, f1)) (dumpContents fmt custom mo kf fuel (blob, f2)).
Proof.
  intros HP HT HR HW R1 R2 HE HI. destruct (successes_clean _ _ _ R1) as [Q1 U1]. destruct (successes_clean _ _ _ R2) as [Q2 U2].
  pose proof (root_target P HP T root HT HR) as Htg.
  destruct (serialise_correct root) as (w & ws & E & HS); auto.
  { destruct root; try discriminate; reflexivity. }
  { eapply root_no_clash; eauto. }
  do 2 eexists. split; [exact E|]. exists (height (envelope_tree (wire root) [ws] [leaf ANull])). intros fuel Hfuel.
  apply (other_uses_read fmt custom mo kf fuel h1 f1 h2 f2 _ Q1 Q2). intros e Ee ts.
  destruct (written_read P HP T root ws HT HR HS fuel Hfuel) as (e' & Ee' & Hperm & Hd). rewrite Ee in Ee'. injection Ee' as <-. fold ts in Hperm, Hd.
  pose proof (read_types P HP T root ws HT HR HS) as HM.
  assert (Hin : forall u, In u ts -> In u (all_results ws)) by (intros u Hu; eapply Permutation_in; eauto).
  assert (Hsp : forall k, mentioned ts k -> spoken_of P k).
  { intros k (u & Hu & Hk). apply (mentioned_spoken P HP T root ws HT HR HS k). exists u. auto. }
  split; [|split; [|split; [|split; [|split]]]].
  - intros u Hu. eapply (entry_names P HP T root ws (all_results ws)); eauto.
  - intros u v Hu Hv. apply (same_entry P HP T root ws (all_results ws)); auto.
  - split; [intros u Hu Hm; apply (HE u (or_introl Hu)); auto|intros; apply U1].
  - split; [intros u Hu Hm; apply (HE u (or_intror Hu)); auto|intros; apply U2].
  - intros r Hr. apply HI. auto.
  - left. exact Hd.
Qed.

(** ** The blob-inspector *)
Theorem object_file fmt custom P T root result :
  in_order P -> In T (types_of P) -> of_type P T root -> well_formed root -> ~ spoken_of P "java.security.PublicKey" ->
  inspection fmt custom root result -> file_inspection fmt custom root result.
Proof.
  intros HP HT HR HW HK HI decode encode fs mo kf prog name blob w Hm E (t & Ef & Hd) Hs Hf.
  destruct (install_key mo) as (cf & E1 & E2).
  destruct (objects_other_uses fmt custom mo kf P T root [Install RPublicKey] cf [] new_factory HP HT HR HW E2 (well_nil _ _)) as (b & w' & E' & n & S).
  { intros u [[]|[]]. }
  { intros r Hr. split; [intros [Er|[]]; injection Er as <-; elim HK; exact Hr|intros []]. }
  rewrite E in E'. injection E' as <- _.
  destruct (HI mo kf Hm) as (b & w'' & E' & n' & D). rewrite E in E'. injection E' as <- _.
  exists (n + n'). intros fuel Hfuel. cbv zeta.
  rewrite Ef in Hf. pose proof (saved_file _ _ _ _ _ Ef Hs) as Hn.
  assert (blob = decoded t) as ->.
  { destruct (serialise_correct root) as (w0 & ws & E0 & _); auto.
    { pose proof (root_target P HP T root HT HR). destruct root; try discriminate; reflexivity. }
    { eapply root_no_clash; eauto. }
    rewrite E in E0. injection E0 as -> _. rewrite forest_decoded in Ef. injection Ef as <-. reflexivity. }
  destruct (good_file decode fmt custom mo kf (fun _ => "") (fun _ => "") (fun _ => "") fuel fs prog name "raw" _ _ (or_intror (or_introl eq_refl)) Hn Hf Hd) as (K1 & _).
  rewrite K1. unfold inspector_dump, bind, on_factory. rewrite E1. cbn [snd fst].
  specialize (S fuel ltac:(lia)). destruct (D fuel ltac:(lia)) as (cf' & D'). rewrite D' in S. unfold SpecTools.shows.
  destruct result as [text|ex]; cbn [same_result] in S;
    destruct (dumpContents fmt custom mo kf fuel (decoded t, cf)); try contradiction; destruct S as [<- _]; reflexivity.
Qed.

(** The objects of bin/writer-tests. *)
Definition placed (root : item) : Prop := exists P T, in_order P /\ In T (types_of P) /\ of_type P T root /\ well_formed root /\ ~ spoken_of P "java.security.PublicKey".
Lemma not_spoken P : ~ In "java.security.PublicKey" (map java_of (types_of P)) -> ~ spoken_of P "java.security.PublicKey".
Proof. intros H [K|([] & [K|K])]; try contradiction; discriminate. Qed.
Lemma placed_in P T r : orderlyb P = true -> SpecPrograms.shows P -> In T (types_of P) -> of_type P T r -> ~ In "java.security.PublicKey" (map java_of (types_of P)) -> placed r.
Proof.
  intros H1 H2 H3 H4 H5. apply orderlyb_ok in H1. exists P, T. repeat split; auto using not_spoken; try apply H1.
  eapply (typed_well_formed P H1 H2 r T); eauto using listed_property. pose proof (listed_ok P H1 T H3). destruct T; try contradiction; exact I.
Qed.
Ltac sampled prog n := apply (placed_in prog (class n)); [reflexivity|showing|cbn; tauto| |vm_compute; intuition discriminate].
Lemma sample_typed root : sample root -> placed root.
Proof.
  intros H. destruct H.
  - sampled program1 "DeSerialiseMe". cbn; intuition (auto; discriminate).
  - sampled program2 "DeSerialiseMe". cbn; intuition (auto; discriminate).
  - sampled program3 "DeSerialiseMe". cbn; intuition (auto; discriminate).
  - exists program4, (class "Outer"). split; [apply orderlyb_ok; reflexivity|]. split; [cbn; tauto|]. split; [cbn; intuition (auto; discriminate)|].
    split; [cbn; tauto|]. apply not_spoken. vm_compute. intuition discriminate.
  - sampled program5 "Recursive". apply type5.
  - sampled program6 "ContainsList". cbn. repeat split. elements. now split.
  - sampled program7 "ContainsList". cbn. repeat split. elements. now split.
  - sampled program8 "CompositeList". apply type8.
  - sampled program9 "ListOfLists". apply type9.
  - sampled program10 "MapIntInt". cbn. repeat split. elements. cbn. auto.
  - sampled program11 "DeSerialiseMe". apply type11.
  - sampled program12 "DeSerialiseMe". apply type12.
Qed.
Theorem sample_file fmt custom root result : sample root -> inspection fmt custom root result -> file_inspection fmt custom root result.
Proof. intros H HI. destruct (sample_typed root H) as (P & T & H1 & H2 & H3 & H4 & H5). eapply object_file; eauto. Qed.
