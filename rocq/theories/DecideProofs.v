(** The schema of an object, and whether it can be inspected, depend only on the
    types that occur in it. *)
From Coq Require Import Sorting.Sorted Permutation Lia.
From Verif Require Import Base Proton ProtonProofs TypeNames SpecTypes TypeNamesProofs MakePrimProofs Ordering Schema SpecSchema SchemaProofs
  SpecOrdering Descriptors SpecDescriptors DescriptorsProofs
  Factory SpecFactory FactoryProofs Readers SpecReaders Blob ReadersProofs
  Writer SpecWriter WriterProofs SpecWriteRead WriteReadProofs ManyProofs Programs SpecPrograms ProgramsProofs.
Import List ListNotations.
Open Scope string_scope.

Section Program.
Context (P : program).
Hypothesis (HP : in_order P).
Context (T : cpp) (root : item).
Hypothesis (HT : In T (types_of P)) (HR : of_type P T root).

Lemma entry_exact ws w : schema_for root ws -> In w ws -> exists u, In u (types_of P) /\ w = entry_of P u.
Proof.
  intros HS Hw. pose proof HS as (_ & _ & HD). rewrite Forall_forall in HD. pose proof (HD _ Hw) as H. destruct w as [c|r]; cbn in H.
  - destruct H as (Ho & El & Ep & _). destruct (class_instance _ _ Ho) as (ps & Hps).
    pose proof (instances_typed P HP (wc_name c, wc_fingerprint c) root T (listed_property P HP _ HT) HR) as Hi.
    destruct (instances (wc_name c, wc_fingerprint c) root) as [|props rest] eqn:Ei; [destruct Hps|]. rewrite Forall_forall in Hi.
    destruct (Hi props (or_introl eq_refl)) as (q & Hq & E & ->). injection E as En Ef. exists (Obj q). split; [exact Hq|].
    assert (Efs : wc_fields c = map declared_field (declared P q)).
    { destruct (listed_ok P HP _ Hq) as (_ & Hs & _).
      assert (Hnames : map w_name (map declared_field (declared P q)) = map fst (declared P q)).
      { rewrite map_map. apply map_ext. intros [n [| | | | |]]; reflexivity. }
      apply (order_exact root ws c (map declared_field (declared P q)) HS Hw); [|now rewrite Hnames].
      split; [|rewrite Hnames; now apply sorted_nodup]. rewrite Ei. apply Forall_forall. intros fs Hfs.
      destruct (Hi fs Hfs) as (q' & Hq' & E' & ->). injection E' as En' _. assert (java_of (Obj q) = java_of (Obj q')) as Ej by congruence. apply (java_inj P HP) in Ej; auto. injection Ej as ->. reflexivity. }
    cbn [entry_of]. f_equal. destruct c; cbn in *. now subst.
  - destruct H as (Ho & El & Ep & Ech). destruct (root_occurs P HP T root HT HR _ Ho) as (u & Hu & E). injection E as En Ef Ek. exists u. split; [exact Hu|].
    destruct u; try discriminate; injection Ek as Ek; cbn [entry_of]; f_equal; destruct r; cbn in *; now subst.
Qed.
Lemma entry_key u : type_key (entry_of P u) = (java_of u, fingerprint P u).
Proof. destruct u; reflexivity. Qed.
Theorem schema_exact ws : schema_for root ws -> exists us, occurring P root us /\ ws = map (entry_of P) us.
Proof.
  intros HS. assert (H : exists us, incl us (types_of P) /\ ws = map (entry_of P) us).
  { assert (H : forall w, In w ws -> exists u, In u (types_of P) /\ w = entry_of P u) by (intros; eapply entry_exact; eauto). clear HS.
    induction ws as [|w l IH]; [exists []; split; [intros ? []|reflexivity]|]. destruct (H w (or_introl eq_refl)) as (u & Hu & ->).
    destruct IH as (us & Hus & ->); [intros; apply H; now right|]. exists (u :: us). split; [|reflexivity]. intros x [<- |Hx]; auto. }
  destruct H as (us & Hus & ->). exists us. split; [|reflexivity]. destruct HS as (HS & HK & _). rewrite map_map in HS, HK.
  split.
  - intros u. split.
    + intros Hu. split; [now apply Hus|]. specialize (HK (type_key (entry_of P u))). destruct HK as [HK _].
      assert (Hin : In (type_key (entry_of P u)) (map fst (occurrences root))) by (apply HK, in_map_iff; eauto). rewrite entry_key in Hin.
      apply in_map_iff in Hin as ([[n fp] k] & E & Ho). injection E as -> ->. apply in_map_iff. eexists. split; [|exact Ho]. reflexivity.
    + intros [Hu Hn]. apply in_map_iff in Hn as ([[n fp] k] & En & Ho). cbn [fst] in En. apply (in_map fst) in Ho. rename Ho into Hin. cbn [fst] in Hin.
      apply HK in Hin. apply in_map_iff in Hin as (v & Ev & Hv). rewrite entry_key in Ev. injection Ev as Ev _. rewrite <- Ev in En.
      apply (java_inj P HP) in En; auto. now subst v.
  - clear HK. induction us as [|u us IH]; [constructor|]. cbn [map] in HS. inversion HS as [|? ? A B]; subst. constructor; [apply IH; auto; intros x Hx; apply Hus; now right|].
    rewrite Forall_forall in B |- *. intros v Hv. specialize (B _ (in_map (fun x => type_key (entry_of P x)) _ _ Hv)). rewrite !entry_key in B.
    destruct B as [B|[E B]]; [exact B|]. cbn in E. apply (java_inj P HP) in E; [|apply Hus; now left|apply Hus; now right]. subst v. exfalso. revert B. cbn. apply before_irrefl.
Qed.
End Program.

Lemma sorted_types_unique (l l' : list cpp) : StronglySorted (fun u v => before (java_of u) (java_of v)) l -> StronglySorted (fun u v => before (java_of u) (java_of v)) l' ->
  (forall u, In u l <-> In u l') -> l = l'.
Proof.
  revert l'. induction l as [|a l IH]; intros l' H1 H2 H.
  { destruct l' as [|b l']; [reflexivity|]. destruct (proj2 (H b) (or_introl eq_refl)). }
  destruct l' as [|b l']; [destruct (proj1 (H a) (or_introl eq_refl))|].
  inversion H1 as [|? ? A B]; subst. inversion H2 as [|? ? C D]; subst. rewrite Forall_forall in B, D.
  assert (a = b).
  { destruct (proj1 (H a) (or_introl eq_refl)) as [E|E]; [now symmetry|]. destruct (proj2 (H b) (or_introl eq_refl)) as [E'|E']; [assumption|].
    exfalso. apply (before_irrefl (java_of a)). exact (before_trans _ _ _ (B b E') (D a E)). }
  subst b. f_equal. apply IH; auto. intros u. split; intros Hu.
  - destruct (proj1 (H u) (or_intror Hu)) as [<- |E]; [|exact E]. exfalso. now apply (before_irrefl (java_of a)), B.
  - destruct (proj2 (H u) (or_intror Hu)) as [<- |E]; [|exact E]. exfalso. now apply (before_irrefl (java_of a)), D.
Qed.
Lemma occurring_unique P r r' us us' : occurring P r us -> occurring P r' us' -> (forall n, In n (names_in r) <-> In n (names_in r')) -> us = us'.
Proof.
  intros [A1 A2] [B1 B2] H. apply sorted_types_unique; auto. intros u. rewrite A1, B1, H. tauto.
Qed.

(** ** Inspecting, and what it depends on *)
Theorem inspect_result fmt custom mo kf root ws h cf fuel :
  can_inspect root -> kf = true \/ map_free (shown root) -> run mo h new_factory cf -> unrelated_history h root ->
  schema_for root ws -> height (envelope_tree (wire root) [ws] [leaf ANull]) < fuel ->
  exists levels, inserts notation dependsOn (all_results ws) [] = Ret levels /\
    let blob := decoded (envelope_tree (wire root) [ws] [leaf ANull]) in
    dumpContents fmt custom mo kf fuel (blob, cf)
    = match process mo (Schema.schema_of levels) cf with
      | Ok _ cf' => Ok ("{ Parsed : " ++ printed fmt dec (shown root) ++ " }") (blob, cf')
      | Throw e cf' => Throw e (blob, cf')
      | Abort => Abort | UB => UB | Fuel => Fuel
      end.
Proof.
  intros HC Hm HR HU HS Hfuel. pose proof HC as (HW & HT & HN & HI & HF & HP).
  pose proof (schema_readable root ws HI HS) as Hr.
  assert (Ec : List.concat [ws] = ws) by (cbn; apply app_nil_r).
  pose proof (all_results_means ws Hr) as H1. destruct (all_results_exact ws Hr) as [H2 H3].
  destruct (inserts_conserve _ H3) as (levels & Hi & Hperm & _). exists levels. split; [exact Hi|]. cbv zeta.
  destruct (whole_entry root ws _ HC HS H1) as (t & Ht & Hv & Hfp).
  destruct (encode_payload _ _ Hfp) as (body & Eb). rewrite (shown_wire _ _ HI) in Eb.
  rewrite <- (shown_wire _ _ HI) in Hfuel. destruct (blob_high _ _ _ _ Hfuel) as (m & Em). 
  set (e := {| e_schema := Schema.schema_of levels; e_descriptor := n_descriptor t |}).
  assert (E : dispatchDescribed (S fuel) (decoded (envelope_tree (wire root) [ws] [leaf ANull])) = Ok (EEnvelope e) (decoded (envelope_tree (wire root) [ws] [leaf ANull]))).
  { unfold decoded. rewrite Em, Eb, envelope_parses. unfold envelope_result, schema_result. rewrite Ec, (add_types_spec _ _ _ H2), Hi. reflexivity. }
  assert (Hp : Forall proper (all_results ws)).
  { rewrite Forall_forall in *. intros u Hu. apply entry_proper; auto. eapply names_not_primitive; eauto. }
  pose proof (whole_consistent root ws _ HC HS H1 h HU) as Hcons.
  destruct (process mo (Schema.schema_of levels) cf) as [[] cf'|ex cf'| | |] eqn:EP.
  2-5: unfold dumpContents; unfold bind at 1; unfold on_data at 1;
    rewrite (read_envelope_parsed fuel (decoded (envelope_tree (wire root) [ws] [leaf ANull])) e I E); unfold bind at 1, on_factory; cbn [e_schema e]; rewrite EP; reflexivity.
  rewrite <- (shown_wire _ _ HI) in E |- *.
  eapply contents_printed with (e := e) (t := t) (h := h); eauto using distinct_perm, consistent_perm, proper_perm.
  - eapply distinct_perm; [exact Hperm|]. eapply fingerprint_unique; eauto.
  - eapply incl_perm; eauto.
  - eapply conforms_incl; [eapply incl_perm; eauto|exact Hv].
Qed.

(** One schema and one outcome of processing it for all objects in which the
    same types occur. *)
Theorem same_types fmt custom mo kf P T r h cf :
  in_order P -> shows P -> In T (types_of P) -> of_type P T r -> nulls_ok (class_names r) r ->
  run mo h new_factory cf -> unrelated_history h r ->
  exists ws us (processed : outcome factory unit), occurring P r us /\ ws = map (entry_of P) us /\
    forall T' root, In T' (types_of P) -> of_type P T' root -> nulls_ok (class_names root) root ->
      (forall n, In n (names_in root) <-> In n (names_in r)) -> kf = true \/ map_free (shown root) ->
      let blob := decoded (envelope_tree (wire root) [ws] [leaf ANull]) in
      (exists w, serialise_blob root new_writer = Ok blob w) /\
      forall fuel, height (envelope_tree (wire root) [ws] [leaf ANull]) < fuel ->
      dumpContents fmt custom mo kf fuel (blob, cf)
      = match processed with
        | Ok _ cf' => Ok ("{ Parsed : " ++ printed fmt dec (shown root) ++ " }") (blob, cf')
        | Throw e cf' => Throw e (blob, cf')
        | Abort => Abort | UB => UB | Fuel => Fuel
        end.
Proof.
  intros HP HSh HT Hr Hn HR HU.
  pose proof (typed_can_inspect P HP HSh T r HT Hr Hn) as HC.
  pose proof HC as (HW & HTg & HN & HI & _). destruct (serialise_correct r) as (w & ws & E & HS); auto. { destruct r; try discriminate; reflexivity. }
  destruct (schema_exact P HP T r HT Hr ws HS) as (us & Hus & Ews).
  destruct (all_results_exact ws (schema_readable r ws HI HS)) as [_ H3].
  destruct (inserts_conserve _ H3) as (levels & Hi & _).
  exists ws, us, (process mo (Schema.schema_of levels) cf). split; [exact Hus|]. split; [exact Ews|].
  intros T' root HT' Hr' Hn' Hnames Hm. pose proof (typed_can_inspect P HP HSh T' root HT' Hr' Hn') as HC'.
  pose proof HC' as (HW' & HTg' & HN' & _). destruct (serialise_correct root) as (w' & ws' & E' & HS'); auto. { destruct root; try discriminate; reflexivity. }
  destruct (schema_exact P HP T' root HT' Hr' ws' HS') as (us' & Hus' & Ews').
  assert (us' = us) as -> by (eapply occurring_unique; eauto). subst ws' ws.
  cbv zeta. split; [eauto|]. intros fuel Hfuel.
  destruct (inspect_result fmt custom mo kf root (map (entry_of P) us) h cf fuel HC' Hm HR) as (levels' & Hi' & D); auto.
  { destruct HU as [A B]. split; [intros u Hu Hin; apply (A u Hu); now apply Hnames|].
    intros q Hq. destruct (B q Hq) as [B1 B2]. split; [exact B1|]. intros Hin. apply B2. now apply Hnames. }
  rewrite Hi in Hi'. injection Hi' as <-. exact D.
Qed.

(** ** Writing, and types listed in order *)
Theorem schema_written P T root :
  in_order P -> In T (types_of P) -> of_type P T root -> well_formed root ->
  exists w us, occurring P root us /\
    serialise_blob root new_writer = Ok (decoded (envelope_tree (wire root) [map (entry_of P) us] [leaf ANull])) w.
Proof.
  intros HP HT HR HW. pose proof (root_target P HP T root HT HR) as Htg.
  destruct (serialise_correct root) as (w & ws & E & HS); auto.
  { destruct root; try discriminate; reflexivity. }
  { eapply root_no_clash; eauto. }
  destruct (schema_exact P HP T root HT HR ws HS) as (us & Hus & ->). eauto.
Qed.
Theorem typed_shown fmt custom mo kf P T root h cf :
  in_order P -> shows P -> In T (types_of P) -> of_type P T root -> nulls_ok (class_names root) root ->
  elements_known root -> kf = true \/ map_free (shown root) -> run_well mo h new_factory cf -> unrelated_history h root ->
  exists w us, let tree := envelope_tree (wire root) [map (entry_of P) us] [leaf ANull] in
    occurring P root us /\ serialise_blob root new_writer = Ok (decoded tree) w /\
    forall fuel, height tree < fuel ->
    exists ts, Forall2 type_means (map (entry_of P) us) ts /\
      ((forall t, In t ts -> ~ uses t t) -> listed ts ->
       exists cf', dumpContents fmt custom mo kf fuel (decoded tree, cf)
                   = Ok ("{ Parsed : " ++ printed fmt dec (shown root) ++ " }") (decoded tree, cf')).
Proof.
  intros HP HSh HT HR HN HE Hm HRun HU. pose proof (typed_can_inspect P HP HSh T root HT HR HN) as HC.
  destruct (inspect_written_well fmt custom mo kf root h cf HC HE Hm HRun HU) as (w & ws & E & HS & H).
  destruct (schema_exact P HP T root HT HR ws HS) as (us & Hus & ->). exists w, us. cbv zeta. auto.
Qed.
