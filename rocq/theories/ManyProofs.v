(** Proofs about inspecting several serialised objects with one factory. *)
From Coq Require Import Lia Permutation Sorting.Sorted.
From Verif Require Import Base TypeNames SpecTypes TypeNamesProofs Proton ProtonProofs Descriptors SpecOrdering Schema SpecSchema SchemaProofs SpecDescriptors DescriptorsProofs
  Factory SpecFactory FactoryProofs Readers SpecReaders Blob ReadersProofs Writer SpecWriter WriterProofs SpecWriteRead WriteReadProofs.
Import List ListNotations.
Open Scope string_scope.

Lemma all_results_exact ws : Forall readable_type ws -> Forall2 (fun w t => type_result w = Ret t) ws (all_results ws) /\ Forall entry_ok (all_results ws).
Proof.
  intros H. destruct (type_results ws H) as (ts & H1 & _ & H3). replace (all_results ws) with ts; [now split|].
  clear - H1. induction H1 as [|w t ws ts E _ IH]; [reflexivity|]. unfold all_results in *. cbn [flat_map]. rewrite E. cbn. now f_equal.
Qed.

(** One object, with a factory whose history agrees with its types. *)
Lemma inspect_known fmt custom mo kf root ws h cf fuel :
  can_inspect root -> elements_known root -> schema_for root ws -> kf = true \/ map_free (shown root) ->
  run mo h new_factory cf -> (forall k, unpoisoned cf k) -> consistent h (all_results ws) ->
  (forall t, In t (all_results ws) -> ~ uses t t) -> listed (all_results ws) ->
  height (envelope_tree (wire root) [ws] [leaf ANull]) < fuel ->
  let blob := decoded (envelope_tree (wire root) [ws] [leaf ANull]) in
  exists s cf', Permutation (List.concat (s_types s)) (all_results ws) /\ Forall proper (all_results ws) /\ process mo s cf = Ok tt cf' /\
    dumpContents fmt custom mo kf fuel (blob, cf) = Ok ("{ Parsed : " ++ printed fmt dec (shown root) ++ " }") (blob, cf').
Proof.
  intros HC HE HS Hm HR Hclean Hcons H4 H5 Hfuel. cbv zeta. pose proof HC as (HW & HT & HN & HI & HF & HP).
  pose proof (schema_readable root ws HI HS) as Hr.
  assert (Ec : List.concat [ws] = ws) by (cbn; apply app_nil_r).
  pose proof (all_results_means ws Hr) as H1. destruct (all_results_exact ws Hr) as [H2 H3].
  rewrite <- (shown_wire _ _ HI) in Hfuel |- *.
  destruct (whole_entry root ws _ HC HS H1) as (t & Ht & Hv & Hfp).
  apply dump_known with (h := h) (t := t); auto.
  - now rewrite Ec.
  - eapply whole_regular; eauto.
  - intros u k Hu Hk. destruct (whole_closed root ws _ HC HS H1 HE u k Hu Hk) as [A|[A|A]]; [auto| |auto]. now elim A.
  - intros u Hu. eapply names_not_primitive; eauto.
  - eapply fingerprint_unique; eauto.
Qed.

(** Every class that occurs has an instance. *)
Lemma class_instance k root : In (k, Class) (occurrences root) -> exists ps, In ps (instances k root).
Proof.
  induction root using item_induction; cbn [occurrences instances]; try (now intros []).
  - intros [E|E].
    + injection E as <-. eexists. apply in_or_app. left. rewrite key_eqb_refl. now left.
    + apply in_flat_map in E as (p & Hp & E). rewrite Forall_forall in H. destruct (H p Hp E) as (ps' & Hps).
      exists ps'. apply in_or_app. right. apply in_flat_map. eauto.
  - intros [E|E]; [discriminate|]. apply in_flat_map in E as (p & Hp & E). rewrite Forall_forall in H. destruct (H p Hp E) as (ps' & Hps).
    exists ps'. apply in_flat_map. eauto.
  - intros [E|E]; [discriminate|]. apply in_flat_map in E as (p & Hp & E). rewrite Forall_forall in H. destruct (H p Hp) as [A B].
    apply in_app_or in E as [E|E]; [destruct (A E) as (ps' & Hps)|destruct (B E) as (ps' & Hps)];
      exists ps'; apply in_flat_map; exists p; (split; [exact Hp|]); apply in_or_app; auto.
  - auto.
Qed.
(** The properties of every instance are in order. *)
Lemma instance_sorted classes k root ps : inspectable classes root -> In ps (instances k root) -> StronglySorted before (map w_name ps).
Proof.
  induction root using item_induction; cbn [inspectable instances]; try (now intros _ []).
  - intros (_ & Hs & Hi) Hin. apply fold_and' in Hi. apply in_app_or in Hin as [Hin|Hin].
    + destruct (key_eqb k (n, fp)); [|destruct Hin]. destruct Hin as [<- |[]]. rewrite map_map. exact Hs.
    + apply in_flat_map in Hin as (p & Hp & Hin). rewrite Forall_forall in *. eapply H; eauto. apply Hi, Hp.
  - intros (e & _ & _ & Hi) Hin. apply fold_and' in Hi. apply in_flat_map in Hin as (p & Hp & Hin). rewrite Forall_forall in *. eapply H; eauto. apply Hi, Hp.
  - intros (a & b & _ & _ & _ & Hi) Hin. apply fold_and' in Hi. apply in_flat_map in Hin as (p & Hp & Hin). rewrite Forall_forall in *.
    destruct (H p Hp) as [A B]. destruct (Hi p Hp) as [[_ C] [_ D]]. apply in_app_or in Hin as [Hin|Hin]; auto.
  - auto.
Qed.

Lemma class_fields root ws c ps : can_inspect root -> schema_for root ws -> In (WClass c) ws ->
  In ps (instances (wc_name c, wc_fingerprint c) root) -> wc_fields c = ps.
Proof.
  intros (HW & HT & HN & HI & HF & HP) HS Hc Hps. pose proof (instance_sorted _ _ _ _ HI Hps) as Hs.
  apply (order_exact root ws c ps); auto. split; [|now apply sorted_nodup].
  apply Forall_forall. intros q Hq. eapply HP; eauto.
Qed.

(** The entries for one name are equal. *)
Lemma agree_entries roots r1 r2 ws1 ws2 w1 w2 : agree roots -> In r1 roots -> In r2 roots -> can_inspect r1 -> can_inspect r2 ->
  schema_for r1 ws1 -> schema_for r2 ws2 -> In w1 ws1 -> In w2 ws2 -> fst (type_key w1) = fst (type_key w2) -> w1 = w2.
Proof.
  intros [HA HB] R1 R2 C1 C2 S1 S2 W1 W2 E.
  pose proof S1 as (_ & _ & D1). pose proof S2 as (_ & _ & D2). rewrite Forall_forall in D1, D2.
  pose proof (D1 _ W1) as E1. pose proof (D2 _ W2) as E2.
  assert (HO : forall r o, In r roots -> In o (occurrences r) -> In o (flat_map occurrences roots)) by (intros; apply in_flat_map; eauto).
  destruct w1 as [c1|x1], w2 as [c2|x2]; cbn [describes] in E1, E2; cbn [type_key fst] in E.
  - destruct E1 as (O1 & L1 & P1 & _), E2 as (O2 & L2 & P2 & _).
    pose proof (HA _ _ (HO _ _ R1 O1) (HO _ _ R2 O2) E) as Eq. injection Eq as En Ef.
    destruct (class_instance _ _ O1) as (p1 & I1). destruct (class_instance _ _ O2) as (p2 & I2).
    pose proof (class_fields r1 ws1 c1 p1 C1 S1 W1 I1) as F1. pose proof (class_fields r2 ws2 c2 p2 C2 S2 W2 I2) as F2.
    assert (p1 = p2). { apply (HB (wc_name c1, wc_fingerprint c1)); apply in_flat_map; [exists r1|exists r2]; split; auto. now rewrite En, Ef. }
    destruct c1, c2; cbn in *; subst; reflexivity.
  - destruct E1 as (O1 & _), E2 as (O2 & _). pose proof (HA _ _ (HO _ _ R1 O1) (HO _ _ R2 O2) E) as Eq. discriminate.
  - destruct E1 as (O1 & _), E2 as (O2 & _). pose proof (HA _ _ (HO _ _ R1 O1) (HO _ _ R2 O2) E) as Eq. discriminate.
  - destruct E1 as (O1 & L1 & P1 & Q1), E2 as (O2 & L2 & P2 & Q2).
    pose proof (HA _ _ (HO _ _ R1 O1) (HO _ _ R2 O2) E) as Eq. injection Eq as En Ef Es.
    destruct x1, x2; cbn in *; subst; reflexivity.
Qed.

Lemma agree_results roots r1 r2 ws1 ws2 t1 t2 : agree roots -> In r1 roots -> In r2 roots -> can_inspect r1 -> can_inspect r2 ->
  schema_for r1 ws1 -> schema_for r2 ws2 -> In t1 (all_results ws1) -> In t2 (all_results ws2) -> n_name t1 = n_name t2 -> t1 = t2.
Proof.
  intros HA R1 R2 C1 C2 S1 S2 T1 T2 E.
  assert (K : forall r ws t, can_inspect r -> schema_for r ws -> In t (all_results ws) ->
            exists w, In w ws /\ type_result w = Ret t /\ fst (type_key w) = n_name t).
  { intros r ws t C S T. pose proof C as (_ & _ & _ & HI & _). pose proof (schema_readable r ws HI S) as Hr.
    unfold all_results in T. apply in_flat_map in T as (w & Hw & T). destruct (type_result w) as [t'| | | |] eqn:Et; try destruct T; subst; [|contradiction].
    exists w. split; [exact Hw|]. split; [exact Et|]. rewrite Forall_forall in Hr. destruct (type_result_spec w (Hr w Hw)) as (t' & Q1 & Q2 & _).
    rewrite Et in Q1. injection Q1 as <-. pose proof (means_key r ws HI S w t Hw Q2) as Q. rewrite <- Q. reflexivity. }
  destruct (K r1 ws1 t1 C1 S1 T1) as (w1 & W1 & Q1 & N1). destruct (K r2 ws2 t2 C2 S2 T2) as (w2 & W2 & Q2 & N2).
  assert (w1 = w2) by (apply (agree_entries roots r1 r2 ws1 ws2); auto; congruence). subst. congruence.
Qed.

Definition blob_of (root : item) (ws : list wire_type) : data := decoded (envelope_tree (wire root) [ws] [leaf ANull]).

(** The history [h] of the factory so far consists of unrelated operations and of
    schemas of some of the objects. *)
Definition seen (roots : list item) (h : list op) : Prop :=
  (forall u, In u (entries_of h) ->
     (forall r, In r roots -> ~ In (n_name u) (names_in r)) \/
     exists r ws, In r roots /\ schema_for r ws /\ In u (all_results ws)) /\
  (forall x r, In (Install x) h -> In r roots -> typeIsPrimitive (reader_type x) = false /\ ~ In (reader_type x) (names_in r)).

Lemma seen_consistent roots h root ws : agree roots -> Forall can_inspect roots -> seen roots h -> In root roots -> schema_for root ws ->
  consistent h (all_results ws).
Proof.
  intros HA HC [H1 H2] HR HS. rewrite Forall_forall in HC.
  assert (HN : forall t, In t (all_results ws) -> In (n_name t) (names_in root)).
  { intros t Ht. eapply whole_names; eauto. apply all_results_means. pose proof (HC _ HR) as (_ & _ & _ & HI & _). now apply (schema_readable root ws). }
  split.
  - intros t u Ht Hu E. apply in_app_or in Hu as [Hu|Hu].
    + destruct (H1 u Hu) as [N|(r & ws' & Hr & Hs & Hu')].
      * elim (N root HR). rewrite E. auto.
      * apply (agree_results roots r root ws' ws); auto.
    + apply (agree_results roots root root ws ws); auto.
  - intros x Hx. destruct (H2 x root Hx HR) as [A B]. split; [exact A|]. intros t Ht E. apply B. rewrite E. auto.
Qed.

Lemma run_snoc mo h f s f' : run mo h new_factory f -> Forall proper (List.concat (s_types s)) -> process mo s f = Ok tt f' ->
  run mo (h ++ [Process s])%list new_factory f'.
Proof.
  generalize new_factory. intros g H Hp E. induction H as [f|o h f f1 f2 Hc Hs _ IH]; cbn.
  - eapply run_cons; [exact Hp|left; exact E|constructor].
  - eapply run_cons; eauto.
Qed.

Lemma inspect_many fmt custom mo kf fuel roots : agree roots -> Forall can_inspect roots -> Forall elements_known roots ->
  kf = true \/ Forall (fun r => map_free (shown r)) roots ->
  forall l wss h cf, incl l roots -> Forall2 schema_for l wss ->
  Forall (fun ws => (forall t, In t (all_results ws) -> ~ uses t t) /\ listed (all_results ws)) wss ->
  Forall2 (fun r ws => height (envelope_tree (wire r) [ws] [leaf ANull]) < fuel) l wss ->
  run mo h new_factory cf -> (forall k, unpoisoned cf k) -> seen roots h ->
  exists cf', inspect_each fmt custom mo kf fuel (map (fun p => blob_of (fst p) (snd p)) (combine l wss)) cf
    = Some (map (fun r => "{ Parsed : " ++ printed fmt dec (shown r) ++ " }") l, cf').
Proof.
  intros HA HC HE Hm l wss h cf Hl HS. revert h cf Hl. induction HS as [|r ws l wss Hs HS IH]; intros h cf Hl HO HH HR Hclean Hseen.
  - exists cf. reflexivity.
  - inversion HO as [|? ? [O1 O2] HO']; subst. inversion HH as [|? ? ? ? Hh HH']; subst.
    assert (Hr : In r roots) by (apply Hl; now left).
    pose proof (seen_consistent _ _ _ _ HA HC Hseen Hr Hs) as Hcons.
    assert (HCr : can_inspect r) by (rewrite Forall_forall in HC; auto).
    destruct (inspect_known fmt custom mo kf r ws h cf fuel) as (s & cf1 & Hp & Hpr & HP & HD); auto.
    { rewrite Forall_forall in HE; auto. }
    { destruct Hm as [Hm|Hm]; [now left|right]. rewrite Forall_forall in Hm. auto. }
    destruct (IH (h ++ [Process s])%list cf1) as (cf2 & E2); auto.
    { intros x Hx. apply Hl. now right. }
    { eapply run_snoc; eauto. eapply proper_perm; eauto. }
    { intros k. exact (settles_effect mo (Process s) cf tt cf1 Hclean HP k). }
    { destruct Hseen as [S1 S2]. split.
      - intros u Hu. unfold entries_of in Hu. rewrite map_app, concat_app in Hu. apply in_app_or in Hu as [Hu|Hu]; [now apply S1|].
        cbn in Hu. rewrite app_nil_r in Hu. right. exists r, ws. split; [exact Hr|]. split; [exact Hs|]. eapply Permutation_in; eauto.
      - intros x q Hx Hq. apply in_app_or in Hx as [Hx|[Hx|[]]]; [now apply S2|discriminate]. }
    exists cf2. cbn [combine map fst snd inspect_each]. unfold blob_of at 1. rewrite HD, E2. reflexivity.
Qed.

Theorem inspect_in_a_row : forall fmt custom mo kf roots h cf,
  agree roots -> Forall can_inspect roots -> Forall elements_known roots ->
  kf = true \/ Forall (fun r => map_free (shown r)) roots ->
  run_well mo h new_factory cf -> Forall (unrelated_history h) roots ->
  exists wss tss,
    Forall2 (fun r ws => schema_for r ws /\
      exists w, serialise_blob r new_writer = Ok (decoded (envelope_tree (wire r) [ws] [leaf ANull])) w) roots wss /\
    Forall2 (Forall2 type_means) wss tss /\
    (Forall (fun ts => (forall t, In t ts -> ~ uses t t) /\ listed ts) tss ->
     forall fuel, Forall2 (fun r ws => height (envelope_tree (wire r) [ws] [leaf ANull]) < fuel) roots wss ->
     exists cf', inspect_each fmt custom mo kf fuel
                   (map (fun p => decoded (envelope_tree (wire (fst p)) [snd p] [leaf ANull])) (combine roots wss)) cf
       = Some (map (fun r => "{ Parsed : " ++ printed fmt dec (shown r) ++ " }") roots, cf')).
Proof.
  intros fmt custom mo kf roots h cf HA HC HE Hm HR HU. apply successes_clean in HR as [HR Hclean].
  assert (exists wss, Forall2 (fun r ws => schema_for r ws /\
      exists w, serialise_blob r new_writer = Ok (decoded (envelope_tree (wire r) [ws] [leaf ANull])) w) roots wss) as (wss & HS).
  { clear - HC. induction HC as [|r l (HW & HT & HN & HI & HF & HP) HC (wss & IH)]; [exists []; constructor|].
    destruct (serialise_correct r) as (w & ws & E & HS); auto. { destruct r; try discriminate; reflexivity. }
    exists (ws :: wss). constructor; eauto. }
  exists wss, (map all_results wss). split; [exact HS|]. split.
  - clear - HC HS. induction HS as [|r ws l wss [Hs _] HS IH]; cbn; constructor.
    + apply all_results_means. inversion HC as [|? ? (_ & _ & _ & HI & _) _]; subst. now apply (schema_readable r ws).
    + apply IH. now inversion HC.
  - intros HO fuel HH. rewrite Forall_map in HO. apply (inspect_many fmt custom mo kf fuel roots HA HC HE Hm roots wss h cf); auto.
    + intros x Hx. exact Hx.
    + clear - HS. induction HS as [|r ws l wss [Hs _] HS IH]; constructor; auto.
    + rewrite Forall_forall in HU. split.
      * intros u Hu. left. intros r Hr. now apply (HU r Hr).
      * intros x r Hx Hr. now apply (HU r Hr).
Qed.

(** ** Example *)
Lemma pet_inspectable n : can_inspect (pet n).
Proof.
  split; [cbn; tauto|]. split; [reflexivity|]. split; [|split; [|split]].
  - intros k s H1 H2. cbn in H1, H2. destruct H1 as [H1|[]], H2 as [H2|[]]. congruence.
  - cbn [inspectable pet fold_right fst snd]. split; [repeat split; discriminate|]. split; [repeat constructor|]. cbn. auto.
  - intros a b H1 H2. cbn in H1, H2. destruct H1 as [<- |[]], H2 as [<- |[]]. tauto.
  - intros k a b H1 H2. cbn [pet instances flat_map app map snd] in H1, H2. rewrite app_nil_r in H1, H2.
    destruct (key_eqb k _); [|destruct H1]. destruct H1 as [<- |[]], H2 as [<- |[]]. reflexivity.
Qed.
Lemma pet_known n : elements_known (pet n).
Proof. split; [intros e _ H|intros k v _ _ H]; exfalso; cbn in H; destruct H as [H|[]]; discriminate. Qed.

Theorem owners_in_a_row : let roots := [owner; pet "Felix"; owner] in
  agree roots /\ Forall can_inspect roots /\ Forall elements_known roots /\ Forall (fun r => map_free (shown r)) roots /\
  Forall (unrelated_history [Install RPublicKey]) roots /\ (exists cf, run_well true [Install RPublicKey] new_factory cf) /\
  exists tss, Forall2 (Forall2 type_means) [ws_owner; [wclass "app.Pet" "f:pet" [wfield "name" "string" [] false]]; ws_owner] tss /\
    Forall (fun ts => (forall t, In t ts -> ~ uses t t) /\ listed ts) tss.
Proof.
  intros roots. split; [|split; [|split; [|split; [|split; [|split]]]]].
  - split.
    + intros a b H1 H2. vm_compute in H1, H2. in_cases H1; in_cases H2; subst; cbn; intros; congruence.
    + change (same_properties (IVector "" "" roots)). same.
  - repeat apply Forall_cons; try apply Forall_nil; auto using owner_inspectable, pet_inspectable.
  - repeat apply Forall_cons; try apply Forall_nil; auto using owner_known, pet_known.
  - repeat constructor.
  - repeat apply Forall_cons; try apply Forall_nil; (split; [intros u []|]; intros r [E|[]]; injection E as <-; split; [reflexivity|]; cbn; intros H; in_cases H; discriminate).
  - eexists. eapply well_cons; [split; [exact I|reflexivity]|reflexivity|apply well_nil].
  - destruct owner_listed as (ts & H1 & H2 & H3). exists [ts; all_results [wclass "app.Pet" "f:pet" [wfield "name" "string" [] false]]; ts]. split.
    + constructor; [exact H1|]. constructor; [|constructor; [exact H1|constructor]].
      apply all_results_means. constructor; [|constructor]. split; [|reflexivity]. constructor; [|constructor]. split; [left; reflexivity|discriminate].
    + repeat apply Forall_cons; try apply Forall_nil; auto.
      assert (H : regular (all_results [wclass "app.Pet" "f:pet" [wfield "name" "string" [] false]]) /\
        dependencies_first uses (all_results [wclass "app.Pet" "f:pet" [wfield "name" "string" [] false]])) by (apply first_check; vm_compute; reflexivity).
      destruct H as [H4 H5]. split; [apply H4|now apply first_listed].
Qed.
