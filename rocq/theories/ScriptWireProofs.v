(** What a script writes, whatever throws (C87). *)
From Coq Require Import Sorting.Sorted.
From Verif Require Import Base Proton ProtonProofs Descriptors SpecDescriptors DescriptorsProofs Writer SpecWriter WriterProofs
  Script SpecScript ScriptProofs.
Import List ListNotations.
Open Scope string_scope.

Section Within.
Context (U : list (key * kind)).
Hypothesis (Hclash : forall k s, In (k, Class) U -> In (k, Container s) U -> False).

(** As [emits], with the exception that leaves. *)
Definition runs (e : option exn) (P : list key) (c : WM unit) (ts : list tree) (O : list (key * kind)) (F : key -> list wire_field) : Prop :=
  forall p m, tidy m -> agrees U m -> (forall k, In k P -> kind_at m k = Some Class) ->
  exists m', c (Writer p m) = ends e tt (Writer (put_all ts p) m') /\ grown O F m m'.

Lemma emits_runs P c ts O F : emits U P c ts O F -> runs None P c ts O F.
Proof. exact (fun H => H). Qed.

Lemma runs_seq e1 e2 P c1 ts1 O1 F1 c2 ts2 O2 F2 : incl (until e1 O1 O2) U ->
  runs e1 P c1 ts1 O1 F1 -> (e1 = None -> incl O2 U -> runs e2 P c2 ts2 O2 F2) ->
  runs (first_of e1 e2) P (c1 ;; c2) (until e1 ts1 ts2) (until e1 O1 O2) (fun k => until e1 (F1 k) (F2 k)).
Proof.
  intros HO H1 H2 p m T A HP. destruct (H1 p m T A HP) as (m1 & E1 & G1). destruct e1 as [e|]; cbn [until first_of ends] in *.
  - exists m1. unfold bind. rewrite E1. split; [reflexivity|exact G1].
  - apply incl_app_inv in HO as [HO1 HO2]. destruct (H2 eq_refl HO2 (put_all ts1 p) m1) as (m2 & E2 & G2).
    + apply G1.
    + exact (agrees_grown U Hclash _ _ _ _ HO1 A G1).
    + intros k Hk. rewrite (g_kind _ _ _ _ G1), (HP k Hk). reflexivity.
    + exists m2. unfold bind. rewrite E1, E2. split; [|eapply grown_trans; eauto].
      unfold put_all. now rewrite fold_left_app.
Qed.

Lemma runs_swallow e P c ts O F : runs e P c ts O F -> runs None P (swallow c) ts O F.
Proof.
  intros H p m T A HP. destruct (H p m T A HP) as (m1 & E1 & G1). exists m1. unfold swallow. rewrite E1. destruct e; auto.
Qed.

Lemma runs_ext e P c ts O F ts' O' F' : ts = ts' -> O = O' -> (forall k, F k = F' k) -> runs e P c ts O F -> runs e P c ts' O' F'.
Proof.
  intros <- <- E H p m T A HP. destruct (H p m T A HP) as (m' & E1 & G). exists m'. split; auto. eapply grown_ext; eauto.
Qed.
Lemma runs_weaken e P c ts O F : runs e [] c ts O F -> runs e P c ts O F.
Proof. intros H p m T A _. apply H; auto. intros k []. Qed.

Lemma runs_object e P n fp c ts O F : In ((n, fp), Class) U -> runs e ((n, fp) :: P) c ts O F ->
  runs e P (startComposite (n, fp) ;; finally c ended) [payload_tree fp [list_of ts]] (((n, fp), Class) :: O) F.
Proof.
  intros HU H p m T A HP. destruct (absent_grown (n, fp) Class p m T) as (m1 & E1 & G1).
  unfold startComposite, startSerializable. unfold bind at 1 2 3. rewrite E1. cbn [on_payload m_payload m_schemas snd].
  assert (A1 : agrees U m1). { eapply agrees_grown; eauto. intros x [<- |[]]. exact HU. }
  edestruct (H (pn_enter (pn_put AList (pn_put (ASymbol fp) (pn_enter (pn_put ADescribed p))))) m1) as (m2 & E2 & G2); auto.
  - apply G1.
  - intros k [<- |Hk].
    + rewrite (g_kind _ _ _ _ G1). destruct (kind_at m (n, fp)) as [[|s]|] eqn:E; cbn; auto.
      * now destruct (A _ _ HU E).
      * unfold first_kind. cbn [find fst]. now rewrite key_eqb_refl.
    + rewrite (g_kind _ _ _ _ G1), (HP k Hk). reflexivity.
  - exists m2. rewrite (finally_ends _ _ _ _ _ _ E2). split.
    + unfold ended. cbn [m_payload m_schemas]. now rewrite described_put.
    + exact (grown_trans _ _ _ _ _ _ _ G1 G2).
Qed.

Lemma runs_container e P n fp src a c ts O F : In ((n, fp), Container src) U ->
  (src = "list" /\ a = AList \/ src = "map" /\ a = AMap) ->
  runs e [] c ts O F ->
  runs e P (startRestricted (n, fp) src ;; finally c ended) [payload_tree fp [Node a ts]] (((n, fp), Container src) :: O) F.
Proof.
  intros HU Hs H p m T A HP. destruct (absent_grown (n, fp) (Container src) p m T) as (m1 & E1 & G1).
  assert (A1 : agrees U m1). { eapply agrees_grown; eauto. intros x [<- |[]]. exact HU. }
  edestruct (H (pn_enter (pn_put a (pn_put (ASymbol fp) (pn_enter (pn_put ADescribed p))))) m1) as (m2 & E2 & G2); auto.
  - apply G1.
  - intros k [].
  - exists m2. split; [|exact (grown_trans _ _ _ _ _ _ _ G1 G2)].
    unfold startRestricted, startSerializable, bind. rewrite E1. unfold put, on_payload.
    destruct Hs as [[-> ->]|[-> ->]]; cbn [String.eqb Ascii.eqb Bool.eqb m_payload m_schemas snd];
      rewrite (finally_ends _ _ _ _ _ _ E2); unfold ended; cbn [m_payload m_schemas]; now rewrite described_put.
Qed.

Lemma runs_property e id pn t rs mand c ts O F : incl O U ->
  runs e [] c ts O F ->
  runs e [id] (add_field id pn (field_makeProton pn t rs "" "" mand false) ;; c) ts O
    (fun k => (if key_eqb k id then [{| w_name := pn; w_type := t; w_requires := rs; w_default := Some ""; w_label := Some "";
         w_mandatory := mand; w_multiple := false |}] else []) ++ F k)%list.
Proof.
  intros HO H. rewrite field_makeProton_spec.
  exact (runs_seq None e [id] _ [] [] _ _ ts O F HO
    (emits_field U [id] id {| w_name := pn; w_type := t; w_requires := rs; w_default := Some ""; w_label := Some "";
         w_mandatory := mand; w_multiple := false |} _ (or_introl eq_refl) eq_refl)
    (fun _ _ => runs_weaken _ [id] _ _ _ _ H)).
Qed.

Lemma script_runs :
  (forall o, allowed o -> incl (begun o) U ->
     (is_ref o = false -> runs (thrown o) [] (exec o) [written o] (begun o) (fun k => properties_begun k o)) /\
     (forall id pn ty, runs (thrown o) [id] (exec_property id pn ty o) [written o] (begun o)
        (fun k => (if key_eqb k id then [property_field pn ty (sort_of o)] else []) ++ properties_begun k o)%list)) /\
  (forall a, allowed_acts a -> incl (begun_acts a) U -> forall id,
     runs (thrown_acts a) [id] (exec_acts id a) (written_acts a) (begun_acts a) (fun k => properties_acts k id a)) /\
  (forall es, allowed_objs es -> incl (begun_objs es) U ->
     runs (thrown_objs es) [] (exec_objs es) (written_objs es) (begun_objs es) (fun k => properties_objs k es)) /\
  (forall kvs, allowed_pairs kvs -> incl (begun_pairs kvs) U ->
     runs (thrown_pairs kvs) [] (exec_pairs kvs) (written_pairs kvs) (begun_pairs kvs) (fun k => properties_pairs k kvs)).
Proof.
  apply script_ind.
  - intros v W HO. cbn [allowed] in W. cbn [written begun properties_begun thrown]. rewrite <- (prim_atom_tree v W). split.
    + intros _. apply emits_put.
    + intros id pn ty. apply runs_property; [exact HO|]. apply emits_put.
  - intros t v W HO.
    assert (E : leaf (prim_ptr_atom v) = written (OPrimPtr t v)).
    { destruct v as [v|]; [|reflexivity]. cbn [allowed] in W. now apply prim_atom_tree. }
    assert (N : printable t v) by (destruct v as [v|]; apply W).
    rewrite <- E. split.
    + intros _. cbn [exec]. rewrite (not_logged _ _ _ N). apply emits_put.
    + intros id pn ty. cbn [exec_property]. rewrite (not_logged _ _ _ N). apply runs_property; [exact HO|]. apply emits_put.
  - intros n fp body IH W HO. cbn [allowed begun] in W, HO. pose proof HO as HO'. apply incl_cons_inv in HO as [HO1 HO2].
    pose proof (runs_object _ [] n fp _ _ _ _ HO1 (IH W HO2 (n, fp))) as R.
    split; [intros _; exact R|]. intros id pn ty. apply runs_property; [exact HO'|exact R].
  - intros n fp es IH W HO. cbn [allowed begun] in W, HO. pose proof HO as HO'. apply incl_cons_inv in HO as [HO1 HO2].
    pose proof (runs_container _ [] n fp "list" AList _ _ _ _ HO1 (or_introl (conj eq_refl eq_refl)) (IH W HO2)) as R.
    split; [intros _; exact R|]. intros id pn ty. apply runs_property; [exact HO'|exact R].
  - intros n fp kvs IH W HO. cbn [allowed begun] in W, HO. pose proof HO as HO'. apply incl_cons_inv in HO as [HO1 HO2].
    pose proof (runs_container _ [] n fp "map" AMap _ _ _ _ HO1 (or_intror (conj eq_refl eq_refl)) (IH W HO2)) as R.
    split; [intros _; exact R|]. intros id pn ty. apply runs_property; [exact HO'|exact R].
  - intros o IH [W1 W2] HO. cbn [begun] in HO. split; [discriminate|]. intros id pn ty. destruct (IH W2 HO) as [R _].
    apply runs_property; [exact HO|]. apply R. now destruct o.
  - intros _ HO. split; [discriminate|]. intros id pn ty.
    assert (S := runs_property None id pn ty [] true _ _ _ _ HO (emits_put U [] ANull)).
    assert (S' := runs_seq None None [id] _ [] [] _ _ _ [] _ HO
      (emits_field U [id] id (property_field pn ty (IPointer None)) _ (or_introl eq_refl) eq_refl) (fun _ _ => S)).
    intros p m T A HP. destruct (S' p m T A HP) as (m' & E & G). exists m'. split.
    + cbn [exec_property thrown]. unfold writeComposite. rewrite field_makeProton_spec. exact E.
    + destruct G as [G1 G2 G3]. split; auto. intros k n. rewrite G3. f_equal. cbn [properties_begun sort_of until].
      destruct (key_eqb k id); [|reflexivity]. unfold first_field, first_named. cbn [find List.app property_field w_name].
      now destruct (String.eqb n pn).
  - intros _ _ id. apply emits_nothing.
  - intros pn ty v IHv rest IHr [Wv Wr] HO id. cbn [begun_acts] in HO.
    change (exec_acts id (AWrite pn ty v rest)) with (exec_property id pn ty v ;; exec_acts id rest).
    apply (runs_seq (thrown v) (thrown_acts rest) [id] _ [written v] (begun v)
      (fun k => (if key_eqb k id then [property_field pn ty (sort_of v)] else []) ++ properties_begun k v)%list); auto.
    apply (IHv Wv). intros x Hx. apply HO. destruct (thrown v); [exact Hx|]. apply in_or_app. now left.
  - intros e _ _ id p m T A HP. exists m. split; [reflexivity|]. now apply grown_nothing.
  - intros b IHb rest IHr [Wb Wr] HO id. cbn [begun_acts] in HO. cbn [exec_acts].
    pose proof HO as HO'. apply incl_app_inv in HO as [HO1 HO2].
    exact (runs_seq None (thrown_acts rest) [id] _ _ _ _ _ _ _ _ HO'
      (runs_swallow _ _ _ _ _ _ (IHb Wb HO1 id)) (fun _ _ => IHr Wr HO2 id)).
  - intros _ _. apply emits_nothing.
  - intros o IHo es IHe (P & Wo & We) HO. cbn [begun_objs] in HO. cbn [exec_objs].
    apply (runs_seq (thrown o) (thrown_objs es) [] _ [written o] (begun o) (fun k => properties_begun k o)); auto.
    apply (IHo Wo); [|exact P]. intros x Hx. apply HO. destruct (thrown o); [exact Hx|]. apply in_or_app. now left.
  - intros _ _. apply emits_nothing.
  - intros k IHk v IHv kvs IH ((Pk & Wk) & (Pv & Wv) & Ws) HO. cbn [begun_pairs] in HO. cbn [exec_pairs].
    apply (runs_seq (thrown k) (first_of (thrown v) (thrown_pairs kvs)) [] _ [written k] (begun k) (fun x => properties_begun x k)); auto.
    + apply (IHk Wk); [|exact Pk]. intros x Hx. apply HO. destruct (thrown k); [exact Hx|]. apply in_or_app. now left.
    + intros _ HO2.
      apply (runs_seq (thrown v) (thrown_pairs kvs) [] _ [written v] (begun v) (fun x => properties_begun x v)); auto.
      apply (IHv Wv); [|exact Pv]. intros x Hx. apply HO2. destruct (thrown v); [exact Hx|]. apply in_or_app. now left.
Qed.
End Within.

Theorem script_result : forall o, allowed o -> is_ref o = false -> no_clash_begun o ->
  exists w ts, forest (m_payload w) = [written o] /\ schema_begun o ts /\
    exec o new_writer = match thrown o with None => Ok tt w | Some e => Throw e w end /\
    exec_blob o new_writer =
      match thrown o with None => Ok (decoded (envelope_tree (written o) [ts] [leaf ANull])) w | Some e => Throw e w end /\
    toBlob w = Ok (decoded (envelope_tree (written o) [ts] [leaf ANull])) w.
Proof.
  intros o W P C. destruct (proj1 (proj1 (script_runs (begun o) C) o W (incl_refl _)) P pn_data []) as (m & E & G).
  - apply tidy_empty.
  - intros k s Hk [=].
  - intros k [].
  - destruct (entries_types _ _ _ G) as (ts & E1 & E2).
    set (w := Writer (put_all [written o] pn_data) m) in *. change (Writer pn_data []) with new_writer in E.
    assert (B : toBlob w = Ok (decoded (envelope_tree (written o) [ts] [leaf ANull])) w).
    { unfold toBlob, w. cbn [m_payload m_schemas]. rewrite E1. rewrite schema_makeProton_spec.
      exact (f_equal (fun d => Ok d _) (envelope_makeProton_spec (written o) [ts])). }
    exists w, ts. split; [reflexivity|]. split; [exact E2|]. split; [exact E|]. split; [|exact B].
    unfold exec_blob, bind. rewrite E. destruct (thrown o); cbn; [reflexivity|exact B].
Qed.

(** An exception is the one that [cut] has. *)
Lemma thrown_cut :
  (forall o, calm_keys o -> snd (cut o) = thrown o) /\ (forall a, calm_acts a -> snd (cut_acts a) = thrown_acts a) /\
  (forall es, calm_objs es -> snd (cut_objs es) = thrown_objs es) /\ (forall kvs, calm_pairs kvs -> snd (cut_pairs kvs) = thrown_pairs kvs).
Proof.
  apply script_ind; cbn [cut cut_acts cut_objs cut_pairs calm_keys calm_acts calm_objs calm_pairs thrown thrown_acts thrown_objs thrown_pairs snd]; try tauto.
  - intros pn ty v IHv r IHr [C1 C2]. rewrite <- (IHv C1), <- (IHr C2). destruct (snd (cut v)); reflexivity.
  - intros o IHo es IHe [C1 C2]. rewrite <- (IHo C1), <- (IHe C2). destruct (snd (cut o)); reflexivity.
  - intros k IHk v IHv kvs IH (E & C1 & C2 & C3). rewrite <- (IHk C1), <- (IHv C2), <- (IH C3), E. cbn. destruct (snd (cut v)); reflexivity.
Qed.
