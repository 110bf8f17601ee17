From Coq Require Import Lia Sorting.Sorted OrdersEx Permutation.
From Verif Require Import Base Proton ProtonProofs Descriptors SpecTypes TypeNamesProofs SpecDescriptors DescriptorsProofs Writer SpecWriter.
Import List ListNotations.
Open Scope string_scope.

(** ** Orders *)

Lemma scmp_eq a b : scmp a b = Eq <-> a = b.
Proof. unfold scmp. destruct (String_as_OT.compare_spec a b) as [H|H|H].
  - split; auto.
  - split; [discriminate|]. intros ->. destruct String_as_OT.lt_strorder as [I _]. destruct (I b H).
  - split; [discriminate|]. intros ->. destruct String_as_OT.lt_strorder as [I _]. destruct (I b H).
Qed.
Lemma scmp_lt a b : scmp a b = Lt <-> before a b.
Proof. reflexivity. Qed.
Lemma scmp_gt a b : scmp a b = Gt -> before b a.
Proof. unfold scmp. destruct (String_as_OT.compare_spec a b); try discriminate. auto. Qed.
Lemma before_trans a b c : before a b -> before b c -> before a c.
Proof. destruct String_as_OT.lt_strorder as [_ T]. apply T. Qed.
Lemma before_irrefl a : ~ before a a.
Proof. destruct String_as_OT.lt_strorder as [I _]. apply I. Qed.

Lemma kcmp_eq a b : kcmp a b = Eq <-> a = b.
Proof.
  destruct a as [a1 a2], b as [b1 b2]. unfold kcmp. cbn. destruct (scmp a1 b1) eqn:E.
  - apply scmp_eq in E. subst. rewrite scmp_eq. split; congruence.
  - split; [discriminate|]. intros [= -> ->]. now destruct (before_irrefl b1).
  - split; [discriminate|]. intros [= -> ->]. apply scmp_gt in E. now destruct (before_irrefl b1).
Qed.
Lemma kcmp_lt a b : kcmp a b = Lt <-> key_before a b.
Proof.
  destruct a as [a1 a2], b as [b1 b2]. unfold kcmp, key_before. cbn. destruct (scmp a1 b1) eqn:E.
  - apply scmp_eq in E. subst. rewrite scmp_lt. split; [auto|]. intros [H|[_ H]]; [now destruct (before_irrefl b1)|exact H].
  - split; auto.
  - apply scmp_gt in E. split; [discriminate|]. intros [H|[H _]]; [destruct (before_irrefl a1); eapply before_trans; eauto|].
    subst. now destruct (before_irrefl b1).
Qed.
Lemma kcmp_gt a b : kcmp a b = Gt -> key_before b a.
Proof.
  destruct a as [a1 a2], b as [b1 b2]. unfold kcmp, key_before. cbn. destruct (scmp a1 b1) eqn:E; intros H.
  - apply scmp_eq in E. apply scmp_gt in H. auto.
  - discriminate.
  - apply scmp_gt in E. auto.
Qed.
Lemma key_before_trans a b c : key_before a b -> key_before b c -> key_before a c.
Proof.
  unfold key_before. intros [H1|[H1 H1']] [H2|[H2 H2']].
  - left. eapply before_trans; eauto.
  - left. now rewrite <- H2.
  - left. now rewrite H1.
  - right. split; [congruence|eapply before_trans; eauto].
Qed.
Lemma key_before_irrefl a : ~ key_before a a.
Proof. intros [H|[_ H]]; now apply before_irrefl in H. Qed.
Lemma key_eqb_eq a b : key_eqb a b = true <-> a = b.
Proof.
  destruct a, b. unfold key_eqb. cbn. rewrite andb_true_iff, !String.eqb_eq. split; [intros []; congruence|intros [=]; auto].
Qed.

(** ** Maps *)

Section Maps.
Context {K V : Type} (cmp : K -> K -> comparison) (lt : K -> K -> Prop).
Hypothesis (Ceq : forall a b, cmp a b = Eq <-> a = b) (Clt : forall a b, cmp a b = Lt <-> lt a b)
  (Cgt : forall a b, cmp a b = Gt -> lt b a) (Ctrans : forall a b c, lt a b -> lt b c -> lt a c) (Cirr : forall a, ~ lt a a).

Notation sorted m := (StronglySorted lt (map fst m)).

Lemma cmp_refl a : cmp a a = Eq.
Proof. now apply Ceq. Qed.

Lemma set_fst k (v : V) m k' : In k' (map fst (m_set cmp k v m)) <-> k' = k \/ In k' (map fst m).
Proof.
  induction m as [|[k1 v1] m IH]; cbn [m_set map fst In]; [split; intros [H|H]; auto|].
  destruct (cmp k k1) eqn:E; cbn [map fst In].
  - apply Ceq in E. subst. intuition congruence.
  - intuition congruence.
  - rewrite IH. intuition congruence.
Qed.
Lemma set_sorted k (v : V) m : sorted m -> sorted (m_set cmp k v m).
Proof.
  induction m as [|[k1 v1] m IH]; cbn [m_set map fst]; intros H; [repeat constructor|].
  apply StronglySorted_inv in H as [H1 H2]. destruct (cmp k k1) eqn:E; cbn [map fst].
  - apply Ceq in E. subst. now constructor.
  - constructor; [now constructor|]. apply Clt in E. constructor; [exact E|]. rewrite Forall_forall in *. eauto.
  - constructor; [auto|]. apply Cgt in E. rewrite Forall_forall in *. intros k' Hk. apply set_fst in Hk as [-> |Hk]; auto.
Qed.
Lemma find_set_same k (v : V) m : m_find cmp k (m_set cmp k v m) = Some v.
Proof.
  induction m as [|[k1 v1] m IH]; cbn [m_set m_find]; [now rewrite cmp_refl|].
  destruct (cmp k k1) eqn:E; cbn [m_find]; rewrite ?cmp_refl; auto. now rewrite E.
Qed.
Lemma find_set_other k k' (v : V) m : k <> k' -> m_find cmp k' (m_set cmp k v m) = m_find cmp k' m.
Proof.
  intros N. induction m as [|[k1 v1] m IH]; cbn [m_set m_find].
  - destruct (cmp k' k) eqn:E; auto. apply Ceq in E. congruence.
  - destruct (cmp k k1) eqn:E; cbn [m_find].
    + apply Ceq in E. subst. destruct (cmp k' k1) eqn:E'; auto. apply Ceq in E'. congruence.
    + destruct (cmp k' k) eqn:E'; auto.
      * apply Ceq in E'. congruence.
      * apply Clt in E, E'. assert (X : lt k' k1) by eauto. apply Clt in X. now rewrite X.
    + destruct (cmp k' k1); auto.
Qed.
Lemma find_in k (v : V) m : m_find cmp k m = Some v -> In (k, v) m.
Proof.
  induction m as [|[k1 v1] m IH]; cbn [m_find]; [discriminate|]. destruct (cmp k k1) eqn:E; [|discriminate|]; intros H.
  - apply Ceq in E. left. congruence.
  - right. auto.
Qed.
Lemma in_find k (v : V) m : sorted m -> In (k, v) m -> m_find cmp k m = Some v.
Proof.
  induction m as [|[k1 v1] m IH]; [intros _ []|]. cbn [map fst m_find]. intros H [E|Hin]; apply StronglySorted_inv in H as [H1 H2].
  - injection E as -> ->. now rewrite cmp_refl.
  - destruct (cmp k k1) eqn:E; auto.
    + apply Ceq in E. subst. rewrite Forall_forall in H2. destruct (Cirr k1). apply H2. apply in_map_iff. exists (k1, v). auto.
    + apply Clt in E. rewrite Forall_forall in H2. destruct (Cirr k). eapply Ctrans; [exact E|]. apply H2, in_map_iff. exists (k, v). auto.
Qed.
End Maps.

Lemma s_set_sorted {V} k (v : V) m : StronglySorted before (map fst m) -> StronglySorted before (map fst (m_set scmp k v m)).
Proof. apply set_sorted; eauto using scmp_eq, scmp_lt, scmp_gt, before_trans. Qed.
Lemma s_find_same {V} k (v : V) m : m_find scmp k (m_set scmp k v m) = Some v.
Proof. apply find_set_same. apply scmp_eq. Qed.
Lemma s_find_other {V} k k' (v : V) m : k <> k' -> m_find scmp k' (m_set scmp k v m) = m_find scmp k' m.
Proof. apply find_set_other with (lt := before); eauto using scmp_eq, scmp_lt, before_trans. Qed.
Lemma k_set_sorted {V} k (v : V) m : StronglySorted key_before (map fst m) -> StronglySorted key_before (map fst (m_set kcmp k v m)).
Proof. apply set_sorted; eauto using kcmp_eq, kcmp_lt, kcmp_gt, key_before_trans. Qed.
Lemma k_find_same {V} k (v : V) m : m_find kcmp k (m_set kcmp k v m) = Some v.
Proof. apply find_set_same. apply kcmp_eq. Qed.
Lemma k_find_other {V} k k' (v : V) m : k <> k' -> m_find kcmp k' (m_set kcmp k v m) = m_find kcmp k' m.
Proof. apply find_set_other with (lt := key_before); eauto using kcmp_eq, kcmp_lt, key_before_trans. Qed.

(** ** How writing extends the schema *)

Definition orelse {A} (a b : option A) : option A := match a with Some _ => a | None => b end.
Lemma orelse_assoc {A} (a b c : option A) : orelse (orelse a b) c = orelse a (orelse b c).
Proof. now destruct a. Qed.
Lemma orelse_none {A} (a : option A) : orelse a None = a.
Proof. now destruct a. Qed.
Lemma find_app {A} (p : A -> bool) l l' : find p (l ++ l') = orelse (find p l) (find p l').
Proof. induction l as [|a l IH]; cbn; [reflexivity|]. destruct (p a); auto. Qed.

Definition schemas : Type := list (key * schema_blob).
Definition kind_at (m : schemas) (k : key) : option kind :=
  match m_find kcmp k m with
  | Some (CompositeBlob _) => Some Class | Some (ListBlob s) => Some (Container s) | None => None
  end.
Definition field_at (m : schemas) (k : key) (n : string) : option data :=
  match m_find kcmp k m with Some (CompositeBlob fs) => m_find scmp n fs | _ => None end.
Definition tidy (m : schemas) : Prop :=
  StronglySorted key_before (map fst m) /\
  forall k fs, m_find kcmp k m = Some (CompositeBlob fs) -> StronglySorted before (map fst fs).

Definition first_kind (k : key) (l : list (key * kind)) : option kind :=
  option_map snd (find (fun o => key_eqb k (fst o)) l).
Definition first_field (n : string) (l : list wire_field) : option data :=
  option_map (fun f => decoded (field_tree f)) (first_named n l).
Lemma first_kind_app k l l' : first_kind k (l ++ l') = orelse (first_kind k l) (first_kind k l').
Proof. unfold first_kind. rewrite find_app. now destruct (find _ l). Qed.
Lemma first_field_app n l l' : first_field n (l ++ l') = orelse (first_field n l) (first_field n l').
Proof. unfold first_field, first_named. rewrite find_app. now destruct (find _ l). Qed.

Lemma no_kind a k : orelse a (first_kind k []) = a.
Proof. apply orelse_none. Qed.
Lemma no_field a n : orelse a (first_field n []) = a.
Proof. apply orelse_none. Qed.

Record grown (O : list (key * kind)) (F : key -> list wire_field) (m m' : schemas) : Prop := {
  g_tidy : tidy m';
  g_kind : forall k, kind_at m' k = orelse (kind_at m k) (first_kind k O);
  g_field : forall k n, field_at m' k n = orelse (field_at m k n) (first_field n (F k)) }.

Lemma grown_nothing m : tidy m -> grown [] (fun _ => []) m m.
Proof. split; auto; intros; now rewrite ?no_kind, ?no_field, ?orelse_none. Qed.
Lemma grown_trans O F O' F' m1 m2 m3 : grown O F m1 m2 -> grown O' F' m2 m3 -> grown (O ++ O') (fun k => F k ++ F' k)%list m1 m3.
Proof.
  intros [T1 K1 F1] [T2 K2 F2]. split; auto.
  - intros k. now rewrite K2, K1, first_kind_app, orelse_assoc.
  - intros k n. now rewrite F2, F1, first_field_app, orelse_assoc.
Qed.
Lemma grown_ext O F O' F' m m' : O = O' -> (forall k, F k = F' k) -> grown O F m m' -> grown O' F' m m'.
Proof. intros -> E [T K G]. split; auto. intros. now rewrite <- E. Qed.

Section Within.
(** The occurrences in the whole object. *)
Context (U : list (key * kind)).
Hypothesis (Hclash : forall k s, In (k, Class) U -> In (k, Container s) U -> False).
Definition agrees (m : schemas) : Prop := forall k s, In (k, Class) U -> kind_at m k <> Some (Container s).

Lemma first_kind_in k l x : first_kind k l = Some x -> In (k, x) l.
Proof.
  unfold first_kind. destruct (find _ l) as [[k' x']|] eqn:E; [|discriminate]. intros [= <-].
  apply find_some in E as [H1 H2]. apply key_eqb_eq in H2. cbn in H2. now subst.
Qed.
Lemma agrees_grown O F m m' : incl O U -> agrees m -> grown O F m m' -> agrees m'.
Proof.
  intros Hi Ha G k s Hk. rewrite (g_kind _ _ _ _ G). destruct (kind_at m k) as [x|] eqn:E; cbn.
  - intros [= ->]. now apply (Ha k s Hk).
  - intros E'. apply first_kind_in in E'. eapply Hclash; eauto.
Qed.

Lemma key_eq_dec (a b : key) : {a = b} + {a <> b}.
Proof. decide equality; apply String.string_dec. Qed.
Lemma key_eqb_neq a b : a <> b -> key_eqb a b = false.
Proof. intros N. destruct (key_eqb a b) eqn:E; auto. apply key_eqb_eq in E. contradiction. Qed.
Lemma key_eqb_refl a : key_eqb a a = true.
Proof. now apply key_eqb_eq. Qed.

Lemma set_tidy k b m : tidy m -> (forall fs, b = CompositeBlob fs -> StronglySorted before (map fst fs)) -> tidy (m_set kcmp k b m).
Proof.
  intros [H1 H2] Hb. split; [now apply k_set_sorted|]. intros k' fs. destruct (key_eq_dec k k') as [<- |N].
  - rewrite k_find_same. intros [= ->]. now apply Hb.
  - rewrite k_find_other by exact N. apply H2.
Qed.

Lemma absent_grown id x p m : tidy m -> 
  exists m', schema_if_absent id (match x with Class => CompositeBlob [] | Container s => ListBlob s end) (Writer p m) = Ok tt (Writer p m') /\
    grown [(id, x)] (fun _ => []) m m'.
Proof.
  intros T. unfold schema_if_absent. cbn [m_schemas m_payload]. destruct (m_find kcmp id m) as [b|] eqn:E.
  - exists m. split; [reflexivity|]. split; auto; intros k; [|intros; (symmetry; apply orelse_none)].
    unfold kind_at, first_kind. cbn [find fst]. destruct (key_eqb k id) eqn:Ek; [|(symmetry; apply orelse_none)].
    apply key_eqb_eq in Ek. subst. rewrite E. now destruct b.
  - eexists. split; [reflexivity|]. split.
    + apply set_tidy; auto. intros fs H. destruct x; [|discriminate]. injection H as <-. constructor.
    + intros k. unfold kind_at, first_kind. cbn [find fst]. destruct (key_eq_dec id k) as [<- |N].
      * rewrite k_find_same, E, key_eqb_refl. now destruct x.
      * rewrite k_find_other by exact N. rewrite (key_eqb_neq k id) by congruence. (symmetry; apply orelse_none).
    + intros k n. unfold field_at. symmetry; etransitivity; [apply orelse_none|]. symmetry. destruct (key_eq_dec id k) as [<- |N].
      * rewrite k_find_same, E. now destruct x.
      * now rewrite k_find_other by exact N.
Qed.

Lemma field_grown id f d p m : tidy m -> kind_at m id = Some Class -> d = decoded (field_tree f) ->
  exists m', add_field id (w_name f) d (Writer p m) = Ok tt (Writer p m') /\
    grown [] (fun k => if key_eqb k id then [f] else []) m m'.
Proof.
  intros T HK ->. unfold add_field. cbn [m_schemas m_payload]. unfold kind_at in HK.
  destruct (m_find kcmp id m) as [[fs|s]|] eqn:E; try discriminate. destruct (m_find scmp (w_name f) fs) as [d|] eqn:Ef.
  - exists m. split; [reflexivity|]. split; auto; intros k; [(symmetry; apply orelse_none)|]. intros n.
    destruct (key_eqb k id) eqn:Ek; [|(symmetry; apply orelse_none)]. apply key_eqb_eq in Ek. subst k.
    unfold field_at, first_field, first_named. rewrite E. cbn [find]. destruct (String.eqb n (w_name f)) eqn:En; [|(symmetry; apply orelse_none)].
    apply String.eqb_eq in En. subst n. now rewrite Ef.
  - eexists. split; [reflexivity|]. split.
    + apply set_tidy; auto. intros fs' [= <-]. destruct T as [_ T]. apply s_set_sorted. eauto.
    + intros k. rewrite ?no_kind, ?no_field, ?orelse_none. unfold kind_at. destruct (key_eq_dec id k) as [<- |N].
      * now rewrite k_find_same, E.
      * now rewrite k_find_other by exact N.
    + intros k n. unfold field_at. destruct (key_eq_dec id k) as [<- |N].
      * rewrite k_find_same, E, key_eqb_refl. unfold first_field, first_named. cbn [find].
        destruct (String.eqb_spec n (w_name f)) as [-> |Nn].
        -- now rewrite s_find_same, Ef.
        -- rewrite s_find_other by congruence. (symmetry; apply orelse_none).
      * rewrite k_find_other by exact N. rewrite (key_eqb_neq k id) by congruence. (symmetry; apply orelse_none).
Qed.

(** [c] writes the trees [ts], the occurrences [O] and the properties [F], given
    that the classes [P] have entries. *)
Definition put_all (ts : list tree) (d : data) : data := fold_left (fun d t => pn_put_tree t d) ts d.
Definition emits (P : list key) (c : WM unit) (ts : list tree) (O : list (key * kind)) (F : key -> list wire_field) : Prop :=
  forall p m, tidy m -> agrees m -> (forall k, In k P -> kind_at m k = Some Class) ->
  exists m', c (Writer p m) = Ok tt (Writer (put_all ts p) m') /\ grown O F m m'.

Lemma emits_nothing P : emits P (ret tt) [] [] (fun _ => []).
Proof. intros p m T _ _. exists m. split; [reflexivity|]. now apply grown_nothing. Qed.
Lemma emits_put P a : emits P (put a) [leaf a] [] (fun _ => []).
Proof. intros p m T _ _. exists m. split; [reflexivity|]. now apply grown_nothing. Qed.
Lemma emits_field P id f d : In id P -> d = decoded (field_tree f) ->
  emits P (add_field id (w_name f) d) [] [] (fun k => if key_eqb k id then [f] else []).
Proof. intros Hin E p m T _ HP. apply field_grown; auto. Qed.
Lemma emits_then P c1 ts1 O1 F1 c2 ts2 O2 F2 : incl O1 U ->
  emits P c1 ts1 O1 F1 -> emits P c2 ts2 O2 F2 ->
  emits P (c1 ;; c2) (ts1 ++ ts2)%list (O1 ++ O2)%list (fun k => F1 k ++ F2 k)%list.
Proof.
  intros HO H1 H2 p m T A HP. destruct (H1 p m T A HP) as (m1 & E1 & G1).
  destruct (H2 (put_all ts1 p) m1) as (m2 & E2 & G2).
  - apply G1.
  - eapply agrees_grown; eauto.
  - intros k Hk. rewrite (g_kind _ _ _ _ G1), (HP k Hk). reflexivity.
  - exists m2. unfold bind. rewrite E1, E2. split; [|eapply grown_trans; eauto].
    unfold put_all. now rewrite fold_left_app.
Qed.
Lemma emits_ext P c ts O F ts' O' F' : ts = ts' -> O = O' -> (forall k, F k = F' k) -> emits P c ts O F -> emits P c ts' O' F'.
Proof.
  intros <- <- E H p m T A HP. destruct (H p m T A HP) as (m' & E1 & G). exists m'. split; auto.
  eapply grown_ext; eauto.
Qed.
Lemma emits_weaken P c ts O F : emits [] c ts O F -> emits P c ts O F.
Proof. intros H p m T A _. apply H; auto. intros k []. Qed.

(** A described value. *)
Lemma described_put fp a ts d :
  pn_exit (pn_exit (put_all ts (pn_enter (pn_put a (pn_put (ASymbol fp) (pn_enter (pn_put ADescribed d)))))))
  = pn_put_tree (payload_tree fp [Node a ts]) d.
Proof.
  pose proof (writes_inside a (put_all ts) ts (fun _ => eq_refl)) as W1.
  pose proof (writes_then _ _ _ _ (writes_put (ASymbol fp)) W1) as W2.
  pose proof (writes_inside ADescribed _ _ W2 d) as W3. cbn [List.app fold_left] in W3.
  unfold payload_tree. rewrite <- W3. unfold inside, w_enter.
  destruct d as [[cs|l t r] u]; reflexivity.
Qed.

Lemma emits_object P n fp c ts O F : In ((n, fp), Class) U -> emits ((n, fp) :: P) c ts O F ->
  emits P (startComposite (n, fp) ;; finally c ended) [payload_tree fp [list_of ts]] (((n, fp), Class) :: O) F.
Proof.
  intros HU H p m T A HP. destruct (absent_grown (n, fp) Class p m T) as (m1 & E1 & G1).
  unfold startComposite, startSerializable. unfold bind at 1 2 3. rewrite E1. cbn [on_payload m_payload m_schemas snd].
  assert (A1 : agrees m1). { eapply agrees_grown; eauto. intros x [<- |[]]. exact HU. }
  edestruct (H (pn_enter (pn_put AList (pn_put (ASymbol fp) (pn_enter (pn_put ADescribed p))))) m1) as (m2 & E2 & G2); auto.
  - apply G1.
  - intros k [<- |Hk].
    + rewrite (g_kind _ _ _ _ G1). destruct (kind_at m (n, fp)) as [[|s]|] eqn:E; cbn; auto.
      * now destruct (A _ _ HU E).
      * unfold first_kind. cbn [find fst]. now rewrite key_eqb_refl.
    + rewrite (g_kind _ _ _ _ G1), (HP k Hk). reflexivity.
  - exists m2. unfold finally. rewrite E2. split.
    + cbn [ended m_payload m_schemas]. unfold ended. cbn [m_payload m_schemas]. now rewrite described_put.
    + exact (grown_trans _ _ _ _ _ _ _ G1 G2).
Qed.

Lemma emits_container P n fp src a c ts O F : In ((n, fp), Container src) U ->
  (src = "list" /\ a = AList \/ src = "map" /\ a = AMap) ->
  emits [] c ts O F ->
  emits P (startRestricted (n, fp) src ;; finally c ended) [payload_tree fp [Node a ts]] (((n, fp), Container src) :: O) F.
Proof.
  intros HU Hs H p m T A HP. destruct (absent_grown (n, fp) (Container src) p m T) as (m1 & E1 & G1).
  assert (A1 : agrees m1). { eapply agrees_grown; eauto. intros x [<- |[]]. exact HU. }
  edestruct (H (pn_enter (pn_put a (pn_put (ASymbol fp) (pn_enter (pn_put ADescribed p))))) m1) as (m2 & E2 & G2); auto.
  - apply G1.
  - intros k [].
  - exists m2. split; [|exact (grown_trans _ _ _ _ _ _ _ G1 G2)].
    unfold startRestricted, startSerializable, finally, bind. rewrite E1. unfold put, on_payload.
    destruct Hs as [[-> ->]|[-> ->]]; cbn [String.eqb Ascii.eqb Bool.eqb m_payload m_schemas snd];
      rewrite E2; unfold ended; cbn [m_payload m_schemas]; now rewrite described_put.
Qed.

Lemma not_logged t v (m : WM unit) : printable t v -> (log_pointer t v ;; m) = m.
Proof. destruct t; intros H; try reflexivity. now rewrite (H eq_refl). Qed.
Lemma logged t v (m : WM unit) w : ~ printable t v -> (log_pointer t v ;; m) w = UB.
Proof.
  unfold printable. intros H. destruct t; try (elim H; discriminate).
  destruct v as [[| | | | | |[| |]]|]; try reflexivity. now elim H.
Qed.

(** *** The three loops of [serialise] *)
Definition write_property (id : key) (p : string * (string * item)) : WM unit :=
  let '(pn, (ty, v)) := p in
  match v with
  | IPrim p => writePrimitive (prim_atom p) (type_of p) false pn id
  | IPrimPtr t p => log_pointer t p ;; writePrimitive (prim_ptr_atom p) t true pn id
  | IObject _ _ _ => writeComposite pn ty id ;; serialise v
  | IVector _ _ _ | IMap _ _ _ => writeRestricted pn ty id ;; serialise v
  | IPointer (Some o) => writeComposite pn ty id ;; serialise o
  | IPointer None => writeComposite pn ty id ;; writeNull pn ty id
  end.
Fixpoint each {A} (f : A -> WM unit) (l : list A) : WM unit :=
  match l with [] => ret tt | a :: l' => f a ;; each f l' end.

Lemma serialise_object n fp ps w : serialise (IObject n fp ps) w = (startComposite (n, fp) ;; finally (each (write_property (n, fp)) ps) ended) w.
Proof.
  cbn [serialise]. unfold bind at 1. symmetry. unfold bind at 1. symmetry. destruct (startComposite (n, fp) w) as [[] w'| | | |]; auto.
  unfold finally. match goal with |- match ?f ps w' with _ => _ end = _ => set (g := f) end.
  assert (E : forall l w, g l w = each (write_property (n, fp)) l w).
  { induction l as [|[pn [ty v]] l IH]; intros w1; [reflexivity|]. unfold g. fold g. cbn [each write_property].
    unfold bind. destruct v as [| | | | |[o|]]; match goal with |- match ?a with _ => _ end = _ => destruct a as [[] ?| | | |]; auto end. }
  now rewrite E.
Qed.
Lemma serialise_vector n fp es w : serialise (IVector n fp es) w = (startRestricted (n, fp) "list" ;; finally (each serialise es) ended) w.
Proof.
  cbn [serialise]. unfold bind at 1. symmetry. unfold bind at 1. symmetry. destruct (startRestricted (n, fp) "list" w) as [[] w'| | | |]; auto.
  unfold finally. match goal with |- match ?f es w' with _ => _ end = _ => set (g := f) end.
  assert (E : forall l w, g l w = each serialise l w).
  { induction l as [|e l IH]; intros w1; [reflexivity|]. unfold g. fold g. cbn [each].
    unfold bind. destruct (serialise e w1) as [[] w2| | | |]; auto. }
  now rewrite E.
Qed.
Lemma serialise_map n fp kvs w : serialise (IMap n fp kvs) w =
  (startRestricted (n, fp) "map" ;; finally (each (fun kv => serialise (fst kv) ;; serialise (snd kv)) kvs) ended) w.
Proof.
  cbn [serialise]. unfold bind at 1. symmetry. unfold bind at 1. symmetry. destruct (startRestricted (n, fp) "map" w) as [[] w'| | | |]; auto.
  unfold finally. match goal with |- match ?f kvs w' with _ => _ end = _ => set (g := f) end.
  assert (E : forall l w, g l w = each (fun kv => serialise (fst kv) ;; serialise (snd kv)) l w).
  { induction l as [|[k v] l IH]; intros w1; [reflexivity|]. unfold g. fold g. cbn [each fst snd].
    unfold bind. destruct (serialise k w1) as [[] w2| | | |]; auto. destruct (serialise v w2) as [[] w3| | | |]; auto. }
  now rewrite E.
Qed.

Lemma emits_each {A} P (f : A -> WM unit) (t : A -> list tree) (O : A -> list (key * kind)) (F : key -> A -> list wire_field) l :
  (forall a, In a l -> incl (O a) U -> emits P (f a) (t a) (O a) (fun k => F k a)) ->
  incl (flat_map O l) U ->
  emits P (each f l) (flat_map t l) (flat_map O l) (fun k => flat_map (F k) l).
Proof.
  induction l as [|a l IH]; intros H HO; cbn [each flat_map]; [apply emits_nothing|].
  cbn [flat_map] in HO. apply incl_app_inv in HO as [HO1 HO2]. apply emits_then; auto.
  - apply H; [now left|]. auto.
  - apply IH; [intros; apply H; auto; now right|]. auto.
Qed.
End Within.

(** *** Induction over objects *)
Section ItemInd.
Variable P : item -> Prop.
Hypothesis (HPrim : forall v, P (IPrim v)) (HPtr : forall t v, P (IPrimPtr t v))
  (HObj : forall n fp ps, Forall (fun p => P (snd (snd p))) ps -> P (IObject n fp ps))
  (HVec : forall n fp es, Forall P es -> P (IVector n fp es))
  (HMap : forall n fp kvs, Forall (fun kv => P (fst kv) /\ P (snd kv)) kvs -> P (IMap n fp kvs))
  (HNull : P (IPointer None)) (HPointer : forall o, P o -> P (IPointer (Some o))).
Fixpoint item_induction (i : item) : P i :=
  match i with
  | IPrim v => HPrim v
  | IPrimPtr t v => HPtr t v
  | IObject n fp ps => HObj n fp ps ((fix go l : Forall (fun p => P (snd (snd p))) l :=
      match l with [] => Forall_nil _ | p :: l' => Forall_cons _ (item_induction (snd (snd p))) (go l') end) ps)
  | IVector n fp es => HVec n fp es ((fix go l : Forall P l :=
      match l with [] => Forall_nil _ | e :: l' => Forall_cons _ (item_induction e) (go l') end) es)
  | IMap n fp kvs => HMap n fp kvs ((fix go l : Forall (fun kv => P (fst kv) /\ P (snd kv)) l :=
      match l with [] => Forall_nil _ | kv :: l' => Forall_cons _ (conj (item_induction (fst kv)) (item_induction (snd kv))) (go l') end) kvs)
  | IPointer None => HNull
  | IPointer (Some o) => HPointer o (item_induction o)
  end.
End ItemInd.

Lemma prim_atom_tree v : prim_ok v -> leaf (prim_atom v) = prim_tree v.
Proof.
  destruct v; try reflexivity. cbn [prim_ok prim_atom prim_tree]. intros H. do 2 f_equal.
  destruct (Z.ltb_spec z 0).
  - rewrite <- (Z.mod_add z 1) by lia. rewrite Z.mod_small by lia. reflexivity.
  - now rewrite Z.mod_small by lia.
Qed.

Lemma fold_and {A} (Q : A -> Prop) l : fold_right (fun a P => Q a /\ P) True l <-> Forall Q l.
Proof. induction l as [|a l IH]; cbn; [split; auto|]. rewrite IH. split; [intros []; now constructor|]. intros H. now inversion_clear H. Qed.

Section Main.
Context (U : list (key * kind)).
Hypothesis (Hclash : forall k s, In (k, Class) U -> In (k, Container s) U -> False).

Definition good (i : item) : Prop :=
  well_formed i -> incl (occurrences i) U ->
  (is_pointer i = false -> emits U [] (serialise i) [wire i] (occurrences i) (fun k => fields_written k i)) /\
  (forall id pn ty, emits U [id] (write_property id (pn, (ty, i))) [wire i] (occurrences i)
     (fun k => (if key_eqb k id then [property_field pn ty i] else []) ++ fields_written k i)%list).

Lemma emits_pointwise P c c' ts O F : (forall w, c w = c' w) -> emits U P c' ts O F -> emits U P c ts O F.
Proof. intros E H p m T A HP. rewrite E. now apply H. Qed.

Lemma emits_property id pn t rs mand c ts O F :
  emits U [] c ts O F ->
  emits U [id] (add_field id pn (field_makeProton pn t rs "" "" mand false) ;; c) ts O
    (fun k => (if key_eqb k id then [{| w_name := pn; w_type := t; w_requires := rs; w_default := Some ""; w_label := Some "";
         w_mandatory := mand; w_multiple := false |}] else []) ++ F k)%list.
Proof.
  intros H. eapply (emits_then U Hclash [id] _ [] [] _ c ts O F).
  - intros x [].
  - rewrite field_makeProton_spec.
    exact (emits_field U [id] id {| w_name := pn; w_type := t; w_requires := rs; w_default := Some ""; w_label := Some "";
         w_mandatory := mand; w_multiple := false |} _ (or_introl eq_refl) eq_refl).
  - now apply emits_weaken.
Qed.

Lemma good_all i : good i.
Proof.
  induction i using item_induction; unfold good; intros WF HO.
  - cbn [well_formed] in WF. cbn [wire occurrences fields_written]. rewrite <- (prim_atom_tree v WF). split.
    + intros _. apply emits_put.
    + intros id pn ty. apply emits_property. apply emits_put.
  - assert (E : leaf (prim_ptr_atom v) = wire (IPrimPtr t v)).
    { destruct v as [v|]; [|reflexivity]. cbn [well_formed] in WF. now apply prim_atom_tree. }
    assert (N : printable t v) by (destruct v as [v|]; apply WF).
    rewrite <- E. split.
    + intros _. cbn [serialise]. rewrite (not_logged _ _ _ N). apply emits_put.
    + intros id pn ty. cbn [write_property]. rewrite (not_logged _ _ _ N). apply emits_property. apply emits_put.
  - assert (S : emits U [] (serialise (IObject n fp ps)) [wire (IObject n fp ps)] (occurrences (IObject n fp ps)) (fun k => fields_written k (IObject n fp ps))).
    { eapply emits_pointwise; [apply serialise_object|]. cbn [occurrences] in HO. apply incl_cons_inv in HO as [HO1 HO2].
      cbn [well_formed] in WF. apply fold_and in WF.
      apply (emits_object U Hclash [] n fp (each (write_property (n, fp)) ps)); auto.
      eapply emits_ext; [| reflexivity| reflexivity|].
      2:{ apply (emits_each U Hclash [(n, fp)] (write_property (n, fp)) (fun p => [wire (snd (snd p))])); auto.
          intros [pn [ty v]] Hin Hi. rewrite Forall_forall in *. apply (H _ Hin); auto. }
      clear. induction ps as [|p ps IH]; cbn; [reflexivity|]. now rewrite IH. }
    split; [auto|]. intros id pn ty. apply emits_property. exact S.
  - assert (S : emits U [] (serialise (IVector n fp es)) [wire (IVector n fp es)] (occurrences (IVector n fp es)) (fun k => fields_written k (IVector n fp es))).
    { eapply emits_pointwise; [apply serialise_vector|]. cbn [occurrences] in HO. apply incl_cons_inv in HO as [HO1 HO2].
      cbn [well_formed] in WF. apply fold_and in WF.
      apply (emits_container U Hclash [] n fp "list" AList (each serialise es)); auto.
      eapply emits_ext; [| reflexivity| reflexivity|].
      2:{ apply (emits_each U Hclash [] serialise (fun p => [wire p]) occurrences fields_written); auto.
          intros v Hin Hi. rewrite Forall_forall in *. destruct (WF _ Hin). apply (H _ Hin); auto. }
      clear. induction es as [|p ps IH]; cbn; [reflexivity|]. now rewrite IH. }
    split; [auto|]. intros id pn ty. apply emits_property. exact S.
  - assert (S : emits U [] (serialise (IMap n fp kvs)) [wire (IMap n fp kvs)] (occurrences (IMap n fp kvs)) (fun k => fields_written k (IMap n fp kvs))).
    { eapply emits_pointwise; [apply serialise_map|]. cbn [occurrences] in HO. apply incl_cons_inv in HO as [HO1 HO2].
      cbn [well_formed] in WF.
      apply (emits_container U Hclash [] n fp "map" AMap); auto.
      apply (emits_each U Hclash [] _ (fun kv => [wire (fst kv); wire (snd kv)]) _ (fun k kv => (fields_written k (fst kv) ++ fields_written k (snd kv))%list)); auto.
      intros [k v] Hin Hi. rewrite Forall_forall in *. destruct (H _ Hin) as [Hk Hv].
      assert (W : (is_pointer k = false /\ well_formed k) /\ (is_pointer v = false /\ well_formed v)).
      { clear - WF Hin. induction kvs as [|[k' v'] kvs IH]; [destruct Hin|]. cbn in WF. destruct Hin as [[= -> ->]|Hin]; tauto. }
      destruct W as [[W1 W2] [W3 W4]]. apply incl_app_inv in Hi as [Hi1 Hi2].
      apply (emits_then U Hclash [] _ [wire k] _ _ _ [wire v]); auto; [apply Hk|apply Hv]; auto. }
    split; [auto|]. intros id pn ty. apply emits_property. exact S.
  - split; [discriminate|]. intros id pn ty.
    assert (S := emits_property id pn ty [] true _ _ _ _ (emits_put U [] ANull)).
    assert (S' := emits_then U Hclash [id] _ [] [] _ _ _ _ _ (fun x (h : In x []) => match h with end)
      (emits_field U [id] id (property_field pn ty (IPointer None)) _ (or_introl eq_refl) eq_refl) S).
    intros p m T A HP. destruct (S' p m T A HP) as (m' & E & G). exists m'. split.
    + cbn [write_property]. unfold writeComposite. rewrite field_makeProton_spec. exact E.
    + destruct G as [G1 G2 G3]. split; auto. intros k n. rewrite G3. f_equal. cbn [fields_written].
      destruct (key_eqb k id); [|reflexivity]. unfold first_field, first_named. cbn [find List.app property_field w_name].
      now destruct (String.eqb n pn).
  - cbn [well_formed] in WF. destruct WF as [W1 W2]. destruct (IHi W2 HO) as [H1 _]. split; [discriminate|].
    intros id pn ty. apply emits_property. apply H1. now destruct i.
Qed.
End Main.

(** ** The blob *)

Lemma k_find_in {V} k (v : V) m : m_find kcmp k m = Some v -> In (k, v) m.
Proof. apply find_in, kcmp_eq. Qed.
Lemma k_in_find {V} k (v : V) m : StronglySorted key_before (map fst m) -> In (k, v) m -> m_find kcmp k m = Some v.
Proof. apply in_find; eauto using kcmp_eq, kcmp_lt, key_before_trans, key_before_irrefl. Qed.
Lemma s_find_in {V} k (v : V) m : m_find scmp k m = Some v -> In (k, v) m.
Proof. apply find_in, scmp_eq. Qed.
Lemma s_in_find {V} k (v : V) m : StronglySorted before (map fst m) -> In (k, v) m -> m_find scmp k m = Some v.
Proof. apply in_find; eauto using scmp_eq, scmp_lt, before_trans, before_irrefl. Qed.

Lemma first_named_name n fs f : first_named n fs = Some f -> w_name f = n.
Proof. unfold first_named. intros H. apply find_some in H as [_ H]. symmetry. now apply String.eqb_eq. Qed.

(** The fields of an entry. *)
Lemma entry_fields (F : list wire_field) fs :
  (forall n d, In (n, d) fs -> first_field n F = Some d) ->
  exists ws, fs = map (fun f => (w_name f, decoded (field_tree f))) ws /\ Forall (fun f => first_named (w_name f) F = Some f) ws.
Proof.
  induction fs as [|[n d] fs IH]; intros H; [exists []; split; auto|].
  destruct IH as (ws & -> & IH). { intros. apply H. now right. }
  assert (E := H n d (or_introl eq_refl)). unfold first_field in E. destruct (first_named n F) as [f|] eqn:Ef; [|discriminate].
  injection E as <-. pose proof (first_named_name _ _ _ Ef) as <-. exists (f :: ws). split; auto.
Qed.

Definition schema_of (O : list (key * kind)) (F : key -> list wire_field) (ts : list wire_type) : Prop :=
  StronglySorted key_before (map type_key ts) /\
  (forall k, In k (map type_key ts) <-> In k (map fst O)) /\
  Forall (fun t => match t with
    | WClass c =>
        In ((wc_name c, wc_fingerprint c), Class) O /\ wc_label c = Some "" /\ wc_provides c = [] /\
        StronglySorted before (map w_name (wc_fields c)) /\
        forall f, In f (wc_fields c) <-> first_named (w_name f) (F (wc_name c, wc_fingerprint c)) = Some f
    | WContainer r =>
        In ((wr_name r, wr_fingerprint r), Container (wr_source r)) O /\
        wr_label r = Some "" /\ wr_provides r = [] /\ wr_choices r = []
    end) ts.

(** The number of properties of an entry. *)
Definition blob_size (e : key * schema_blob) : nat := match snd e with CompositeBlob fs => List.length fs | ListBlob _ => 0 end.
Definition type_size (t : wire_type) : nat := match t with WClass c => List.length (wc_fields c) | WContainer _ => 0 end.
Lemma entries_sized O F m : grown O F [] m ->
  exists ts, map make m = map (fun t => decoded (type_tree t)) ts /\ map blob_size m = map type_size ts /\ schema_of O F ts.
Proof.
  intros [[T1 T2] GK GF].
  assert (E : exists ts, map make m = map (fun t => decoded (type_tree t)) ts /\ map blob_size m = map type_size ts /\ map type_key ts = map fst m /\
    Forall (fun t => match t with
    | WClass c =>
        In ((wc_name c, wc_fingerprint c), Class) O /\ wc_label c = Some "" /\ wc_provides c = [] /\
        StronglySorted before (map w_name (wc_fields c)) /\
        forall f, In f (wc_fields c) <-> first_named (w_name f) (F (wc_name c, wc_fingerprint c)) = Some f
    | WContainer r =>
        In ((wr_name r, wr_fingerprint r), Container (wr_source r)) O /\
        wr_label r = Some "" /\ wr_provides r = [] /\ wr_choices r = []
    end) ts).
  { assert (Hm : incl m m) by apply incl_refl. revert Hm. generalize m at 1 3 4 5. intros l. induction l as [|[[n fp] b] l IH]; intros Hl.
    { exists []. auto. }
    apply incl_cons_inv in Hl as [Hin Hl]. destruct (IH Hl) as (ts & E1 & ES & E2 & E3). clear IH.
    apply k_in_find in Hin; [|exact T1]. pose proof (GK (n, fp)) as K. unfold kind_at in K. rewrite Hin in K. cbn in K.
    destruct b as [fs|src]; symmetry in K; apply first_kind_in in K.
    - destruct (entry_fields (F (n, fp)) fs) as (ws & -> & HW).
      { intros n' d Hd. rewrite <- (s_in_find n' d fs); eauto. pose proof (GF (n, fp) n') as G. unfold field_at in G. rewrite Hin in G. symmetry. exact G. }
      exists (WClass {| wc_name := n; wc_label := Some ""; wc_provides := []; wc_fingerprint := fp; wc_fields := ws |} :: ts).
      split; [|split; [|split]].
      + cbn [map make]. rewrite E1. f_equal. rewrite map_map. cbn [snd]. apply composite_makeProton_spec.
      + cbn [map blob_size type_size snd wc_fields]. rewrite ES, map_length. reflexivity.
      + cbn [map type_key wc_name wc_fingerprint fst]. now rewrite E2.
      + constructor; [|exact E3]. cbn [wc_name wc_fingerprint wc_label wc_provides wc_fields].
        split; [exact K|]. split; [reflexivity|]. split; [reflexivity|]. apply T2 in Hin as Hs. rewrite map_map in Hs. split; [exact Hs|].
        intros f. split; [intros Hf; rewrite Forall_forall in HW; now apply HW|]. intros Hf.
        assert (Hd : first_field (w_name f) (F (n, fp)) = Some (decoded (field_tree f))). { unfold first_field. now rewrite Hf. }
        pose proof (GF (n, fp) (w_name f)) as G. unfold field_at in G. rewrite Hin in G. cbn in G. rewrite Hd in G.
        apply s_find_in in G. apply in_map_iff in G as (f' & Ef & Hf'). injection Ef as En _.
        rewrite Forall_forall in HW. pose proof (HW _ Hf') as Hn. rewrite En in Hn. congruence.
    - exists (WContainer {| wr_name := n; wr_label := Some ""; wr_provides := []; wr_source := src; wr_fingerprint := fp; wr_choices := [] |} :: ts).
      split; [|split; [|split]].
      + cbn [map make]. rewrite E1. f_equal.
      + cbn [map blob_size type_size snd]. now rewrite ES.
      + cbn [map type_key wr_name wr_fingerprint fst]. now rewrite E2.
      + constructor; [|exact E3]. cbn. auto. }
  destruct E as (ts & E1 & ES & E2 & E3). exists ts. split; [exact E1|]. split; [exact ES|]. split; [now rewrite E2|]. split; [|exact E3].
  intros k. rewrite E2. split; intros Hk.
  - apply in_map_iff in Hk as ([k' b] & <- & Hin). apply k_in_find in Hin; [|exact T1]. cbn [fst].
    pose proof (GK k') as K. unfold kind_at in K. rewrite Hin in K. cbn in K.
    assert (exists x, first_kind k' O = Some x) as [x Hx]. { destruct b; eauto. }
    apply first_kind_in in Hx. apply in_map_iff. eexists. split; [|exact Hx]. reflexivity.
  - apply in_map_iff in Hk as ([k' x] & <- & Hin). cbn [fst].
    assert (exists y, first_kind k' O = Some y) as [y Hy].
    { unfold first_kind. destruct (find _ O) eqn:Ef; [cbn; eauto|]. apply (find_none _ _ Ef) in Hin. cbn [fst] in Hin. now rewrite key_eqb_refl in Hin. }
    pose proof (GK k') as K. rewrite Hy in K. cbn in K. unfold kind_at in K.
    destruct (m_find kcmp k' m) as [b|] eqn:Eb; [|discriminate]. apply k_find_in in Eb. apply in_map_iff. eexists. split; [|exact Eb]. reflexivity.
Qed.

Lemma entries_types O F m : grown O F [] m ->
  exists ts, map make m = map (fun t => decoded (type_tree t)) ts /\ schema_of O F ts.
Proof. intros G. destruct (entries_sized O F m G) as (ts & E & _ & S). exists ts. now split. Qed.

Lemma tidy_empty : tidy [].
Proof. split; [constructor|]. intros k fs [=]. Qed.

(** Writing several objects with one writer. *)
Theorem serialise_all_spec roots :
  Forall (fun r => well_formed r /\ is_pointer r = false) roots ->
  (forall k s, In (k, Class) (flat_map occurrences roots) -> In (k, Container s) (flat_map occurrences roots) -> False) ->
  exists m ts, each serialise roots new_writer = Ok tt (Writer (put_all (map wire roots) pn_data) m) /\
    map make m = map (fun t => decoded (type_tree t)) ts /\
    schema_of (flat_map occurrences roots) (fun k => flat_map (fields_written k) roots) ts.
Proof.
  intros HR HC. set (U := flat_map occurrences roots) in *.
  destruct (emits_each U HC [] serialise (fun p => [wire p]) occurrences fields_written roots) with (p := pn_data) (m := @nil (key * schema_blob)) as (m & E & G).
  - intros a Ha Hi. rewrite Forall_forall in HR. destruct (HR _ Ha). now apply (good_all U HC a).
  - apply incl_refl.
  - apply tidy_empty.
  - intros k s Hk [=].
  - intros k [].
  - destruct (entries_types _ _ _ G) as (ts & E1 & E2). exists m, ts. split; [|now split].
    unfold new_writer. rewrite E. reflexivity.
Qed.

Theorem serialise_correct root :
  well_formed root -> is_pointer root = false -> no_clash root ->
  exists w ts, serialise_blob root new_writer = Ok (decoded (envelope_tree (wire root) [ts] [leaf ANull])) w /\
    schema_for root ts.
Proof.
  intros W P C. destruct (serialise_all_spec [root]) as (m & ts & E1 & E2 & E3).
  - repeat constructor; auto.
  - cbn [flat_map]. rewrite app_nil_r. exact C.
  - cbn [each] in E1. unfold bind, ret in E1. destruct (serialise root new_writer) as [[] w| | | |] eqn:E; try discriminate.
    injection E1 as ->. exists (Writer (put_all [wire root] pn_data) m), ts. split.
    + unfold serialise_blob, bind. rewrite E. unfold toBlob. cbn [m_payload m_schemas]. rewrite E2.
      rewrite schema_makeProton_spec. exact (f_equal (fun d => Ok d _) (envelope_makeProton_spec (wire root) [ts])).
    + destruct E3 as (S1 & S2 & S3). cbn [flat_map] in S2, S3. rewrite app_nil_r in S2, S3. split; [exact S1|]. split; [exact S2|].
      apply Forall_forall. intros t Ht. rewrite Forall_forall in S3. specialize (S3 t Ht). unfold describes.
      destruct t; [|exact S3]. destruct S3 as (? & ? & ? & ? & S). repeat split; auto; intros Hf; [rewrite <- (app_nil_r (fields_written _ root)); now apply S|].
      apply S. now rewrite app_nil_r.
Qed.

(** ** Unsafe pointers *)

Lemma printable_dec t v : printable t v \/ ~ printable t v.
Proof.
  unfold printable. destruct t; try (left; discriminate). destruct v as [[| | | | | |[| |]]|];
    try (left; reflexivity); right; intros H; specialize (H eq_refl); discriminate.
Qed.
Lemma safe_or_not i : typed i -> well_formed i \/ unsafe i.
Proof.
  induction i using item_induction; cbn [typed well_formed]; intros T.
  - now left.
  - destruct (printable_dec t v) as [P|P]; [|right; now constructor]. left. destruct v; cbn in *; [destruct T|]; auto.
  - apply fold_and in T. rewrite Forall_forall in *.
    assert (D : Forall (fun p => well_formed (snd (snd p))) ps \/ Exists (fun p => unsafe (snd (snd p))) ps).
    { clear n fp. induction ps as [|p ps IH]; [left; constructor|]. destruct (H p (or_introl eq_refl) (T p (or_introl eq_refl))) as [W|W].
      - destruct IH as [G|G]; [intros; apply H; auto; now right|intros; apply T; now right|left|right]; now constructor.
      - right. now constructor. }
    destruct D as [D|D]; [left; now apply fold_and|right]. apply Exists_exists in D as (p & Hp & Hu). econstructor; eauto.
  - apply fold_and in T. rewrite Forall_forall in *.
    assert (D : Forall (fun e => is_pointer e = false /\ well_formed e) es \/ Exists unsafe es).
    { clear n fp. induction es as [|e es IH]; [left; constructor|]. destruct (T e (or_introl eq_refl)) as [T1 T2].
      destruct (H e (or_introl eq_refl) T2) as [W|W].
      - destruct IH as [G|G]; [intros; apply H; auto; now right|intros; apply T; now right|left|right]; now constructor.
      - right. now constructor. }
    destruct D as [D|D]; [left; now apply fold_and|right]. apply Exists_exists in D as (p & Hp & Hu). econstructor; eauto.
  - apply fold_and in T. rewrite Forall_forall in *.
    assert (D : Forall (fun kv => (is_pointer (fst kv) = false /\ well_formed (fst kv)) /\ (is_pointer (snd kv) = false /\ well_formed (snd kv))) kvs
      \/ Exists (fun kv => unsafe (fst kv) \/ unsafe (snd kv)) kvs).
    { clear n fp. induction kvs as [|kv kvs IH]; [left; constructor|]. destruct (T kv (or_introl eq_refl)) as [[T1 T2] [T3 T4]].
      destruct (H kv (or_introl eq_refl)) as [H1 H2]. destruct (H1 T2) as [W|W]; [|right; constructor; now left].
      destruct (H2 T4) as [W'|W']; [|right; constructor; now right].
      destruct IH as [G|G]; [intros; apply H; auto; now right|intros; apply T; now right|left|right]; now constructor. }
    destruct D as [D|D]; [left|right].
    + clear - D. induction D as [|kv kvs [? ?] _ IH]; cbn; auto.
    + apply Exists_exists in D as (p & Hp & Hu). econstructor; eauto.
  - now left.
  - destruct T as [T1 T2]. destruct (IHi T2); [left; auto|right; now constructor].
Qed.

Section Unsafe.
Context (U : list (key * kind)).
Hypothesis (Hclash : forall k s, In (k, Class) U -> In (k, Container s) U -> False).

(** [c] is undefined, given that the classes [P] have entries. *)
Definition strays (P : list key) (c : WM unit) : Prop :=
  forall p m, tidy m -> agrees U m -> (forall k, In k P -> kind_at m k = Some Class) -> c (Writer p m) = UB.

Lemma emits_strays P c1 ts O F c2 : incl O U -> emits U P c1 ts O F -> strays P c2 -> strays P (c1 ;; c2).
Proof.
  intros HO H1 H2 p m T A HP. destruct (H1 p m T A HP) as (m1 & E1 & G1). unfold bind. rewrite E1. apply H2.
  - apply G1.
  - eapply agrees_grown; eauto.
  - intros k Hk. rewrite (g_kind _ _ _ _ G1), (HP k Hk). reflexivity.
Qed.
Lemma strays_then P c1 c2 : strays P c1 -> strays P (c1 ;; c2).
Proof. intros H p m T A HP. unfold bind. now rewrite (H p m T A HP). Qed.
Lemma strays_weaken P c : strays [] c -> strays P c.
Proof. intros H p m T A _. apply H; auto. intros k []. Qed.

Lemma strays_each {A} P (f : A -> WM unit) (t : A -> list tree) (O : A -> list (key * kind)) (F : key -> A -> list wire_field) l :
  (forall a, In a l -> emits U P (f a) (t a) (O a) (fun k => F k a) \/ strays P (f a)) ->
  (exists a, In a l /\ strays P (f a)) -> incl (flat_map O l) U ->
  strays P (each f l).
Proof.
  induction l as [|a l IH]; intros H (x & Hx & Sx) HO; [destruct Hx|]. cbn [each].
  cbn [flat_map] in HO. apply incl_app_inv in HO as [HO1 HO2].
  destruct (H a (or_introl eq_refl)) as [E|S]; [|now apply strays_then].
  destruct Hx as [<- |Hx]; [now apply strays_then|].
  eapply emits_strays; [exact HO1|exact E|]. apply IH; eauto. intros; apply H. now right.
Qed.
Lemma strays_object P n fp c : In ((n, fp), Class) U -> strays ((n, fp) :: P) c -> strays P (startComposite (n, fp) ;; finally c ended).
Proof.
  intros HU H p m T A HP. destruct (absent_grown (n, fp) Class p m T) as (m1 & E1 & G1).
  unfold startComposite, startSerializable. unfold bind at 1 2 3. rewrite E1. cbn [on_payload m_payload m_schemas snd].
  assert (A1 : agrees U m1). { eapply agrees_grown; eauto. intros x [<- |[]]. exact HU. }
  unfold finally, on_payload. cbn [m_payload m_schemas].
  rewrite H; auto.
  - apply G1.
  - intros k [<- |Hk].
    + rewrite (g_kind _ _ _ _ G1). destruct (kind_at m (n, fp)) as [[|s]|] eqn:E; cbn; auto.
      * now destruct (A _ _ HU E).
      * unfold first_kind. cbn [find fst]. now rewrite key_eqb_refl.
    + rewrite (g_kind _ _ _ _ G1), (HP k Hk). reflexivity.
Qed.
Lemma strays_container P n fp src c : In ((n, fp), Container src) U -> src = "list" \/ src = "map" ->
  strays [] c -> strays P (startRestricted (n, fp) src ;; finally c ended).
Proof.
  intros HU Hs H p m T A HP. destruct (absent_grown (n, fp) (Container src) p m T) as (m1 & E1 & G1).
  assert (A1 : agrees U m1). { eapply agrees_grown; eauto. intros x [<- |[]]. exact HU. }
  unfold startRestricted, startSerializable, finally, bind. rewrite E1. unfold put, on_payload.
  destruct Hs as [-> | ->]; cbn [String.eqb Ascii.eqb Bool.eqb m_payload m_schemas snd];
    (rewrite H; [reflexivity|apply G1|exact A1|intros k []]).
Qed.
Lemma strays_pointwise P c c' : (forall w, c w = c' w) -> strays P c' -> strays P c.
Proof. intros E H p m T A HP. rewrite E. now apply H. Qed.
Lemma strays_property id pn t rs mand c : strays [] c -> strays [id] (add_field id pn (field_makeProton pn t rs "" "" mand false) ;; c).
Proof.
  intros H. eapply (emits_strays [id] _ [] []); [intros x []| |now apply strays_weaken].
  rewrite field_makeProton_spec.
  exact (emits_field U [id] id {| w_name := pn; w_type := t; w_requires := rs; w_default := Some ""; w_label := Some "";
       w_mandatory := mand; w_multiple := false |} _ (or_introl eq_refl) eq_refl).
Qed.

Lemma unsafe_strays i : typed i -> unsafe i -> incl (occurrences i) U ->
  (is_pointer i = false -> strays [] (serialise i)) /\
  (forall id pn ty, strays [id] (write_property id (pn, (ty, i)))).
Proof.
  induction i using item_induction; intros WF N HO; inversion N; subst; cbn [typed] in WF.
  - split.
    + intros _ p m _ _ _. cbn [serialise]. now apply logged.
    + intros id pn ty p m _ _ _. cbn [write_property]. now apply logged.
  - assert (S : strays [] (serialise (IObject n fp ps))).
    { eapply strays_pointwise; [apply serialise_object|]. cbn [occurrences] in HO. apply incl_cons_inv in HO as [HO1 HO2].
      apply fold_and in WF. rewrite Forall_forall in *.
      apply strays_object; auto.
      assert (HI : forall p, In p ps -> incl (occurrences (snd (snd p))) U).
      { intros q Hq x Hx. apply HO2, in_flat_map. eauto. }
      apply (strays_each [(n, fp)] (write_property (n, fp)) (fun p => [wire (snd (snd p))]) (fun p => occurrences (snd (snd p)))
        (fun k q => ((if key_eqb k (n, fp) then [property_field (fst q) (fst (snd q)) (snd (snd q))] else []) ++ fields_written k (snd (snd q)))%list)); auto.
      + intros [pn [ty v]] Hin. destruct (safe_or_not v (WF _ Hin)) as [W|W].
        * left. apply (good_all U Hclash v W (HI _ Hin)).
        * right. apply (H _ Hin (WF _ Hin) W (HI _ Hin)).
      + match goal with Hp : In ?p ps |- _ => exists p; split; [exact Hp|]; destruct p as [pn [ty v]]; apply (H _ Hp (WF _ Hp)); auto; exact (HI _ Hp) end. }
    split; [auto|]. intros id pn ty. apply strays_property. exact S.
  - assert (S : strays [] (serialise (IVector n fp es))).
    { eapply strays_pointwise; [apply serialise_vector|]. cbn [occurrences] in HO. apply incl_cons_inv in HO as [HO1 HO2].
      apply fold_and in WF. rewrite Forall_forall in *.
      apply strays_container; auto.
      assert (HI : forall p, In p es -> incl (occurrences p) U). { intros q Hq x Hx. apply HO2, in_flat_map. eauto. }
      apply (strays_each [] serialise (fun p => [wire p]) occurrences fields_written); auto.
      + intros v Hin. destruct (WF _ Hin) as [W1 W2]. destruct (safe_or_not v W2) as [W|W].
        * left. now apply (good_all U Hclash v W (HI _ Hin)).
        * right. now apply (H _ Hin W2 W (HI _ Hin)).
      + match goal with Hp : In ?p es |- _ => exists p; split; [exact Hp|]; destruct (WF _ Hp); apply (H _ Hp); auto end. }
    split; [auto|]. intros id pn ty. apply strays_property. exact S.
  - assert (S : strays [] (serialise (IMap n fp kvs))).
    { eapply strays_pointwise; [apply serialise_map|]. cbn [occurrences] in HO. apply incl_cons_inv in HO as [HO1 HO2].
      apply fold_and in WF. rewrite Forall_forall in *.
      apply strays_container; auto.
      assert (HI : forall p, In p kvs -> incl (occurrences (fst p)) U /\ incl (occurrences (snd p)) U).
      { intros q Hq. split; intros x Hx; apply HO2, in_flat_map; exists q; split; auto; apply in_or_app; auto. }
      assert (HB : forall kv, In kv kvs -> unsafe (fst kv) \/ unsafe (snd kv) -> strays [] (serialise (fst kv) ;; serialise (snd kv))).
      { intros [k v] Hin Hu. cbn [fst snd] in *. destruct (H _ Hin) as [HK HV]. destruct (WF _ Hin) as [[W1 W2] [W3 W4]]. destruct (HI _ Hin) as [I1 I2].
        cbn [fst snd] in *. destruct (safe_or_not k W2) as [K|K]; [|apply strays_then; now apply HK].
        destruct Hu as [Hu|Hu]; [apply strays_then; now apply HK|].
        eapply emits_strays; [exact I1|now apply (good_all U Hclash k K I1)|]. now apply HV. }
      apply (strays_each [] (fun kv => serialise (fst kv) ;; serialise (snd kv)) (fun kv => [wire (fst kv)] ++ [wire (snd kv)])%list
        (fun kv => occurrences (fst kv) ++ occurrences (snd kv))%list (fun k kv => (fields_written k (fst kv) ++ fields_written k (snd kv))%list)); auto.
      + intros [k v] Hin. destruct (WF _ Hin) as [[W1 W2] [W3 W4]]. destruct (HI _ Hin) as [I1 I2]. cbn [fst snd] in *.
        destruct (safe_or_not k W2) as [K|K]; [|right; apply (HB (k, v)); auto].
        destruct (safe_or_not v W4) as [V|V]; [|right; apply (HB (k, v)); auto].
        left. apply (emits_then U Hclash []); auto; [now apply (good_all U Hclash k K I1)|now apply (good_all U Hclash v V I2)].
      + match goal with Hp : In ?p kvs |- _ => exists p; split; [exact Hp|]; auto end. }
    split; [auto|]. intros id pn ty. apply strays_property. exact S.
  - destruct WF as [W1 W2]. split; [discriminate|]. intros id pn ty.
    match goal with Hu : unsafe i |- _ => destruct (IHi W2 Hu HO) as [HK _] end.
    cbn [write_property]. apply strays_property. apply HK. now destruct i.
Qed.
End Unsafe.

Theorem unsafe_undefined root : typed root -> is_pointer root = false -> no_clash root -> unsafe root ->
  serialise_blob root new_writer = UB.
Proof.
  intros T P C N. destruct (unsafe_strays (occurrences root) C root T N (incl_refl _)) as [H _].
  unfold serialise_blob, bind, new_writer. rewrite (H P); auto.
  - apply tidy_empty.
  - intros k s Hk [=].
  - intros k [].
Qed.
Theorem unsafe_exactly root : typed root -> is_pointer root = false -> no_clash root ->
  match serialise_blob root new_writer with
  | Ok _ _ => ~ unsafe root
  | UB => unsafe root
  | _ => False
  end.
Proof.
  intros T P C. destruct (safe_or_not root T) as [W|W].
  - destruct (serialise_correct root W P C) as (w & ts & E & _). rewrite E. intros N.
    rewrite (unsafe_undefined root T P C N) in E. discriminate.
  - now rewrite (unsafe_undefined root T P C W).
Qed.

(** ** Uniform classes *)

Lemma in_fields_instances k f i : In f (fields_written k i) <-> exists props, In props (instances k i) /\ In f props.
Proof.
  induction i using item_induction; cbn [fields_written instances].
  - split; [intros []|intros (? & [] & _)].
  - split; [intros []|intros (? & [] & _)].
  - rewrite in_flat_map. rewrite Forall_forall in H. split.
    + intros (p & Hp & Hf). apply in_app_or in Hf as [Hf|Hf].
      * destruct (key_eqb k (n, fp)); [|destruct Hf]. destruct Hf as [<- |[]].
        eexists. split; [apply in_or_app; left; now left|]. apply in_map_iff. eauto.
      * apply (H p Hp) in Hf as (props & H1 & H2). exists props. split; [|exact H2]. apply in_or_app. right. apply in_flat_map. eauto.
    + intros (props & H1 & H2). apply in_app_or in H1 as [H1|H1].
      * destruct (key_eqb k (n, fp)); [|destruct H1]. destruct H1 as [<- |[]]. apply in_map_iff in H2 as (p & <- & Hp).
        exists p. split; [exact Hp|]. apply in_or_app. left. now left.
      * apply in_flat_map in H1 as (p & Hp & H1). exists p. split; [exact Hp|]. apply in_or_app. right. apply (H p Hp). eauto.
  - rewrite in_flat_map. rewrite Forall_forall in H. split.
    + intros (e & He & Hf). apply (H e He) in Hf as (props & H1 & H2). exists props. split; [apply in_flat_map; eauto|exact H2].
    + intros (props & H1 & H2). apply in_flat_map in H1 as (e & He & H1). exists e. split; [exact He|]. apply (H e He). eauto.
  - rewrite in_flat_map. rewrite Forall_forall in H. split.
    + intros (e & He & Hf). destruct (H e He) as [Hk Hv]. apply in_app_or in Hf as [Hf|Hf]; [apply Hk in Hf|apply Hv in Hf];
      destruct Hf as (props & H1 & H2); exists props; (split; [apply in_flat_map; exists e; split; [exact He|apply in_or_app; auto]|exact H2]).
    + intros (props & H1 & H2). apply in_flat_map in H1 as (e & He & H1). destruct (H e He) as [Hk Hv]. exists e. split; [exact He|].
      apply in_or_app. apply in_app_or in H1 as [H1|H1]; [left; apply Hk|right; apply Hv]; eauto.
  - split; [intros []|intros (? & [] & _)].
  - exact IHi.
Qed.

Lemma occurrence_instance k i : In (k, Class) (occurrences i) -> instances k i <> [].
Proof.
  assert (App : forall (a b : list (list wire_field)), (a <> [] \/ b <> []) -> (a ++ b)%list <> []).
  { intros [|x a] [|y b] [N|N] E; try discriminate; now apply N. }
  assert (Flat : forall A (f : A -> list (list wire_field)) l a, In a l -> f a <> [] -> flat_map f l <> []).
  { intros A f l a Ha N. induction l as [|b l IH]; [destruct Ha|]. cbn. apply App. destruct Ha as [-> |Ha]; auto. }
  induction i using item_induction; cbn [occurrences instances]; intros Hin; try (now destruct Hin).
  - destruct Hin as [E|Hin].
    + injection E as <-. rewrite key_eqb_refl. discriminate.
    + apply in_flat_map in Hin as (p & Hp & Hin). rewrite Forall_forall in H. apply App. right. eapply Flat; eauto.
  - destruct Hin as [E|Hin]; [discriminate|]. apply in_flat_map in Hin as (p & Hp & Hin). rewrite Forall_forall in H. eapply Flat; eauto.
  - destruct Hin as [E|Hin]; [discriminate|]. apply in_flat_map in Hin as (p & Hp & Hin). rewrite Forall_forall in H.
    destruct (H p Hp) as [Hk Hv]. eapply Flat; eauto. cbn beta. apply App. apply in_app_or in Hin as [Hin|Hin]; auto.
  - auto.
Qed.

Lemma sorted_nodup l : StronglySorted before l -> NoDup l.
Proof.
  induction 1 as [|a l _ IH H]; constructor; auto. intros Hin. rewrite Forall_forall in H. exact (before_irrefl _ (H _ Hin)).
Qed.

Theorem uniform_fields root ts c props :
  schema_for root ts -> In (WClass c) ts -> uniform root (wc_name c, wc_fingerprint c) props ->
  Permutation (wc_fields c) props.
Proof.
  intros (_ & _ & HD) Hc [HU HN]. rewrite Forall_forall in HD. destruct (HD _ Hc) as (HO & _ & _ & HS & HF).
  set (k := (wc_name c, wc_fingerprint c)) in *.
  assert (Hall : forall f, In f (fields_written k root) <-> In f props).
  { intros f. rewrite in_fields_instances. rewrite Forall_forall in HU. split.
    - intros (p & H1 & H2). now rewrite (HU _ H1).
    - intros Hf. apply occurrence_instance in HO. destruct (instances k root) as [|p l]; [congruence|].
      exists p. split; [now left|]. now rewrite <- (HU p (or_introl eq_refl)). }
  apply NoDup_Permutation.
  - apply sorted_nodup in HS. eapply NoDup_map_inv; eauto.
  - eapply NoDup_map_inv; eauto.
  - intros f. rewrite HF. split.
    + intros H. apply find_some in H as [H _]. now apply Hall.
    + intros H. apply Hall in H as H'. unfold first_named. destruct (find (fun g => String.eqb (w_name f) (w_name g)) (fields_written k root)) as [g|] eqn:Ef.
      * apply find_some in Ef as [H1 H2]. apply String.eqb_eq in H2. apply Hall in H1. f_equal.
        clear - HN H H1 H2. induction props as [|p ps IH]; [destruct H|]. cbn in HN. apply NoDup_cons_iff in HN as [N1 N2].
        destruct H as [-> |H], H1 as [-> |H1]; auto.
        -- destruct N1. rewrite H2. now apply in_map.
        -- destruct N1. rewrite <- H2. now apply in_map.
      * apply (find_none _ _ Ef) in H'. now rewrite String.eqb_refl in H'.
Qed.

Lemma sorted_unique (l l' : list wire_field) :
  StronglySorted before (map w_name l) -> StronglySorted before (map w_name l') -> Permutation l l' -> l = l'.
Proof.
  revert l'. induction l as [|a l IH]; intros l' H1 H2 HP; [now apply Permutation_nil in HP|].
  destruct l' as [|b l']; [symmetry in HP; now apply Permutation_nil in HP|].
  cbn [map] in H1, H2. apply StronglySorted_inv in H1 as [H1 A1], H2 as [H2 A2]. rewrite Forall_forall in A1, A2.
  assert (E : a = b).
  { assert (Ha : In a (b :: l')) by (eapply Permutation_in; [exact HP|now left]).
    assert (Hb : In b (a :: l)) by (eapply Permutation_in; [symmetry; exact HP|now left]).
    destruct Ha as [-> |Ha]; auto. destruct Hb as [-> |Hb]; auto.
    destruct (before_irrefl (w_name a)). eapply before_trans; [apply A1|apply A2]; now apply in_map. }
  subst b. f_equal. apply IH; auto. now apply Permutation_cons_inv in HP.
Qed.

Theorem order_exact root ts c props :
  schema_for root ts -> In (WClass c) ts -> uniform root (wc_name c, wc_fingerprint c) props ->
  (wc_fields c = props <-> StronglySorted before (map w_name props)).
Proof.
  intros HS Hc HU. pose proof (uniform_fields _ _ _ _ HS Hc HU) as HP. destruct HS as (_ & _ & HD). rewrite Forall_forall in HD.
  destruct (HD _ Hc) as (_ & _ & _ & Hs & _). split; [now intros <-|]. intros Hp. now apply sorted_unique.
Qed.

(** ** Flags *)
Lemma fields_properties k i : fields_written k i = map (fun p => property_field (fst p) (fst (snd p)) (snd (snd p))) (properties_of k i).
Proof.
  assert (Flat : forall A B C (f : A -> list C) (g : A -> list B) (h : B -> C) l,
            (forall a, In a l -> f a = map h (g a)) -> flat_map f l = map h (flat_map g l)).
  { intros A B C f g h l H. induction l as [|a l IH]; cbn; [reflexivity|]. rewrite map_app, (H a (or_introl eq_refl)), IH; auto.
    intros; apply H; now right. }
  induction i using item_induction; cbn [fields_written properties_of]; auto; apply Flat; intros a Ha; rewrite Forall_forall in H.
  - rewrite map_app, (H a Ha). now destruct (key_eqb k (n, fp)).
  - auto.
  - rewrite map_app. destruct (H a Ha) as [-> ->]. reflexivity.
Qed.

Theorem flags_exact root ts c f : schema_for root ts -> In (WClass c) ts -> In f (wc_fields c) ->
  exists ty v, In (w_name f, (ty, v)) (properties_of (wc_name c, wc_fingerprint c) root) /\
    (w_mandatory f = true <-> exists t p, v = IPrimPtr t p).
Proof.
  intros (_ & _ & HD) Hc Hf. rewrite Forall_forall in HD. destruct (HD _ Hc) as (_ & _ & _ & _ & HF).
  apply HF in Hf. apply find_some in Hf as [Hf _]. rewrite fields_properties in Hf. apply in_map_iff in Hf as ([n [ty v]] & <- & Hp).
  exists ty, v. split; [exact Hp|]. cbn [property_field w_mandatory fst snd]. destruct v; cbn; split; try discriminate; eauto; intros (? & ? & [=]).
Qed.

(** ** Self-contained schemas *)
Definition occurs (i : item) (n : string) : Prop := In n (map (fun o => fst (fst o)) (occurrences i)).
Lemma occurs_incl i j n : incl (occurrences i) (occurrences j) -> occurs i n -> occurs j n.
Proof. unfold occurs. intros H Hn. apply in_map_iff in Hn as (o & <- & Ho). apply (in_map (fun o => fst (fst o))). auto. Qed.
Lemma own_name_occurs v n : own_name v = Some n -> occurs v n.
Proof. destruct v as [| | | | |[[]|]]; cbn; try discriminate; intros [= <-]; left; reflexivity. Qed.
Lemma element_occurs v ty : element_of ty v -> In ty primitive_types \/ occurs v ty.
Proof. intros [H|[_ H]]; auto. right. now apply own_name_occurs. Qed.
Lemma part_incl {A} (f : A -> list (key * kind)) l a o : In a l -> incl (f a) (o :: flat_map f l).
Proof. intros Ha x Hx. right. apply in_flat_map. eauto. Qed.

Lemma filled_object n fp ps : filled (IObject n fp ps) ->
  forall p, In p ps -> (own_name (snd (snd p)) = Some (fst (snd p)) \/ is_primitive (snd (snd p)) = true) /\ filled (snd (snd p)).
Proof. cbn [filled]. induction ps as [|q ps IH]; cbn; [intros _ p []|]. intros (H1 & H2 & H3) p [<- |Hp]; auto. Qed.
Lemma filled_vector n fp es : filled (IVector n fp es) ->
  es <> [] /\ exists e, n = "java.util.List<" ++ e ++ ">" /\ forall v, In v es -> element_of e v /\ filled v.
Proof.
  cbn [filled]. intros (N & e & -> & H). split; auto. exists e. split; auto. clear N.
  induction es as [|q ps IH]; cbn in *; [intros p []|]. destruct H as (H1 & H2 & H3). intros p [<- |Hp]; auto.
Qed.
Lemma filled_map n fp kvs : filled (IMap n fp kvs) ->
  kvs <> [] /\ exists a b, bracketed false a /\ n = "java.util.Map<" ++ a ++ "," ++ b ++ ">" /\
  forall kv, In kv kvs -> (element_of a (fst kv) /\ filled (fst kv)) /\ (element_of b (snd kv) /\ filled (snd kv)).
Proof.
  cbn [filled]. intros (N & a & b & B & -> & H). split; auto. exists a, b. split; auto. split; auto. clear N.
  induction kvs as [|q ps IH]; cbn in *; [intros p []|]. destruct H as (H1 & H2 & H3). intros p [<- |Hp]; auto.
Qed.

Lemma filled_fields k f i : filled i -> In f (fields_written k i) ->
  (w_type f = "*" \/ In (w_type f) primitive_types \/ occurs i (w_type f)) /\ Forall (occurs i) (w_requires f).
Proof.
  intros Hh Hf. rewrite fields_properties in Hf. apply in_map_iff in Hf as ([pn [ty v]] & <- & Hp).
  assert (H : (own_name v = Some ty \/ is_primitive v = true) /\ incl (occurrences v) (occurrences i)).
  { revert Hh Hp. induction i using item_induction; intros Hh; try (now intros []); cbn [properties_of].
    - intros Hp. apply in_flat_map in Hp as (p & Hp & Hin). rewrite Forall_forall in H. destruct (filled_object _ _ _ Hh p Hp) as [H1 H2].
      apply in_app_or in Hin as [Hin|Hin].
      + destruct (key_eqb k (n, fp)); [|destruct Hin]. destruct Hin as [-> |[]]. split; [exact H1|].
        apply (part_incl (fun p => occurrences (snd (snd p))) ps _ _ Hp).
      + destruct (H p Hp H2 Hin) as [H3 H4]. split; [exact H3|]. eapply incl_tran; [exact H4|].
        apply (part_incl (fun p => occurrences (snd (snd p))) ps _ _ Hp).
    - intros Hp. apply in_flat_map in Hp as (p & Hp & Hin). rewrite Forall_forall in H. destruct (filled_vector _ _ _ Hh) as (_ & e & _ & Hall).
      destruct (H p Hp (proj2 (Hall p Hp)) Hin) as [H3 H4]. split; [exact H3|]. eapply incl_tran; [exact H4|]. apply (part_incl occurrences es _ _ Hp).
    - intros Hp. apply in_flat_map in Hp as (p & Hp & Hin). rewrite Forall_forall in H. destruct (filled_map _ _ _ Hh) as (_ & a & b & _ & _ & Hall).
      destruct (Hall p Hp) as [[_ H1] [_ H2]]. destruct (H p Hp) as [Hk Hv].
      assert (HI := part_incl (fun kv => (occurrences (fst kv) ++ occurrences (snd kv))%list) kvs p ((n, fp), Container "map") Hp). apply incl_app_inv in HI as [HI1 HI2].
      apply in_app_or in Hin as [Hin|Hin]; [destruct (Hk H1 Hin) as [H3 H4]|destruct (Hv H2 Hin) as [H3 H4]];
        (split; [exact H3|]); eapply incl_tran; eauto.
    - exact (IHi Hh). }
  destruct H as [H HI]. cbn [property_field w_type w_requires fst snd].
  assert (Ho : own_name v = Some ty -> occurs i ty). { intros E. eapply occurs_incl; eauto. now apply own_name_occurs. }
  destruct v as [p|t p| | | |o]; cbn [property_type property_requires].
  - split; [|constructor]. right. left. destruct p; cbn; tauto.
  - split; [|constructor]. right. left. destruct t; cbn; tauto.
  - destruct H as [H|[=]]. split; [|constructor]. auto.
  - destruct H as [H|[=]]. split; auto.
  - destruct H as [H|[=]]. split; auto.
  - destruct H as [H|[=]]. split; [|constructor]. auto.
Qed.

Lemma filled_containers n fp s i : filled i -> In ((n, fp), Container s) (occurrences i) ->
  (exists e, n = "java.util.List<" ++ e ++ ">" /\ (In e primitive_types \/ occurs i e)) \/
  (exists a b, bracketed false a /\ n = "java.util.Map<" ++ a ++ "," ++ b ++ ">" /\
     (In a primitive_types \/ occurs i a) /\ (In b primitive_types \/ occurs i b)).
Proof.
  induction i using item_induction; intros Hh; try (now intros []); cbn [occurrences].
  - intros [[=]|Hp]. apply in_flat_map in Hp as (p & Hp & Hin). rewrite Forall_forall in H. destruct (filled_object _ _ _ Hh p Hp) as [H1 H2].
    assert (HI := part_incl (fun p => occurrences (snd (snd p))) ps p ((n0, fp0), Class) Hp).
    destruct (H p Hp H2 Hin) as [(e & -> & He)|(a & b & B & -> & Ha & Hb)]; [left; exists e|right; exists a, b]; intuition eauto using occurs_incl.
  - destruct (filled_vector _ _ _ Hh) as (N & e & Ee & Hall). intros [E|Hp].
    + injection E as -> -> <-. left. exists e. split; [exact Ee|]. destruct es as [|v es]; [congruence|].
      destruct (Hall v (or_introl eq_refl)) as [He _]. apply element_occurs in He as [He|He]; auto. right.
      eapply occurs_incl; [|exact He]. apply (part_incl occurrences (v :: es) v). now left.
    + apply in_flat_map in Hp as (p & Hp & Hin). rewrite Forall_forall in H.
      assert (HI := part_incl occurrences es p ((n0, fp0), Container "list") Hp).
      destruct (H p Hp (proj2 (Hall p Hp)) Hin) as [(e' & -> & He)|(a & b & B & -> & Ha & Hb)]; [left; exists e'|right; exists a, b]; intuition eauto using occurs_incl.
  - destruct (filled_map _ _ _ Hh) as (N & a & b & B & Ee & Hall). intros [E|Hp].
    + injection E as -> -> <-. right. exists a, b. split; [exact B|]. split; [exact Ee|]. destruct kvs as [|kv kvs]; [congruence|].
      destruct (Hall kv (or_introl eq_refl)) as [[Ha _] [Hb _]].
      assert (HI := part_incl (fun kv => (occurrences (fst kv) ++ occurrences (snd kv))%list) (kv :: kvs) kv ((n, fp), Container "map") (or_introl eq_refl)).
      apply incl_app_inv in HI as [HI1 HI2].
      split; [apply element_occurs in Ha as [Ha|Ha]|apply element_occurs in Hb as [Hb|Hb]]; auto; right;
        [exact (occurs_incl _ (IMap n fp (kv :: kvs)) _ HI1 Ha)|exact (occurs_incl _ (IMap n fp (kv :: kvs)) _ HI2 Hb)].
    + apply in_flat_map in Hp as (p & Hp & Hin). rewrite Forall_forall in H. destruct (H p Hp) as [Hk Hv]. destruct (Hall p Hp) as [[_ H1] [_ H2]].
      assert (HI := part_incl (fun kv => (occurrences (fst kv) ++ occurrences (snd kv))%list) kvs p ((n0, fp0), Container "map") Hp). apply incl_app_inv in HI as [HI1 HI2].
      apply in_app_or in Hin as [Hin|Hin]; [destruct (Hk H1 Hin) as [(e' & -> & He)|(a' & b' & B' & -> & Ha & Hb)]|destruct (Hv H2 Hin) as [(e' & -> & He)|(a' & b' & B' & -> & Ha & Hb)]];
      (left; exists e'; intuition eauto using occurs_incl; fail) || (right; exists a', b'; intuition eauto using occurs_incl).
  - exact (IHi Hh).
Qed.

(** The first comma outside all brackets. *)
Fixpoint top_comma (d : nat) (s : string) : option nat :=
  match s with
  | EmptyString => None
  | String c s' =>
      if Ascii.eqb c "<" then option_map S (top_comma (S d) s')
      else if Ascii.eqb c ">" then option_map S (top_comma (pred d) s')
      else if Ascii.eqb c "," then match d with O => Some 0 | _ => option_map S (top_comma d s') end
      else option_map S (top_comma d s')
  end.
Lemma bracketed_comma c a : bracketed c a -> forall d rest, (c = false \/ d <> 0) ->
  top_comma d (a ++ rest) = option_map (plus (String.length a)) (top_comma d rest).
Proof.
  induction 1 as [c|c x s N1 N2 N3 Hs IH|s Hs IH|c i s Hi IHi Hs IHs]; intros d rest Hd.
  - cbn. now destruct (top_comma d rest).
  - cbn [append top_comma String.length]. destruct (Ascii.eqb_spec x "<"%char); [contradiction|].
    destruct (Ascii.eqb_spec x ">"%char); [contradiction|]. destruct (Ascii.eqb_spec x ","%char); [contradiction|].
    rewrite IH by exact Hd. now destruct (top_comma d rest).
  - cbn [append top_comma String.length]. cbn [Ascii.eqb Bool.eqb]. destruct Hd as [Hd|Hd]; [discriminate|]. destruct d as [|d]; [congruence|].
    rewrite IH by (right; discriminate). now destruct (top_comma (S d) rest).
  - rewrite !app_assoc_s. change (top_comma d ("<" ++ i ++ ">" ++ s ++ rest)) with (option_map S (top_comma (S d) (i ++ ">" ++ s ++ rest))).
    rewrite IHi by (right; discriminate). change (top_comma (S d) (">" ++ s ++ rest)) with (option_map S (top_comma d (s ++ rest))).
    rewrite IHs by exact Hd. destruct (top_comma d rest); cbn [option_map]; [|reflexivity]. f_equal.
    change (String.length ("<" ++ i ++ ">" ++ s)) with (S (String.length (i ++ String ">" s))).
    rewrite length_app_s. cbn [String.length]. lia.
Qed.
Lemma app_inv_length a b a' b' : a ++ b = a' ++ b' -> String.length a = String.length a' -> a = a' /\ b = b'.
Proof.
  revert a'. induction a as [|x a IH]; intros [|y a'] E L; try discriminate; auto.
  cbn in E, L. injection E as -> E. injection L as L. destruct (IH _ E L) as [-> ->]. auto.
Qed.
Lemma bracketed_split a b a' b' : bracketed false a -> bracketed false a' -> a ++ "," ++ b = a' ++ "," ++ b' -> a = a' /\ b = b'.
Proof.
  intros H H' E. assert (L : String.length a = String.length a').
  { apply (f_equal (top_comma 0)) in E. rewrite (bracketed_comma _ _ H), (bracketed_comma _ _ H') in E by auto. cbn in E. injection E as E. lia. }
  apply app_inv_length in E as [-> E]; auto. now injection E.
Qed.
Lemma append_inv_r a b c : a ++ c = b ++ c -> a = b.
Proof.
  intros E. assert (L : String.length a = String.length b).
  { apply (f_equal String.length) in E. rewrite !length_app_s in E. lia. }
  now apply app_inv_length in E.
Qed.

Theorem filled_self_contained root ts : schema_for root ts -> filled root -> self_contained ts.
Proof.
  intros (_ & HK & HD) HF. rewrite Forall_forall in HD.
  assert (HN : forall n, occurs root n -> In n (map type_name ts)).
  { intros n Hn. unfold occurs in Hn. apply in_map_iff in Hn as ([[n' fp] x] & <- & Ho). cbn [fst].
    assert (Hk : In (n', fp) (map type_key ts)). { apply HK. apply in_map_iff. eexists. split; [|exact Ho]. reflexivity. }
    apply in_map_iff in Hk as (t & Et & Ht). apply in_map_iff. exists t. split; [|exact Ht]. destruct t; cbn in *; congruence. }
  split; [|split].
  - intros c f Hc Hf. destruct (HD _ Hc) as (_ & _ & _ & _ & Hw). apply Hw in Hf. apply find_some in Hf as [Hf _].
    destruct (filled_fields _ _ _ HF Hf) as [H1 H2]. unfold explained. split; [destruct H1 as [H1|[H1|H1]]; auto|].
    eapply Forall_impl; [|exact H2]. auto.
  - intros r e Hr En. destruct (HD _ Hr) as (Ho & _). rewrite En in Ho. unfold explained.
    destruct (filled_containers _ _ _ _ HF Ho) as [(e' & E & He)|(a & b & _ & E & _)]; [|discriminate].
    assert (E' : e ++ ">" = e' ++ ">") by (cbn in E; congruence). apply append_inv_r in E' as ->. destruct He; auto.
  - intros r a b Hr B En. destruct (HD _ Hr) as (Ho & _). rewrite En in Ho. unfold explained.
    destruct (filled_containers _ _ _ _ HF Ho) as [(e' & E & He)|(a' & b' & B' & E & Ha & Hb)]; [discriminate|].
    assert (E' : a ++ "," ++ (b ++ ">") = a' ++ "," ++ (b' ++ ">")) by (cbn in E |- *; congruence).
    apply bracketed_split in E' as [-> E']; auto. apply append_inv_r in E' as ->. split; [destruct Ha|destruct Hb]; auto.
Qed.

(** ** Writing in pieces *)
Lemma serialise_each_each roots : serialise_each roots = each serialise roots.
Proof. induction roots as [|r rs IH]; cbn; [reflexivity|]. now rewrite IH. Qed.

Theorem payload_exact roots :
  Forall (fun r => well_formed r /\ is_pointer r = false) roots ->
  (forall k s, In (k, Class) (flat_map occurrences roots) -> In (k, Container s) (flat_map occurrences roots) -> False) ->
  exists w, serialise_each roots new_writer = Ok tt w /\ forest (m_payload w) = map wire roots /\ ups (m_payload w) = [].
Proof.
  intros H1 H2. destruct (serialise_all_spec roots H1 H2) as (m & ts & E & _). rewrite serialise_each_each. eexists. split; [exact E|].
  cbn [m_payload]. unfold put_all, pn_data. destruct (put_forest_empty (map wire roots) []) as [K1 K2]. split; [|exact K2].
  unfold forest. now rewrite K1, K2.
Qed.

Theorem blob_repeatable before after w d w' :
  (serialise_each before ;; toBlob) w = Ok d w' ->
  toBlob w' = Ok d w' /\
  (serialise_each after ;; toBlob) w' = (serialise_each (before ++ after) ;; toBlob) w.
Proof.
  unfold bind. destruct (serialise_each before w) as [[] w1| | | |] eqn:E; try discriminate. intros H.
  unfold toBlob in H. injection H as <- <-. split; [reflexivity|].
  assert (EE : serialise_each (before ++ after)%list w = serialise_each after w1).
  { revert w E. induction before as [|r rs IH]; cbn [serialise_each List.app]; intros w; [intros [= ->]; reflexivity|]. unfold bind.
    destruct (serialise r w) as [[] w2| | | |]; try discriminate. auto. }
  now rewrite EE.
Qed.

Theorem schema_once root ts k : schema_for root ts ->
  (In k (map fst (occurrences root)) <-> exists t, In t ts /\ type_key t = k) /\
  (forall t u, In t ts -> In u ts -> type_key t = k -> type_key u = k -> t = u) /\ NoDup ts.
Proof.
  intros (H1 & H2 & H3). 
  assert (HN : NoDup (map type_key ts)).
  { clear - H1. induction H1 as [|a l _ IH H]; constructor; auto. intros Hin. rewrite Forall_forall in H. exact (key_before_irrefl _ (H _ Hin)). }
  split; [|split].
  - rewrite <- H2, in_map_iff. split; intros (t & A & B); eauto.
  - intros t u Ht Hu <- E. clear - HN Ht Hu E. induction ts as [|x ts IH]; [destruct Ht|]. cbn in HN. apply NoDup_cons_iff in HN as [N1 N2].
    destruct Ht as [-> |Ht], Hu as [-> |Hu]; auto; destruct N1; [rewrite <- E|rewrite E]; now apply in_map.
  - eapply NoDup_map_inv; eauto.
Qed.

(** ** Examples *)
Definition inner (n : Z) : item := IObject "net.In" "f:in" [("n", ("int", IPrim (OfInt n)))].
(** A class with a string, a pointer, a vector of objects and a map. *)
Definition outer : item :=
  IObject "net.Out" "f:out" [
    ("a", ("string", IPrim (OfString "x")));
    ("b", ("net.In", IPointer (Some (inner 1))));
    ("c", ("java.util.List<net.In>", IVector "java.util.List<net.In>" "f:list" [inner 2; inner 3]));
    ("d", ("java.util.Map<int,net.In>", IMap "java.util.Map<int,net.In>" "f:map" [(IPrim (OfInt 7), inner 4)]));
    ("e", ("int", IPrimPtr CInt (Some (OfInt 9))))].
Lemma outer_ok : well_formed outer /\ is_pointer outer = false /\ no_clash outer /\ filled outer.
Proof.
  split; [cbn; intuition discriminate|]. split; [reflexivity|]. split.
  - intros k s H1 H2. cbn in H1, H2.
    repeat match goal with H : _ \/ _ |- _ => destruct H end; try contradiction; congruence.
  - cbn. repeat split; auto; try discriminate.
    + exists "net.In". repeat split; auto; now left.
    + exists "int", "net.In". split; [|split; [reflexivity|]].
      * do 3 (apply br_char; [discriminate..|]). constructor.
      * repeat split; auto; [right|left]; cbn; auto.
Qed.

Definition out_of_order : item := IObject "net.A" "f:a" [("b", ("int", IPrim (OfInt 1))); ("a", ("string", IPrim (OfString "x")))].
Definition null_pointer : item := IObject "net.A" "f:a" [("p", ("net.B", IPointer None))].
Definition empty_vector : item := IObject "net.A" "f:a" [("p", ("java.util.List<net.B>", IVector "java.util.List<net.B>" "f:l" []))].
Definition two_ints : item := IObject "net.A" "f:a" [("i", ("int", IPrim (OfInt 1))); ("p", ("int", IPrimPtr CInt None))].

Definition wfield (n t : string) (rs : list string) (m : bool) : wire_field :=
  {| w_name := n; w_type := t; w_requires := rs; w_default := Some ""; w_label := Some ""; w_mandatory := m; w_multiple := false |}.
Definition wclass (n fp : string) (fs : list wire_field) : wire_type :=
  WClass {| wc_name := n; wc_label := Some ""; wc_provides := []; wc_fingerprint := fp; wc_fields := fs |}.
Definition wlist (n fp : string) : wire_type :=
  WContainer {| wr_name := n; wr_label := Some ""; wr_provides := []; wr_source := "list"; wr_fingerprint := fp; wr_choices := [] |}.

Theorem order_wrong : exists root ts c w,
  well_formed root /\ is_target root = true /\ no_clash root /\
  serialise_blob root new_writer = Ok (decoded (envelope_tree (wire root) [ts] [leaf ANull])) w /\ In (WClass c) ts /\
  map w_name (wc_fields c) = ["a"; "b"] /\ map w_type (wc_fields c) = ["string"; "int"] /\
  wire root = payload_tree (wc_fingerprint c) [list_of [leaf (AInt 1); str "x"]].
Proof.
  exists out_of_order. eexists [wclass "net.A" "f:a" [wfield "a" "string" [] false; wfield "b" "int" [] false]], _, _.
  split; [cbn; intuition discriminate|]. split; [reflexivity|]. split; [intros k s [H|[]] [H'|[]]; congruence|].
  split; [vm_compute; reflexivity|]. split; [now left|]. repeat split.
Qed.

Theorem null_pointer_dangles : exists root ts w,
  well_formed root /\ is_target root = true /\ no_clash root /\
  serialise_blob root new_writer = Ok (decoded (envelope_tree (wire root) [ts] [leaf ANull])) w /\ ~ self_contained ts.
Proof.
  exists null_pointer. eexists [wclass "net.A" "f:a" [wfield "p" "net.B" [] false]], _.
  split; [cbn; intuition discriminate|]. split; [reflexivity|]. split; [intros k s [H|[]] [H'|[]]; congruence|].
  split; [vm_compute; reflexivity|]. intros [H _].
  destruct (H _ _ (or_introl eq_refl) (or_introl eq_refl)) as [[E|[E|E]] _]; [discriminate| |];
    cbn in E; repeat (destruct E as [E|E]; [discriminate|]); destruct E.
Qed.
Theorem empty_vector_dangles : exists root ts w,
  well_formed root /\ is_target root = true /\ no_clash root /\
  serialise_blob root new_writer = Ok (decoded (envelope_tree (wire root) [ts] [leaf ANull])) w /\ ~ self_contained ts.
Proof.
  exists empty_vector. eexists [wlist "java.util.List<net.B>" "f:l"; wclass "net.A" "f:a" [wfield "p" "*" ["java.util.List<net.B>"] false]], _.
  split; [cbn; intuition discriminate|]. split; [reflexivity|].
  split. { intros k s H1 H2; cbn in H1, H2; repeat match goal with H : _ \/ _ |- _ => destruct H end; try contradiction; congruence. }
  split; [vm_compute; reflexivity|]. intros (_ & H & _).
  destruct (H _ "net.B" (or_introl eq_refl) eq_refl) as [E|E];
    cbn in E; repeat (destruct E as [E|E]; [discriminate|]); destruct E.
Qed.
Theorem flags_wrong : exists root ts c w,
  well_formed root /\ is_target root = true /\ no_clash root /\
  serialise_blob root new_writer = Ok (decoded (envelope_tree (wire root) [ts] [leaf ANull])) w /\ In (WClass c) ts /\
  root = IObject (wc_name c) (wc_fingerprint c) [("i", ("int", IPrim (OfInt 1))); ("p", ("int", IPrimPtr CInt None))] /\
  map (fun f => (w_name f, w_mandatory f)) (wc_fields c) = [("i", false); ("p", true)].
Proof.
  exists two_ints. eexists [wclass "net.A" "f:a" [wfield "i" "int" [] false; wfield "p" "int" [] true]], _, _.
  split; [cbn; intuition discriminate|]. split; [reflexivity|]. split; [intros k s [H|[]] [H'|[]]; congruence|].
  split; [vm_compute; reflexivity|]. split; [now left|]. split; reflexivity.
Qed.
