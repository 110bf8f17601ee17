(** Proofs for inspecting what was serialised. *)
From Coq Require Import Lia Sorting.Sorted Permutation.
From Verif Require Import Base Proton ProtonProofs TypeNames SpecTypes TypeNamesProofs MakePrimProofs SpecOrdering Schema SpecSchema SchemaProofs SpecDescriptors DescriptorsProofs
  Factory SpecFactory FactoryProofs Readers SpecReaders Blob ReadersProofs InspectProofs Writer SpecWriter WriterProofs SpecWriteRead.
Import List ListNotations.
Open Scope string_scope.

Lemma fold_and' {A} (f : A -> Prop) l : fold_right (fun a P => f a /\ P) True l <-> Forall f l.
Proof.
  induction l as [|a l IH]; cbn; split; auto.
  - intros [H1 H2]. constructor; tauto.
  - intros H. inversion H; subst. tauto.
Qed.

(** ** Names *)
Lemma looks_like_refl b : looks_like b b.
Proof. induction b; cbn; auto. Qed.
Lemma append_empty s : s ++ "" = s.
Proof. induction s; cbn; congruence. Qed.
Lemma unrelated_unboxed n : unrelated n -> unboxed_name n = n.
Proof.
  intros [H _]. unfold unboxed_name. destruct (find (fun p => String.eqb (fst p) n) boxed_table) as [[b u]|] eqn:E; [|reflexivity].
  apply find_some in E as [E1 E2]. apply String.eqb_eq in E2. cbn in E2. subst b. exfalso.
  apply (H n "" n ""); [apply (in_map fst _ _ E1)| |apply looks_like_refl]. cbn. now rewrite append_empty.
Qed.
Lemma simple_unboxed e : simple_names e -> unboxed_exp e = e.
Proof.
  unfold simple_names, unboxed_exp. induction e as [n|e IH|k IHk v IHv]; cbn; intros H.
  - inversion H as [|? ? [_ Hn] _]; subst. now rewrite unrelated_unboxed.
  - now rewrite IH.
  - apply Forall_app in H as [H1 H2]. now rewrite IHk, IHv.
Qed.
Lemma simple_plain e : simple_names e -> wf_names e.
Proof. intros H. eapply Forall_impl; [|exact H]. simpl. tauto. Qed.
Lemma simple_readable e : simple_names e -> readable e.
Proof. intros H. eapply Forall_impl; [|exact H]. simpl. tauto. Qed.
Lemma readable_wf e : readable e -> wf_names e.
Proof. intros H. eapply Forall_impl; [|exact H]. simpl. tauto. Qed.

Lemma map_parts g k v k0 v0 : blanks g -> wf_names k -> wf_names v -> wf_names k0 -> wf_names v0 ->
  print g (TMapOf k v) = print "" (TMapOf k0 v0) -> print g k = print "" k0 /\ print g v = print "" v0 /\ g = "".
Proof.
  intros Hg Hk Hv Hk0 Hv0 E. cbn [print] in E.
  assert (E' : print g k ++ "," ++ (g ++ print g v ++ ">") = print "" k0 ++ "," ++ (print "" v0 ++ ">")) by (cbn in E |- *; congruence).
  apply bracketed_split in E' as [E1 E2]; [|apply print_bracketed; auto; constructor|apply print_bracketed; auto; constructor].
  split; [exact E1|]. rewrite <- app_assoc_s in E2. apply append_inv_r in E2. destruct g as [|x g]; [auto|].
  inversion Hg; subst. exfalso. apply (print_no_blank "" v0 Hv0). rewrite <- E2. eexists. cbn. reflexivity.
Qed.
Lemma list_parts g e e0 : print g (TListOf e) = print "" (TListOf e0) -> print g e = print "" e0.
Proof. intros E. cbn in E. apply (append_inv_r _ _ ">"). congruence. Qed.
Lemma print_injective g e e0 : blanks g -> wf_names e -> wf_names e0 -> print g e = print "" e0 -> e = e0.
Proof.
  intros Hg. revert e0. induction e as [n|e IH|k IHk v IHv]; intros [n0|e0|k0 v0] H H0 E.
  - cbn in E. congruence.
  - exfalso. inversion H as [|? ? (_ & _ & _ & _ & Hn & _) _]; subst. apply Hn. cbn in E. rewrite E. eexists (String "<" _). reflexivity.
  - exfalso. inversion H as [|? ? (_ & _ & _ & _ & _ & Hn) _]; subst. apply Hn. cbn in E. rewrite E. eexists (String "<" _). reflexivity.
  - exfalso. inversion H0 as [|? ? (_ & _ & _ & _ & Hn & _) _]; subst. apply Hn. cbn in E. rewrite <- E. eexists (String "<" _). reflexivity.
  - f_equal. apply IH; auto. now apply list_parts.
  - discriminate.
  - exfalso. inversion H0 as [|? ? (_ & _ & _ & _ & _ & Hn) _]; subst. apply Hn. cbn in E. rewrite <- E. eexists (String "<" _). reflexivity.
  - discriminate.
  - apply Forall_app in H as [Ha Hb]. apply Forall_app in H0 as [Hc Hd]. apply map_parts in E as (E1 & E2 & _); auto.
    f_equal; auto.
Qed.

(** ** What is on the wire *)
Lemma shown_wire classes i : inspectable classes i -> encode (shown i) = wire i.
Proof.
  induction i using item_induction; cbn [inspectable shown wire]; intros HI.
  - destruct v; try discriminate; reflexivity.
  - destruct v as [v|]; [|destruct HI]. destruct v; try discriminate; reflexivity.
  - destruct HI as (_ & _ & HI). apply fold_and' in HI. cbn [encode]. f_equal. f_equal. f_equal. rewrite map_map. apply map_ext_in.
    intros p Hp. cbn [snd]. rewrite Forall_forall in *. apply H; auto. now apply HI.
  - destruct HI as (e & _ & _ & HI). apply fold_and' in HI. cbn [encode]. f_equal. f_equal. f_equal. rewrite map_map. apply map_ext_in.
    intros v Hv. rewrite Forall_forall in *. apply H; auto. now apply HI.
  - destruct HI as (k & v & _ & _ & _ & HI). apply fold_and' in HI. cbn [encode]. f_equal. f_equal. f_equal.
    induction kvs as [|kv kvs IH]; [reflexivity|]. inversion H; subst. inversion HI; subst. cbn. destruct H2 as [A B].
    rewrite A, B by tauto. f_equal. f_equal. now apply IH.
  - reflexivity.
  - auto.
Qed.

(** ** Parts of an object *)
Definition container_named (s n : string) : Prop :=
  (s = "list" /\ exists e, n = print "" (TListOf e) /\ simple_names e) \/
  (s = "map" /\ exists k v, n = print "" (TMapOf k v) /\ simple_names k /\ simple_names v).
Definition occurrence_ok (o : key * kind) : Prop :=
  match snd o with Class => class_name (fst (fst o)) | Container s => container_named s (fst (fst o)) end.
Lemma occurrences_ok classes i : inspectable classes i -> Forall occurrence_ok (occurrences i).
Proof.
  assert (Flat : forall A (f : A -> list (key * kind)) l, (forall a, In a l -> Forall occurrence_ok (f a)) -> Forall occurrence_ok (flat_map f l)).
  { intros A f l. induction l as [|a l IH]; cbn; [constructor|]. intros H. apply Forall_app. auto. }
  induction i using item_induction; cbn [inspectable occurrences]; intros HI; try (now constructor).
  - destruct HI as (Hn & _ & HI). apply fold_and' in HI. constructor; [exact Hn|]. apply Flat. rewrite Forall_forall in *. intros p Hp.
    apply H; auto. now apply HI.
  - destruct HI as (e & Hn & He & HI). apply fold_and' in HI. constructor; [left; eauto|]. apply Flat. rewrite Forall_forall in *. intros p Hp.
    apply H; auto. now apply HI.
  - destruct HI as (k & v & Hn & Hk & Hv & HI). apply fold_and' in HI. constructor; [right; eauto 6|]. apply Flat.
    rewrite Forall_forall in *. intros p Hp. destruct (H p Hp) as [A B]. destruct (HI p Hp) as [[_ C] [_ D]]. apply Forall_app. auto.
  - auto.
Qed.
Lemma properties_ok classes k i : inspectable classes i ->
  Forall (fun p => declared_as classes (fst (snd p)) (snd (snd p)) /\ inspectable classes (snd (snd p))) (properties_of k i).
Proof.
  set (Q := fun p : string * (string * item) => _).
  assert (Flat : forall A (f : A -> list (string * (string * item))) l, (forall a, In a l -> Forall Q (f a)) -> Forall Q (flat_map f l)).
  { intros A f l. induction l as [|a l IH]; cbn; [constructor|]. intros H. apply Forall_app. auto. }
  induction i using item_induction; cbn [inspectable properties_of]; intros HI; try (now constructor).
  - destruct HI as (Hn & _ & HI). apply fold_and' in HI. apply Flat. rewrite Forall_forall in *. intros p Hp.
    apply Forall_app. split; [|apply H; auto; now apply HI]. destruct (key_eqb k (n, fp)); [|constructor]. constructor; [|constructor].
    now apply HI.
  - destruct HI as (e & Hn & He & HI). apply fold_and' in HI. apply Flat. rewrite Forall_forall in *. intros p Hp.
    apply H; auto. now apply HI.
  - destruct HI as (kk & v & Hn & Hk & Hv & HI). apply fold_and' in HI. apply Flat.
    rewrite Forall_forall in *. intros p Hp. destruct (H p Hp) as [A B]. destruct (HI p Hp) as [[_ C] [_ D]]. apply Forall_app. auto.
  - auto.
Qed.

(** ** Names of containers *)
Lemma container_name_facts s n : container_named s n ->
  isArray n = Ret false /\ isContainer n = Ret true /\ n <> "*" /\ exists parts, nestedGenericTypes n = Ret parts.
Proof.
  intros H.
  assert (HA : isArray n = Ret false).
  { destruct H as [(_ & e & -> & He)|(_ & k & v & -> & Hk & Hv)]; cbn [print].
    - pose proof (not_array ("java.util.List<" ++ print "" e)) as Ha. now rewrite app_assoc_s in Ha.
    - pose proof (not_array ("java.util.Map<" ++ print "" k ++ "," ++ "" ++ print "" v)) as Ha. now rewrite !app_assoc_s in Ha. }
  split; [exact HA|]. split; [|split].
  - unfold isContainer. rewrite HA. cbn [rbind].
    destruct H as [(_ & e & -> & He)|(_ & k & v & -> & Hk & Hv)]; cbn [print].
    + reflexivity.
    + reflexivity.
  - destruct H as [(_ & e & -> & He)|(_ & k & v & -> & Hk & Hv)]; discriminate.
  - destruct H as [(_ & e & -> & He)|(_ & k & v & -> & Hk & Hv)]; rewrite nestedGenericTypes_spec; eauto; try constructor.
    + now apply simple_plain.
    + apply Forall_app. split; now apply simple_plain.
Qed.

(** ** The schema *)
Lemma own_name_ok classes v n : inspectable classes v -> own_name v = Some n ->
  isArray n = Ret false /\ n <> "*".
Proof.
  intros HI En.
  destruct v as [| |m fp ps|m fp es|m fp kvs|[[| |m fp ps|m fp es|m fp kvs|]|]]; try discriminate; cbn in En; injection En as ->;
    apply occurrences_ok in HI; cbn [occurrences] in HI; inversion HI as [|? ? H _]; subst.
  all: (destruct H as (H1 & H2 & H3); now split) || (apply container_name_facts in H as (H1 & _ & H2 & _); now split).
Qed.
Lemma field_acceptable classes n ty v : (forall c, In c classes -> class_name c) ->
  declared_as classes ty v -> inspectable classes v ->
  acceptable (property_field n ty v) /\
  (w_type (property_field n ty v) = "*" -> w_requires (property_field n ty v) <> []).
Proof.
  intros HC HD HI. pose proof (own_name_ok classes v ty HI) as HO. rewrite acceptable_iff.
  destruct v as [p|t p|m fp ps|m fp es|m fp kvs|o].
  - split; [|cbn; destruct (type_of p); discriminate]. left. cbn. destruct p; reflexivity || discriminate.
  - cbn in HI. split; [|cbn; destruct t; discriminate]. destruct p as [p|]; [|destruct HI].
    cbn -[isArray]. destruct t; (left; reflexivity) || (right; left; split; [vm_compute; reflexivity|discriminate]).
  - destruct (HO HD) as [H1 H2]. split; [right; left; auto|]. cbn. intros; contradiction.
  - cbn in HD. injection HD as <-. apply occurrences_ok in HI. inversion HI as [|? ? H _]; subst.
    apply container_name_facts in H as (_ & H1 & _ & H2). split; [|discriminate].
    right; right; right; left. split; [reflexivity|]. split; [do 2 eexists; split; [reflexivity|exact H1]|]. constructor; auto.
  - cbn in HD. injection HD as <-. apply occurrences_ok in HI. inversion HI as [|? ? H _]; subst.
    apply container_name_facts in H as (_ & H1 & _ & H2). split; [|discriminate].
    right; right; right; left. split; [reflexivity|]. split; [do 2 eexists; split; [reflexivity|exact H1]|]. constructor; auto.
  - assert (K : isArray ty = Ret false /\ ty <> "*").
    { destruct o as [o|]; [apply HO, HD|]. destruct (HC _ HD) as (? & _ & ?). auto. }
    destruct K as [H1 H2]. split; [right; left; auto|]. cbn. intros; contradiction.
Qed.

(** A property that can be read. *)
Definition property_ok (p : string * (string * item)) : Prop :=
  let f := property_field (fst p) (fst (snd p)) (snd (snd p)) in
  acceptable f /\ (w_type f = "*" -> w_requires f <> []).

(** The same for any object whose names are in order. *)
Section Entries.
Context (root : item) (ws : list wire_type).
Hypothesis (HO : Forall occurrence_ok (occurrences root)) (HN : no_clash root)
  (HF : one_fingerprint_each root) (HS : schema_for root ws).

Lemma entries_occurs_ok o : In o (occurrences root) -> occurrence_ok o.
Proof. pose proof HO as H. rewrite Forall_forall in H. apply H. Qed.
Lemma class_names_in c : In c (class_names root) <-> exists fp, In ((c, fp), Class) (occurrences root).
Proof.
  unfold class_names. rewrite in_map_iff. split.
  - intros ([[n fp] k] & <- & H). apply filter_In in H as [H E]. destruct k; [|discriminate]. eauto.
  - intros (fp & H). exists ((c, fp), Class). split; [reflexivity|]. apply filter_In. auto.
Qed.
Lemma entries_class_names_ok c : In c (class_names root) -> class_name c.
Proof. intros H. apply class_names_in in H as (fp & H). apply (entries_occurs_ok _ H). Qed.

Lemma entries_schema_readable :
  (forall k p, In p (properties_of k root) -> property_ok p) -> Forall readable_type ws.
Proof.
  intros HPr. destruct HS as (_ & _ & HD). eapply Forall_impl; [|exact HD]. intros [c|r] H; cbn in H |- *.
  - destruct H as (H1 & _ & _ & _ & H2). split; [|apply (entries_occurs_ok _ H1)]. apply Forall_forall. intros f Hf.
    apply H2 in Hf. apply find_some in Hf as [Hf _]. rewrite fields_properties in Hf. apply in_map_iff in Hf as (p & <- & Hp).
    exact (HPr _ _ Hp).
  - destruct H as (H1 & _ & _ & H2). left. destruct (entries_occurs_ok _ H1) as [(E & e & En & He)|(E & k & v & En & Hk & Hv)]; cbn in E, En.
    + exists "", (TListOf e). repeat split; auto; [constructor|now apply simple_readable|discriminate].
    + exists "", (TMapOf k v). repeat split; auto; [constructor|apply Forall_app; split; now apply simple_readable|discriminate].
Qed.

(** An entry and what is read from it. *)
Lemma class_entry c t : type_means (WClass c) t -> exists x, t = TComposite x /\ c_name x = wc_name c /\ c_descriptor x = wc_fingerprint c /\ Forall2 field_means (wc_fields c) (c_fields x).
Proof. destruct t as [x|x]; [|intros []]. intros (H1 & _ & _ & H2 & H3). eauto 6. Qed.
Lemma entries_container_entry r t : In (WContainer r) ws -> type_means (WContainer r) t -> exists x, t = TRestricted x /\
  r_name x = wr_name r /\ r_descriptor x = wr_fingerprint r /\ ((exists e, wr_source r = "list" /\ wr_name r = print "" (TListOf e) /\ simple_names e /\ r_kind x = list_t /\ r_of x = [print "" e]) \/
   (exists k v, wr_source r = "map" /\ wr_name r = print "" (TMapOf k v) /\ simple_names k /\ simple_names v /\ r_kind x = map_t /\ r_of x = [print "" k; print "" v])).
Proof.
  intros Hr Hm. destruct HS as (_ & _ & HD). rewrite Forall_forall in HD. destruct (HD _ Hr) as (Ho & _ & _ & HC).
  pose proof (entries_occurs_ok _ Ho) as Hok. cbn in Hok. destruct t as [x|x]; [destruct Hm|]. exists x. split; [reflexivity|].
  destruct Hm as [(g & e & Hg & He & En & Hx)|[[N _]|(e & [_ Ha] & _)]].
  - apply readable_wf in He. destruct Hx as (A1 & _ & _ & A2 & _ & A3).
    destruct Hok as [(Es & e0 & En0 & H0)|(Es & k0 & v0 & En0 & Hk0 & Hv0)]; rewrite En0 in En; symmetry in En.
    + assert (e = TListOf e0) by (eapply print_injective; eauto using simple_plain). subst e.
      rewrite (simple_unboxed (TListOf e0)) in A1 by assumption. rewrite simple_unboxed in A3 by assumption.
      rewrite (list_parts _ _ _ En) in A3. destruct A3 as [A3 A4]. split; [congruence|]. split; [assumption|]. left. eauto 9.
    + assert (Hp : wf_names (TMapOf k0 v0)) by (apply Forall_app; split; now apply simple_plain).
      assert (e = TMapOf k0 v0) by (eapply print_injective; eauto). subst e.
      rewrite (simple_unboxed (TMapOf k0 v0)) in A1 by (apply Forall_app; now split).
      rewrite !simple_unboxed in A3 by assumption. destruct A3 as [A3 A4].
      destruct (map_parts g k0 v0 k0 v0) as (E1 & E2 & _); auto using simple_plain. rewrite E1, E2 in A4.
      split; [congruence|]. split; [assumption|]. right. eauto 12.
  - contradiction.
  - exfalso. destruct Hok as [(Es & e0 & En0 & H0)|(Es & k0 & v0 & En0 & Hk0 & Hv0)]; rewrite En0 in Ha.
    + rewrite readable_makePrim in Ha by (constructor || now apply simple_readable).
      rewrite (simple_unboxed (TListOf e0)) in Ha by assumption. cbn [print] in Ha. rewrite <- app_assoc_s in Ha.
      destruct Ha as [Ha|Ha].
      * change (e ++ "[]") with (e ++ "[" ++ "]") in Ha. rewrite <- (app_assoc_s e) in Ha. apply last_of in Ha. discriminate.
      * change (e ++ "[p]") with (e ++ "[p" ++ "]") in Ha. rewrite <- (app_assoc_s e) in Ha. apply last_of in Ha. discriminate.
    + rewrite readable_makePrim in Ha by (constructor || (apply Forall_app; split; now apply simple_readable)).
      rewrite (simple_unboxed (TMapOf k0 v0)) in Ha by (apply Forall_app; now split). cbn [print] in Ha.
      rewrite <- !app_assoc_s in Ha.
      destruct Ha as [Ha|Ha].
      * change (e ++ "[]") with (e ++ "[" ++ "]") in Ha. rewrite <- (app_assoc_s e) in Ha. apply last_of in Ha. discriminate.
      * change (e ++ "[p]") with (e ++ "[p" ++ "]") in Ha. rewrite <- (app_assoc_s e) in Ha. apply last_of in Ha. discriminate.
Qed.

Context (ts : list notation).
Hypothesis (HM : Forall2 type_means ws ts).

Definition notation_key (t : notation) : key := (n_name t, n_descriptor t).
Lemma entries_means_key w t : In w ws -> type_means w t -> notation_key t = type_key w.
Proof.
  intros Hw Hm. destruct w as [c|r].
  - apply class_entry in Hm as (x & -> & H1 & H2 & _). unfold notation_key. cbn. congruence.
  - apply entries_container_entry in Hm as (x & -> & H1 & H2 & _); auto. unfold notation_key. cbn. congruence.
Qed.
Lemma entries_keys_same : map notation_key ts = map type_key ws.
Proof.
  assert (H : forall w t, In w ws -> type_means w t -> notation_key t = type_key w) by exact entries_means_key. clear - HM H.
  revert H. induction HM as [|w t ws' ts' Hwt F IH]; intros H; cbn; [reflexivity|]. f_equal; [apply H; auto; now left|].
  apply IH; [exact F|]. intros. apply H; auto. now right.
Qed.
Lemma entries_keys_nodup : NoDup (map notation_key ts).
Proof.
  rewrite entries_keys_same. destruct HS as (H & _). clear - H.
  induction H as [|a l _ IH H]; constructor; auto. intros Hin. rewrite Forall_forall in H. exact (key_before_irrefl _ (H _ Hin)).
Qed.
Lemma entries_key_unique t u : In t ts -> In u ts -> notation_key t = notation_key u -> t = u.
Proof.
  pose proof entries_keys_nodup as H. clear - H. revert H. generalize notation_key. intros f. induction ts as [|x l IH]; intros H Ht Hu E; [destruct Ht|].
  cbn in H. apply NoDup_cons_iff in H as [N1 N2].
  destruct Ht as [-> |Ht], Hu as [-> |Hu]; auto; destruct N1; [rewrite E|rewrite <- E]; now apply in_map.
Qed.
Lemma entries_entry_occurs t : In t ts -> In (notation_key t) (map fst (occurrences root)).
Proof.
  intros Ht. destruct HS as (_ & H & _). apply H. rewrite <- entries_keys_same. now apply in_map.
Qed.
Lemma entries_name_unique t u : In t ts -> In u ts -> n_name t = n_name u -> t = u.
Proof.
  intros Ht Hu E. apply entries_key_unique; auto. pose proof (entries_entry_occurs t Ht) as A. pose proof (entries_entry_occurs u Hu) as B.
  apply (HF _ _ A B) in E as E'. unfold notation_key in *. cbn in E'. congruence.
Qed.
Lemma entries_fingerprint_unique : distinct_fingerprints ts.
Proof.
  intros t u Ht Hu E. apply entries_key_unique; auto. pose proof (entries_entry_occurs t Ht) as A. pose proof (entries_entry_occurs u Hu) as B.
  assert (E' : n_name t = n_name u) by (apply (HF _ _ A B); exact E). unfold notation_key in *. congruence.
Qed.
Lemma entries_names_not_primitive t : In t ts -> typeIsPrimitive (n_name t) = false.
Proof.
  intros Ht. apply entries_entry_occurs in Ht. apply in_map_iff in Ht as ([k x] & E & Ho). cbn in E. subst k. apply entries_occurs_ok in Ho.
  unfold occurrence_ok in Ho. cbn in Ho. destruct x as [|s]; [apply Ho|].
  apply container_name_facts in Ho as (_ & H & _). now apply container_not_primitive.
Qed.

Lemma Forall2_find {A B} (R : A -> B -> Prop) l l' a : Forall2 R l l' -> In a l -> exists b, In b l' /\ R a b.
Proof. induction 1 as [|x y l l' Hxy _ IH]; intros H; [destruct H|]. destruct H as [<- |H]; [exists y; split; [now left|auto]|]. destruct (IH H) as (b & H1 & H2). exists b. split; [now right|auto]. Qed.

Lemma entries_find_class n fp : In ((n, fp), Class) (occurrences root) ->
  exists c x, In (WClass c) ws /\ In (TComposite x) ts /\ wc_name c = n /\ wc_fingerprint c = fp /\
    c_name x = n /\ c_descriptor x = fp /\ Forall2 field_means (wc_fields c) (c_fields x).
Proof.
  intros Ho. destruct HS as (_ & HK & HD). rewrite Forall_forall in HD.
  assert (Hk : In (n, fp) (map type_key ws)) by (apply HK; apply (in_map fst _ _ Ho)).
  apply in_map_iff in Hk as (w & Ew & Hw). destruct w as [c|r]; cbn in Ew; injection Ew as En Ef.
  - destruct (Forall2_find _ _ _ _ HM Hw) as (t & Ht & Hm). apply class_entry in Hm as (x & -> & H1 & H2 & H3).
    exists c, x. repeat split; auto; congruence.
  - exfalso. destruct (HD _ Hw) as (Hc & _). rewrite En, Ef in Hc. exact (HN _ _ Ho Hc).
Qed.
Lemma entries_find_container n fp s : In ((n, fp), Container s) (occurrences root) ->
  exists r x, In (WContainer r) ws /\ In (TRestricted x) ts /\ wr_name r = n /\ r_name x = n /\ r_descriptor x = fp /\
  ((exists e, wr_name r = print "" (TListOf e) /\ simple_names e /\ r_kind x = list_t /\ r_of x = [print "" e]) \/
   (exists k v, wr_name r = print "" (TMapOf k v) /\ simple_names k /\ simple_names v /\ r_kind x = map_t /\ r_of x = [print "" k; print "" v])).
Proof.
  intros Ho. destruct HS as (_ & HK & HD). rewrite Forall_forall in HD.
  assert (Hk : In (n, fp) (map type_key ws)) by (apply HK; apply (in_map fst _ _ Ho)).
  apply in_map_iff in Hk as (w & Ew & Hw). destruct w as [c|r]; cbn in Ew; injection Ew as En Ef.
  - exfalso. destruct (HD _ Hw) as (Hc & _). rewrite En, Ef in Hc. exact (HN _ _ Hc Ho).
  - destruct (Forall2_find _ _ _ _ HM Hw) as (t & Ht & Hm). apply entries_container_entry in Hm as (x & -> & H1 & H2 & H3); auto.
    exists r, x. split; [auto|]. split; [auto|]. split; [auto|]. split; [congruence|]. split; [congruence|].
    destruct H3 as [(e & _ & H3)|(k & v & _ & H3)]; [left; exists e; exact H3|right; exists k, v; exact H3].
Qed.
End Entries.

Section Schema.
Context (root : item) (ws : list wire_type).
Hypothesis (HW : well_formed root) (HN : no_clash root) (HI : inspectable (class_names root) root)
  (HF : one_fingerprint_each root) (HP : same_properties root) (HS : schema_for root ws).

Lemma class_names_ok c : In c (class_names root) -> class_name c.
Proof. eapply entries_class_names_ok; eauto using occurrences_ok. Qed.
Lemma schema_readable : Forall readable_type ws.
Proof.
  eapply entries_schema_readable; eauto using occurrences_ok. intros k p Hp.
  pose proof (properties_ok _ k _ HI) as K. rewrite Forall_forall in K. destruct (K _ Hp) as [K1 K2].
  eapply field_acceptable; eauto using class_names_ok.
Qed.
Lemma container_entry r t : In (WContainer r) ws -> type_means (WContainer r) t -> exists x, t = TRestricted x /\
  r_name x = wr_name r /\ r_descriptor x = wr_fingerprint r /\ ((exists e, wr_source r = "list" /\ wr_name r = print "" (TListOf e) /\ simple_names e /\ r_kind x = list_t /\ r_of x = [print "" e]) \/
   (exists k v, wr_source r = "map" /\ wr_name r = print "" (TMapOf k v) /\ simple_names k /\ simple_names v /\ r_kind x = map_t /\ r_of x = [print "" k; print "" v])).
Proof. eapply entries_container_entry; eauto using occurrences_ok. Qed.

Context (ts : list notation).
Hypothesis (HM : Forall2 type_means ws ts).

Lemma means_key w t : In w ws -> type_means w t -> notation_key t = type_key w.
Proof. eapply entries_means_key; eauto using occurrences_ok. Qed.
Lemma keys_same : map notation_key ts = map type_key ws.
Proof. eapply entries_keys_same; eauto using occurrences_ok. Qed.
Lemma keys_nodup : NoDup (map notation_key ts).
Proof. eapply entries_keys_nodup; eauto using occurrences_ok. Qed.
Lemma key_unique t u : In t ts -> In u ts -> notation_key t = notation_key u -> t = u.
Proof. eapply entries_key_unique; eauto using occurrences_ok. Qed.
Lemma entry_occurs t : In t ts -> In (notation_key t) (map fst (occurrences root)).
Proof. eapply entries_entry_occurs; eauto using occurrences_ok. Qed.
Lemma name_unique t u : In t ts -> In u ts -> n_name t = n_name u -> t = u.
Proof. eapply entries_name_unique; eauto using occurrences_ok. Qed.
Lemma fingerprint_unique : distinct_fingerprints ts.
Proof. eapply entries_fingerprint_unique; eauto using occurrences_ok. Qed.
Lemma names_not_primitive t : In t ts -> typeIsPrimitive (n_name t) = false.
Proof. eapply entries_names_not_primitive; eauto using occurrences_ok. Qed.
Lemma find_class n fp : In ((n, fp), Class) (occurrences root) ->
  exists c x, In (WClass c) ws /\ In (TComposite x) ts /\ wc_name c = n /\ wc_fingerprint c = fp /\
    c_name x = n /\ c_descriptor x = fp /\ Forall2 field_means (wc_fields c) (c_fields x).
Proof. eapply entries_find_class; eauto using occurrences_ok. Qed.
Lemma find_container n fp s : In ((n, fp), Container s) (occurrences root) ->
  exists r x, In (WContainer r) ws /\ In (TRestricted x) ts /\ wr_name r = n /\ r_name x = n /\ r_descriptor x = fp /\
  ((exists e, wr_name r = print "" (TListOf e) /\ simple_names e /\ r_kind x = list_t /\ r_of x = [print "" e]) \/
   (exists k v, wr_name r = print "" (TMapOf k v) /\ simple_names k /\ simple_names v /\ r_kind x = map_t /\ r_of x = [print "" k; print "" v])).
Proof. eapply entries_find_container; eauto using occurrences_ok. Qed.

Lemma prim_conforms v : has_reader (type_of v) = true -> conforms ts (m_type (type_of v)) (prim_shown v).
Proof. destruct v; try discriminate; intros _; constructor. Qed.

Lemma flat_incl {A B} (f : A -> list B) l a : In a l -> incl (f a) (flat_map f l).
Proof. intros Ha b Hb. apply in_flat_map. eauto. Qed.

(** The fields of a class as read. *)
Lemma field_type fd ty v classes n : declared_as classes ty v -> inspectable classes v ->
  (forall c, In c classes -> class_name c) -> field_means (property_field n ty v) fd ->
  f_name fd = n /\
  SpecSchema.property_type fd = Some (match v with IPrim p => m_type (type_of p) | IPrimPtr t _ => m_type t | _ => ty end).
Proof.
  intros HD Hi HC (E1 & E2 & E3 & _). split; [exact E1|]. unfold SpecSchema.property_type. rewrite E2.
  pose proof (own_name_ok classes v ty Hi) as HO. cbn [property_field w_type w_requires] in *.
  destruct v as [p|t p|m fp ps|m fp es|m fp kvs|o]; cbn [property_type property_requires] in *.
  - destruct p; reflexivity.
  - destruct t; reflexivity.
  - destruct (String.eqb_spec ty "*"); [|reflexivity]. exfalso. now apply HO.
  - cbn. rewrite E3. reflexivity.
  - cbn. rewrite E3. reflexivity.
  - destruct (String.eqb_spec ty "*") as [E|]; [|reflexivity]. exfalso. destruct o as [o|]; [now apply HO|].
    destruct (HC _ HD) as (_ & _ & ?). auto.
Qed.

Lemma shown_conforms i : inspectable (class_names root) i -> well_formed i -> incl (occurrences i) (occurrences root) ->
  (forall k, incl (instances k i) (instances k root)) -> forall ty, has_type i ty -> conforms ts ty (shown i).
Proof.
  induction i using item_induction; cbn [inspectable well_formed occurrences shown]; intros Hi Hw HO HJ ty Hty.
  - cbn in Hty. subst. now apply prim_conforms.
  - cbn in Hty. subst. destruct v as [v|]; [|destruct Hi]. destruct Hw as [<- _]. now apply prim_conforms.
  - cbn in Hty. injection Hty as <-. destruct Hi as (Hn & Hs & Hi). apply fold_and' in Hi. apply fold_and' in Hw.
    destruct (find_class n fp) as (c & x & Hc & Hx & <- & <- & En & Ef & Hf); [apply HO; now left|].
    assert (Efs : wc_fields c = map (fun p => property_field (fst p) (fst (snd p)) (snd (snd p))) ps).
    { set (props := map _ ps). 
      assert (Hin : In props (instances (wc_name c, wc_fingerprint c) root)).
      { apply HJ. cbn [instances]. rewrite key_eqb_refl. apply in_or_app. left. now left. }
      assert (Hnames : map w_name props = map fst ps) by (unfold props; rewrite map_map; reflexivity).
      apply (order_exact root ws c props); auto.
      - split; [|rewrite Hnames; now apply sorted_nodup]. apply Forall_forall. intros q Hq. eapply HP; eauto.
      - now rewrite Hnames. }
    rewrite <- En, <- Ef. apply conf_object; [exact Hx|]. rewrite Efs in Hf.
    assert (HO' : forall p, In p ps -> incl (occurrences (snd (snd p))) (occurrences root)).
    { intros p Hp o Ho. apply HO. right. apply in_flat_map. eauto. }
    assert (HJ' : forall p, In p ps -> forall k, incl (instances k (snd (snd p))) (instances k root)).
    { intros p Hp k o Ho. apply HJ. cbn [instances]. apply in_or_app. right. apply in_flat_map. eauto. }
    clear - H Hi Hw HO' HJ' Hf HI HM HS HN. revert HO' HJ'. revert Hf. generalize (c_fields x). induction ps as [|p ps IH]; intros fs Hf HO' HJ'.
    + inversion Hf; subst. constructor.
    + cbn [map] in Hf. inversion Hf as [|? fd ? fds Hfd Hrest]; subst. inversion H as [|? ? Ha Hb]; subst. inversion Hi as [|? ? [Hc Hd] He]; subst. inversion Hw as [|? ? Hg Hh]; subst.
      cbn [map]. constructor; [|apply IH; auto; intros q Hq; [apply HO'|apply HJ']; now right]. cbn [fst snd].
      destruct (field_type fd _ _ _ _ Hc Hd class_names_ok Hfd) as [K1 K2]. split; [now symmetry|]. eexists. split; [exact K2|].
      assert (K := Ha Hd Hg (HO' _ (or_introl eq_refl)) (HJ' _ (or_introl eq_refl))).
      destruct (snd (snd p)) as [q|t q|m mp qs|m mp es|m mp kvs|[o|]]; cbn [declared_as] in Hc.
      * apply K. reflexivity.
      * apply K. reflexivity.
      * apply K. exact Hc.
      * apply K. exact Hc.
      * apply K. exact Hc.
      * apply K. exact Hc.
      * apply class_names_in in Hc as (fp' & Hc). destruct (find_class _ _ Hc) as (c' & x' & _ & Hx' & _ & _ & E & _). rewrite <- E. cbn [shown]. now constructor.
  - cbn in Hty. injection Hty as <-. destruct Hi as (e & Hn & He & Hi). apply fold_and' in Hi. apply fold_and' in Hw.
    destruct (find_container n fp "list") as (r & x & Hr & Hx & Er & En & Ef & Hk); [apply HO; now left|].
    destruct Hk as [(e' & En' & He' & K1 & K2)|(k' & v' & En' & _)]; [|rewrite En', Hn in Er; discriminate].
    assert (e' = e) by (apply (print_injective "" e' e); [constructor|now apply simple_plain..|apply list_parts; congruence]). subst e'.
    rewrite <- En, <- Ef. eapply conf_list; eauto. rewrite Forall_map. rewrite Forall_forall in *. intros v Hv.
    destruct (Hi v Hv) as [A B]. apply H; auto; [now apply Hw| |].
    + intros o Ho. apply HO. right. apply in_flat_map. eauto.
    + intros k o Ho. apply HJ. cbn [instances]. apply in_flat_map. eauto.
  - cbn in Hty. injection Hty as <-. destruct Hi as (k & v & Hn & Hk & Hv & Hi). apply fold_and' in Hi.
    assert (Hw' : Forall (fun kv => (is_pointer (fst kv) = false /\ well_formed (fst kv)) /\ (is_pointer (snd kv) = false /\ well_formed (snd kv))) kvs).
    { clear - Hw. induction kvs; constructor; cbn in Hw; tauto. }
    destruct (find_container n fp "map") as (r & x & Hr & Hx & Er & En & Ef & Hkv); [apply HO; now left|].
    destruct Hkv as [(e' & En' & _)|(k' & v' & En' & Hk' & Hv' & K1 & K2)]; [rewrite En', Hn in Er; discriminate|].
    assert (TMapOf k' v' = TMapOf k v) as [= -> ->].
    { apply (print_injective "" (TMapOf k' v') (TMapOf k v)); [constructor|apply Forall_app; split; now apply simple_plain..|congruence]. }
    rewrite <- En, <- Ef. eapply conf_map; eauto. rewrite Forall_map. rewrite Forall_forall in *. intros kv Hkv. cbn [fst snd].
    destruct (Hi kv Hkv) as [[A1 A2] [B1 B2]]. destruct (H kv Hkv) as [C D]. destruct (Hw' kv Hkv) as [[_ W1] [_ W2]].
    split; [apply C|apply D]; auto.
    + intros o Ho. apply HO. right. apply in_flat_map. exists kv. split; [exact Hkv|]. apply in_or_app. auto.
    + intros q o Ho. apply HJ. cbn [instances]. apply in_flat_map. exists kv. split; [exact Hkv|]. apply in_or_app. auto.
    + intros o Ho. apply HO. right. apply in_flat_map. exists kv. split; [exact Hkv|]. apply in_or_app. auto.
    + intros q o Ho. apply HJ. cbn [instances]. apply in_flat_map. exists kv. split; [exact Hkv|]. apply in_or_app. auto.
  - destruct Hty.
  - destruct Hw as [Ht Hw]. apply IHi; auto. destruct i; try discriminate; exact Hty.
Qed.
End Schema.

(** ** Inspecting *)
Lemma root_typed root : is_target root = true -> exists n fp, own_name root = Some n /\ has_type root n /\
  In (n, fp) (map fst (occurrences root)) /\ fingerprint_of (shown root) = Some fp.
Proof. destruct root; try discriminate; intros _; do 2 eexists; repeat split; now left. Qed.

Lemma Forall2_find_r {A B} (R : A -> B -> Prop) l l' b : Forall2 R l l' -> In b l' -> exists a, In a l /\ R a b.
Proof. induction 1 as [|x y l l' Hxy _ IH]; intros H; [destruct H|]. destruct H as [<- |H]; [exists x; split; [now left|auto]|]. destruct (IH H) as (a & H1 & H2). exists a. split; [now right|auto]. Qed.

Section Whole.
Context (root : item) (ws : list wire_type) (ts : list notation).
Hypothesis (HC : can_inspect root) (HS : schema_for root ws) (HM : Forall2 type_means ws ts).

Lemma whole_entry : exists t, In t ts /\ conforms ts (n_name t) (shown root) /\ fingerprint_of (shown root) = Some (n_descriptor t).
Proof.
  destruct HC as (HW & HT & HN & HI & HF & HP). destruct (root_typed root HT) as (n & fp & _ & Hty & HO & Hfp).
  assert (Hk : In (n, fp) (map notation_key ts)).
  { erewrite keys_same by eauto. destruct HS as (_ & K & _). now apply K. }
  apply in_map_iff in Hk as (t & E & Ht). injection E as <- <-. exists t. split; [exact Ht|]. split; [|exact Hfp].
  eapply shown_conforms; eauto; intros ? ?; auto.
Qed.
Lemma whole_names t : In t ts -> In (n_name t) (names_in root).
Proof.
  destruct HC as (HW & HT & HN & HI & HF & HP). intros Ht. eapply entry_occurs in Ht; eauto. apply in_map_iff in Ht as ([k x] & E & Ho).
  cbn in E. subst k. apply (in_map (fun o => fst (fst o))) in Ho. exact Ho.
Qed.
Lemma whole_consistent h : unrelated_history h root -> consistent h ts.
Proof.
  destruct HC as (HW & HT & HN & HI & HF & HP). intros [H1 H2]. split.
  - intros t u Ht Hu E. apply in_app_or in Hu as [Hu|Hu].
    + exfalso. apply (H1 u Hu). rewrite E. now apply whole_names.
    + eapply name_unique; eauto.
  - intros r Hr. destruct (H2 r Hr) as [A B]. split; [exact A|]. intros t Ht E. apply B. rewrite E. now apply whole_names.
Qed.
Lemma name_entry n : In n (names_in root) -> exists t, In t ts /\ n_name t = n.
Proof.
  destruct HC as (HW & HT & HN & HI & HF & HP). intros Hn. apply in_map_iff in Hn as ([[m fp] x] & <- & Ho).
  assert (Hk : In (m, fp) (map notation_key ts)).
  { erewrite keys_same by eauto. destruct HS as (_ & K & _). apply K. apply (in_map fst) in Ho. exact Ho. }
  apply in_map_iff in Hk as (t & E & Ht). injection E as <- <-. eauto.
Qed.
Lemma whole_closed : elements_known root -> closed new_factory ts.
Proof.
  destruct HC as (HW & HT & HN & HI & HF & HP). intros [KL KM].
  assert (HK : forall k, known root k -> readable_prim k \/ byType new_factory k <> None \/ exists u, In u ts /\ n_name u = k).
  { intros k [H|H]; [left|right; right; now apply name_entry]. unfold readable_prim.
    destruct H as [<- |[<- |[<- |[<- |[<- |[]]]]]]; [exists PInt|exists PLong|exists PDouble|exists PBoolean|exists PString]; reflexivity. }
  intros t k Ht Hk.
  destruct (Forall2_find_r _ _ _ _ HM Ht) as (w & Hw & Hm).
  destruct w as [c|r].
  - apply class_entry in Hm as (x & -> & En & Ef & Hfs). cbn in Hk. destruct Hk as (fd & Hfd & Hty).
    destruct (Forall2_find_r _ _ _ _ Hfs Hfd) as (f & Hf & Hmf).
    pose proof HS as (_ & _ & HD). rewrite Forall_forall in HD. destruct (HD _ Hw) as (_ & _ & _ & _ & HF').
    apply HF' in Hf. apply find_some in Hf as [Hf _]. rewrite fields_properties in Hf. apply in_map_iff in Hf as ([n [ty v]] & <- & Hp).
    pose proof (properties_ok _ (wc_name c, wc_fingerprint c) _ HI) as K. rewrite Forall_forall in K. destruct (K _ Hp) as [K1 K2]. cbn [fst snd] in *.
    assert (Hocc : incl (occurrences v) (occurrences root)).
    { clear - Hp. revert Hp. generalize (wc_name c, wc_fingerprint c). intros key. revert n ty v. induction root using item_induction; cbn [properties_of occurrences]; intros m ty v0 Hp;
        try (now destruct Hp).
      - apply in_flat_map in Hp as (p & Hp & Hin). rewrite Forall_forall in H. intros o Ho. right. apply in_flat_map. exists p. split; [exact Hp|].
        apply in_app_or in Hin as [Hin|Hin].
        + destruct (key_eqb key (n, fp)); [|destruct Hin]. destruct Hin as [-> |[]]. exact Ho.
        + eapply H; eauto.
      - apply in_flat_map in Hp as (p & Hp & Hin). rewrite Forall_forall in H. intros o Ho. right. apply in_flat_map. exists p. split; [exact Hp|]. eapply H; eauto.
      - apply in_flat_map in Hp as (p & Hp & Hin). rewrite Forall_forall in H. destruct (H p Hp) as [A B]. intros o Ho. right. apply in_flat_map. exists p. split; [exact Hp|].
        apply in_or_app. apply in_app_or in Hin as [Hin|Hin]; [left; eapply A|right; eapply B]; eauto.
      - eauto. }
    assert (Hon : own_name v = Some ty -> In ty (names_in root)).
    { intros E. apply own_name_occurs in E. unfold occurs in E. apply in_map_iff in E as (o & <- & Ho). apply (in_map (fun o => fst (fst o))). auto. }
    destruct (field_type fd ty v _ n K1 K2 (class_names_ok root HI) Hmf) as [_ E]. rewrite Hty in E. injection E as ->.
    destruct v as [p|q p|m fp ps|m fp es|m fp kvs|[o|]].
    + apply HK. left. cbn in K2. destruct p; try discriminate; cbn; tauto.
    + apply HK. left. cbn in K2. destruct p as [p|]; [|destruct K2].
      assert (Hq : type_of p = q).
      { clear - Hp HW. revert Hp HW. generalize (wc_name c, wc_fingerprint c). intros key. revert n ty q p. induction root using item_induction; cbn [properties_of well_formed]; intros m ty q p0 Hp HW;
          try (now destruct Hp).
        - apply in_flat_map in Hp as (p & Hp & Hin). rewrite Forall_forall in H. apply fold_and' in HW. rewrite Forall_forall in HW.
          apply in_app_or in Hin as [Hin|Hin].
          + destruct (key_eqb key (n, fp)); [|destruct Hin]. destruct Hin as [-> |[]]. apply HW in Hp. apply Hp.
          + eapply H; eauto.
        - apply in_flat_map in Hp as (p & Hp & Hin). rewrite Forall_forall in H. apply fold_and' in HW. rewrite Forall_forall in HW. eapply H; eauto. now apply HW.
        - assert (Hw' : Forall (fun kv => (is_pointer (fst kv) = false /\ well_formed (fst kv)) /\ (is_pointer (snd kv) = false /\ well_formed (snd kv))) kvs).
          { clear - HW. induction kvs; constructor; cbn in HW; tauto. }
          apply in_flat_map in Hp as (p & Hp & Hin). rewrite Forall_forall in H, Hw'. destruct (H p Hp) as [A B]. destruct (Hw' p Hp) as [[_ C] [_ D]].
          apply in_app_or in Hin as [Hin|Hin]; [eapply A|eapply B]; eauto.
        - destruct HW. eauto. }
      subst q. destruct p; try discriminate; cbn; tauto.
    + apply HK. right. apply Hon, K1.
    + apply HK. right. apply Hon, K1.
    + apply HK. right. apply Hon, K1.
    + apply HK. right. apply Hon, K1.
    + apply HK. right. cbn in K1. apply class_names_in in K1 as (fp & K1). apply (in_map (fun o => fst (fst o))) in K1. exact K1.
  - eapply container_entry in Hm as (x & -> & En & Ef & Hx); eauto. apply whole_names in Ht. cbn [n_name] in Ht. cbn [named_by] in Hk.
    destruct Hx as [(e & _ & E & He & Ek & Eo)|(a & b & _ & E & Ha & Hb & Ek & Eo)]; rewrite Ek, Eo in Hk; rewrite En, E in Ht.
    + destruct Hk as [<- |[]]. apply HK. now apply KL.
    + destruct (KM a b Ha Hb Ht) as [A B]. destruct Hk as [<- |[<- |[]]]; now apply HK.
Qed.
Lemma whole_regular : Forall entry_ok ts -> (forall t, In t ts -> ~ uses t t) -> regular ts.
Proof.
  pose proof HC as (HW & HT & HN & HI & HF & HP). intros H1 H2. split; [exact H1|]. split; [|split; [|exact H2]].
  - assert (ND : NoDup (map notation_key ts)) by (eapply keys_nodup; eauto). apply NoDup_map_inv in ND.
    assert (U : forall t u, In t ts -> In u ts -> n_name t = n_name u -> t = u) by (intros; eapply name_unique; eauto).
    clear - ND U. induction ts as [|t l IH]; cbn; [constructor|]. apply NoDup_cons_iff in ND as [N1 N2]. constructor.
    + intros Hin. apply in_map_iff in Hin as (u & E & Hu). apply N1. rewrite (U t u); auto; [now left|now right].
    + apply IH; auto. intros. apply U; auto; now right.
  - intros t u Ht Hu HB.
    assert (HR : forall x, In (TRestricted x) ts -> r_kind x = list_t \/ r_kind x = map_t).
    { intros x Hx. destruct (Forall2_find_r _ _ _ _ HM Hx) as (w & Hw & Hm).
      destruct w as [c|r]; [apply class_entry in Hm as (y & [=] & _)|].
      eapply container_entry in Hm as (y & [= <-] & En & Ef & Hy); eauto.
      destruct Hy as [(e & _ & _ & _ & E & _)|(a & b & _ & _ & _ & _ & E & _)]; auto. }
    destruct HB as [(K & _)|(K1 & K2 & _)].
    + destruct t as [|x]; [exact K|]. cbn in K. destruct (HR x Ht); congruence.
    + destruct u as [|x]; [exact K2|]. cbn in K2. destruct (HR x Hu); congruence.
Qed.
End Whole.

Theorem inspect_written : forall fmt custom mo kf root h cf,
  can_inspect root -> kf = true \/ map_free (shown root) -> run mo h new_factory cf -> unrelated_history h root ->
  exists w ws, let blob := decoded (envelope_tree (wire root) [ws] [leaf ANull]) in
    serialise_blob root new_writer = Ok blob w /\ schema_for root ws /\
    forall fuel, height (envelope_tree (wire root) [ws] [leaf ANull]) < fuel ->
    exists ts s, Forall2 type_means ws ts /\ Permutation (List.concat (s_types s)) ts /\
      dumpContents fmt custom mo kf fuel (blob, cf)
      = match process mo s cf with
        | Ok _ cf' => Ok ("{ Parsed : " ++ printed fmt dec (shown root) ++ " }") (blob, cf')
        | Throw e cf' => Throw e (blob, cf')
        | Abort => Abort | UB => UB | Fuel => Fuel
        end.
Proof.
  intros fmt custom mo kf root h cf HC Hm HR HU. pose proof HC as (HW & HT & HN & HI & HF & HP).
  destruct (serialise_correct root) as (w & ws & E & HS); auto. { destruct root; try discriminate; reflexivity. }
  exists w, ws. split; [exact E|]. split; [exact HS|]. intros fuel Hfuel.
  pose proof (schema_readable root ws HI HS) as Hr.
  assert (Ec : List.concat [ws] = ws) by (cbn; apply app_nil_r).
  rewrite <- (shown_wire _ _ HI) in Hfuel |- *.
  destruct (dump_faithful fmt custom mo kf fuel [ws] (leaf ANull) (shown root) h cf) as (ts & s & H1 & H2 & H3); auto.
  { now rewrite Ec. }
  rewrite Ec in H1. exists ts, s. split; [exact H1|]. split; [exact H2|].
  destruct (whole_entry root ws ts HC HS H1) as (t & Ht & Hv & Hfp).
  apply (H3 t); auto.
  - intros u Hu. eapply names_not_primitive; eauto.
  - eapply whole_consistent; eauto.
  - eapply fingerprint_unique; eauto.
Qed.

Theorem inspect_written_ordered : forall fmt custom mo kf root h cf,
  can_inspect root -> elements_known root -> kf = true \/ map_free (shown root) ->
  run mo h new_factory cf -> unrelated_history h root -> (forall k, unpoisoned cf k) ->
  exists w ws, let blob := decoded (envelope_tree (wire root) [ws] [leaf ANull]) in
    serialise_blob root new_writer = Ok blob w /\ schema_for root ws /\
    forall fuel, height (envelope_tree (wire root) [ws] [leaf ANull]) < fuel ->
    exists ts, Forall2 type_means ws ts /\
      ((forall t, In t ts -> ~ uses t t) -> listed ts ->
       exists cf', dumpContents fmt custom mo kf fuel (blob, cf)
                   = Ok ("{ Parsed : " ++ printed fmt dec (shown root) ++ " }") (blob, cf')).
Proof.
  intros fmt custom mo kf root h cf HC HE Hm HR HU Hclean. pose proof HC as (HW & HT & HN & HI & HF & HP).
  destruct (serialise_correct root) as (w & ws & E & HS); auto. { destruct root; try discriminate; reflexivity. }
  exists w, ws. split; [exact E|]. split; [exact HS|]. intros fuel Hfuel.
  pose proof (schema_readable root ws HI HS) as Hr.
  assert (Ec : List.concat [ws] = ws) by (cbn; apply app_nil_r).
  rewrite <- (shown_wire _ _ HI) in Hfuel |- *.
  destruct (dump_faithful_ordered fmt custom mo kf fuel [ws] (leaf ANull) (shown root) h cf) as (ts & H1 & H2 & H3); auto.
  { now rewrite Ec. }
  rewrite Ec in H1. exists ts. split; [exact H1|]. intros H4 H5.
  destruct (whole_entry root ws ts HC HS H1) as (t & Ht & Hv & Hfp).
  apply (H3 t); auto.
  - eapply whole_regular; eauto.
  - intros u k Hu Hk. destruct (whole_closed root ws ts HC HS H1 HE u k Hu Hk) as [A|[A|A]]; [auto| |auto]. now elim A.
  - intros u Hu. eapply names_not_primitive; eauto.
  - eapply whole_consistent; eauto.
  - eapply fingerprint_unique; eauto.
Qed.

Theorem inspect_written_well : forall fmt custom mo kf root h cf,
  can_inspect root -> elements_known root -> kf = true \/ map_free (shown root) ->
  run_well mo h new_factory cf -> unrelated_history h root ->
  exists w ws, let blob := decoded (envelope_tree (wire root) [ws] [leaf ANull]) in
    serialise_blob root new_writer = Ok blob w /\ schema_for root ws /\
    forall fuel, height (envelope_tree (wire root) [ws] [leaf ANull]) < fuel ->
    exists ts, Forall2 type_means ws ts /\
      ((forall t, In t ts -> ~ uses t t) -> listed ts ->
       exists cf', dumpContents fmt custom mo kf fuel (blob, cf)
                   = Ok ("{ Parsed : " ++ printed fmt dec (shown root) ++ " }") (blob, cf')).
Proof.
  intros fmt custom mo kf root h cf HC HE Hm HR HU. apply successes_clean in HR as [HR Hc]. eapply inspect_written_ordered; eauto.
Qed.

(** ** Examples *)
Definition pet (n : string) : item := IObject "app.Pet" "f:pet" [("name", ("string", IPrim (OfString n)))].
Definition owner : item :=
  IObject "net.Owner" "f:owner" [
    ("age", ("int", IPrim (OfInt 40)));
    ("best", ("app.Pet", IPointer (Some (pet "Rex"))));
    ("pets", ("java.util.List<app.Pet>", IVector "java.util.List<app.Pet>" "f:pets" [pet "Rex"; pet "Tom"]));
    ("spare", ("app.Pet", IPointer None))].
(** A chain of five classes. *)
Definition chain_of_five : item :=
  IObject "net.D" "f:d" [("e", ("net.E", IObject "net.E" "f:e" [("c", ("net.C", IObject "net.C" "f:c" [
    ("b", ("net.B", IObject "net.B" "f:b" [("a", ("net.A", IObject "net.A" "f:a" []))]))]))]))].

Ltac sorted := repeat (apply SSorted_cons || apply SSorted_nil || apply Forall_cons || apply Forall_nil);
  apply scmp_lt; vm_compute; reflexivity.
Ltac simple_name := split; [apply plainb_spec; vm_compute; reflexivity|];
  apply unrelated_dec; try reflexivity; unfold has; simpl; intros c Hc;
  repeat (destruct Hc as [<-|Hc]; [split; discriminate|]); contradiction.
Ltac in_cases H := cbn in H; repeat match type of H with _ \/ _ => destruct H as [H|H] end; try contradiction.
Lemma instance_occurs k i props : In props (instances k i) -> In (k, Class) (occurrences i).
Proof.
  induction i using item_induction; cbn [occurrences instances]; intros Hin; try (now destruct Hin).
  - apply in_app_or in Hin as [Hin|Hin].
    + destruct (key_eqb k (n, fp)) eqn:E; [|destruct Hin]. left. apply key_eqb_eq in E. now subst.
    + right. apply in_flat_map in Hin as (p & Hp & Hin). apply in_flat_map. rewrite Forall_forall in H. exists p. auto.
  - right. apply in_flat_map in Hin as (p & Hp & Hin). apply in_flat_map. rewrite Forall_forall in H. exists p. auto.
  - right. apply in_flat_map in Hin as (p & Hp & Hin). apply in_flat_map. rewrite Forall_forall in H. exists p. split; [exact Hp|].
    destruct (H p Hp) as [A B]. apply in_or_app. apply in_app_or in Hin as [Hin|Hin]; auto.
  - auto.
Qed.
Lemma same_check root :
  Forall (fun o => match snd o with Class => Forall (eq (hd [] (instances (fst o) root))) (instances (fst o) root) | _ => True end) (occurrences root) ->
  same_properties root.
Proof.
  intros H k a b Ha Hb. pose proof (instance_occurs _ _ _ Ha) as Ho. rewrite Forall_forall in H. specialize (H _ Ho). cbn [fst snd] in H.
  rewrite Forall_forall in H. now rewrite <- (H a Ha), <- (H b Hb).
Qed.
Ltac same_one := cbn [snd fst];
  match goal with
  | |- True => exact I
  | |- Forall (eq (hd [] ?l)) ?l' => let x := eval vm_compute in l in change (Forall (eq (hd [] x)) x)
  end; cbn [hd]; repeat constructor.
Ltac same := apply same_check;
  match goal with |- Forall ?P ?l => let x := eval vm_compute in l in change (Forall P x) end;
  repeat (apply Forall_cons; [same_one|]); apply Forall_nil.

Lemma owner_inspectable : can_inspect owner.
Proof.
  assert (Hpet : forall cs n, inspectable cs (pet n)).
  { intros. cbn. split; [repeat split; discriminate|]. split; [sorted|]. repeat split. }
  split; [cbn; tauto|]. split; [reflexivity|]. split; [|split; [|split]].
  - intros k s H1 H2. in_cases H1; in_cases H2; congruence.
  - cbn [inspectable owner fold_right fst snd]. split; [repeat split; discriminate|]. split; [sorted|].
    repeat match goal with |- _ /\ _ => split end; try exact I; try reflexivity; try apply Hpet.
    + exists (TName "app.Pet"). split; [reflexivity|]. split.
      * constructor; [|constructor]. simple_name.
      * cbn [fold_right]. repeat match goal with |- _ /\ _ => split end; try exact I; try reflexivity; apply Hpet.
    + cbn. auto.
  - intros a b H1 H2. in_cases H1; in_cases H2; subst; cbn; split; congruence.
  - same.
Qed.
Lemma owner_known : elements_known owner.
Proof.
  split.
  - intros e He H. right. in_cases H; try discriminate.
    assert (TListOf e = TListOf (TName "app.Pet")) as [= ->]; [|vm_compute; auto 9].
    eapply (print_injective ""); [constructor|now apply simple_plain| |symmetry; exact H].
    constructor; [|constructor]. apply plainb_spec. vm_compute. reflexivity.
  - intros k v _ _ H. exfalso. in_cases H; discriminate.
Qed.
Definition ws_owner : list wire_type := [
  wclass "app.Pet" "f:pet" [wfield "name" "string" [] false];
  wlist "java.util.List<app.Pet>" "f:pets";
  wclass "net.Owner" "f:owner" [wfield "age" "int" [] false; wfield "best" "app.Pet" [] false;
    wfield "pets" "*" ["java.util.List<app.Pet>"] false; wfield "spare" "app.Pet" [] false]].
Lemma owner_blob : exists w,
  serialise_blob owner new_writer = Ok (decoded (envelope_tree (wire owner) [ws_owner] [leaf ANull])) w.
Proof. eexists. vm_compute. reflexivity. Qed.
Definition all_results (ws : list wire_type) : list notation :=
  flat_map (fun w => match type_result w with Ret t => [t] | _ => [] end) ws.
Lemma all_results_means ws : Forall readable_type ws -> Forall2 type_means ws (all_results ws).
Proof.
  intros H. destruct (type_results ws H) as (ts & H1 & H2 & _). replace (all_results ws) with ts; [exact H2|].
  clear - H1. induction H1 as [|w t ws ts E _ IH]; [reflexivity|]. unfold all_results in *. cbn [flat_map]. rewrite E. cbn. now f_equal.
Qed.
Lemma owner_listed : exists ts, Forall2 type_means ws_owner ts /\ (forall t, In t ts -> ~ uses t t) /\ listed ts.
Proof.
  exists (all_results ws_owner).
  assert (H : regular (all_results ws_owner) /\ dependencies_first uses (all_results ws_owner)) by (apply first_check; vm_compute; reflexivity).
  destruct H as [H1 H2]. split; [|split; [apply H1|now apply first_listed]].
  apply all_results_means. repeat apply Forall_cons; try apply Forall_nil.
  - split; [|reflexivity]. constructor; [|constructor]. split; [left; reflexivity|discriminate].
  - left. exists "", (TListOf (TName "app.Pet")). repeat split; try discriminate; [constructor|].
    apply simple_readable. constructor; [|constructor]. simple_name.
  - split; [|reflexivity]. repeat apply Forall_cons; try apply Forall_nil.
    + split; [left; reflexivity|discriminate].
    + split; [|discriminate]. apply acceptable_iff. right; left. split; [reflexivity|discriminate].
    + split; [|discriminate]. apply acceptable_iff. right; right; right; left. split; [reflexivity|]. split; [eexists; eexists; split; reflexivity|].
      repeat constructor. eexists. vm_compute. reflexivity.
    + split; [|discriminate]. apply acceptable_iff. right; left. split; [reflexivity|discriminate].
Qed.

Lemma chain_inspectable : can_inspect chain_of_five.
Proof.
  split; [cbn; tauto|]. split; [reflexivity|]. split; [|split; [|split]].
  - intros k s H1 H2. in_cases H1; in_cases H2; congruence.
  - cbn [inspectable chain_of_five fold_right fst snd].
    unfold class_name. repeat match goal with |- _ /\ _ => split end; try exact I; try reflexivity; try discriminate; sorted.
  - intros a b H1 H2. in_cases H1; in_cases H2; subst; cbn; split; congruence.
  - same.
Qed.
Lemma chain_known : elements_known chain_of_five.
Proof. split; [intros e _ H|intros k v _ _ H]; exfalso; in_cases H; discriminate. Qed.
Theorem chain_not_inspected : forall fmt custom mo kf, exists root w blob cf,
  can_inspect root /\ elements_known root /\ map_free (shown root) /\ filled root /\
  serialise_blob root new_writer = Ok blob w /\
  dumpContents fmt custom mo kf 20 (blob, new_factory) = Throw RuntimeError (blob, cf).
Proof.
  intros fmt custom mo kf. exists chain_of_five. do 3 eexists. split; [apply chain_inspectable|]. split; [apply chain_known|].
  split; [cbn; tauto|]. split; [cbn; tauto|]. split; [vm_compute; reflexivity|].
  destruct mo; vm_compute; reflexivity.
Qed.

Lemma outer_inspectable : can_inspect outer.
Proof.
  assert (Hin : forall cs n, inspectable cs (inner n)).
  { intros. cbn. split; [repeat split; discriminate|]. split; [sorted|]. repeat split. }
  split; [apply outer_ok|]. split; [reflexivity|]. split; [apply outer_ok|]. split; [|split].
  - cbn [inspectable outer fold_right fst snd]. split; [repeat split; discriminate|]. split; [sorted|].
    repeat match goal with |- _ /\ _ => split end; try exact I; try reflexivity; try apply Hin.
    + exists (TName "net.In"). split; [reflexivity|]. split.
      * constructor; [|constructor]. simple_name.
      * cbn [fold_right]. repeat match goal with |- _ /\ _ => split end; try exact I; try reflexivity; apply Hin.
    + exists (TName "int"), (TName "net.In"). split; [reflexivity|]. split; [|split].
      * constructor; [|constructor]. simple_name.
      * constructor; [|constructor]. simple_name.
      * cbn [fold_right]. repeat match goal with |- _ /\ _ => split end; try exact I; try reflexivity; apply Hin.
  - intros a b H1 H2. in_cases H1; in_cases H2; subst; cbn; split; congruence.
  - same.
Qed.
