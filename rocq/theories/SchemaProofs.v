From Coq Require Import Lia Permutation.
From Verif Require Import Base TypeNames TypeNamesProofs SpecNames NamesProofs Ordering SpecOrdering OrderingProofs Schema SpecSchema.
Import List ListNotations.
Open Scope string_scope.

(** ** Fields *)

Lemma nestedGenericTypes_head s l : nestedGenericTypes s = Ret l -> In s l.
Proof.
  unfold nestedGenericTypes. cbn [nested].
  destruct (isList s).
  - destruct (listType s) as [[a b]| | | |]; try discriminate. cbn.
    destruct (nested _ b); try discriminate. cbn. intros [= <-]. simpl; auto.
  - destruct (isMap s).
    + destruct (mapType s) as [[[a b] c]| | | |]; try discriminate. cbn.
      destruct (nested _ b); try discriminate. cbn.
      destruct (nested _ c); try discriminate. cbn. intros [= <-]. simpl; auto.
    + intros [= <-]. simpl; auto.
Qed.

Lemma subTypes_of_spec : forall rs l, subTypes_of rs = Ret l ->
  forall n, In n l <-> exists r parts, In r rs /\ nestedGenericTypes r = Ret parts /\ In n parts.
Proof.
  induction rs as [|r rs IH]; intros l E n; cbn [subTypes_of] in E.
  - injection E as <-. split; [intros []|intros (r & p & [] & _)].
  - destruct (nestedGenericTypes r) as [a| | | |] eqn:Ea; try discriminate. cbn [rbind] in E.
    destruct (subTypes_of rs) as [b| | | |]; try discriminate. cbn [rbind] in E. injection E as E. subst l.
    rewrite in_app_iff, (IH b eq_refl n). split.
    + intros [H|(r' & p & H1 & H2 & H3)]; [exists r, a|exists r', p]; simpl; auto.
    + intros (r' & p & [<-|H1] & H2 & H3).
      * left. rewrite Ea in H2. injection H2 as <-. exact H3.
      * right. eauto.
Qed.

(** What Field::make can return. *)
Lemma field_made_cases f : field_made f ->
  (f_kind f = PrimitiveField /\ f_type f <> "*" /\ isArray (f_type f) <> Ret true) \/
  (f_kind f = ArrayField /\ f_type f <> "*" /\ isArray (f_type f) = Ret true /\
     subTypes_of (f_requires f) = Ret (f_subTypes f)) \/
  (f_kind f = CustomField /\ f_type f = "*" /\ f_requires f = []) \/
  (f_kind f = RestrictedField /\ f_type f = "*" /\ f_requires f <> [] /\
     subTypes_of (f_requires f) = Ret (f_subTypes f)) \/
  (f_kind f = CompositeField /\ f_type f <> "*" /\ isArray (f_type f) = Ret false).
Proof.
  intros (name & type & requires & default & label & mandatory & multiple & E).
  unfold Field_make in E. destruct (typeIsPrimitive type) eqn:Ep.
  - injection E as <-. left. simpl. split; [reflexivity|].
    unfold typeIsPrimitive, memb in Ep. simpl in Ep.
    repeat match type of Ep with
    | (String.eqb ?a ?b || _)%bool = true => destruct (String.eqb_spec a b); [subst; split; discriminate|]; simpl in Ep
    end. discriminate.
  - unfold isArrayType in E. destruct (isArray type) as [[|]| | | |] eqn:Ea; try discriminate; cbn [rbind subTypes_of] in E.
    + right; left. destruct (subTypes_of requires) as [sub| | | |] eqn:Es; try discriminate. cbn [rbind subTypes_of] in E.
      injection E as <-. simpl. repeat split; auto. intros ->. discriminate.
    + destruct (String.eqb_spec type "*") as [->|Hn].
      * destruct requires as [|front rest].
        -- injection E as <-. right; right; left. simpl. auto.
        -- destruct (isContainer front) as [[|]| | | |]; try discriminate. cbn [rbind subTypes_of] in E.
           destruct (nestedGenericTypes front) as [a| | | |] eqn:E1; try discriminate. cbn [rbind subTypes_of] in E.
           destruct (subTypes_of rest) as [b| | | |] eqn:E2; try discriminate. cbn [rbind subTypes_of] in E.
           injection E as <-. right; right; right; left. simpl. repeat split; auto; try discriminate.
           cbn [subTypes_of rbind]. now rewrite E1, E2.
      * destruct (listType type) as [[? ?]| | | |]; try discriminate. cbn [rbind subTypes_of] in E. injection E as <-.
        right; right; right; right. simpl. auto.
Qed.

Lemma resolvedType_spec f : field_made f -> (f_type f = "*" -> f_requires f <> []) ->
  exists t, resolvedType f = Ret t /\ property_type f = Some t.
Proof.
  intros Hm Hr. unfold resolvedType, property_type.
  destruct (field_made_cases f Hm) as
    [(-> & Ht & _)|[(-> & Ht & _)|[(_ & Ht & He)|[(-> & Ht & _)|(-> & Ht & _)]]]].
  - apply String.eqb_neq in Ht. rewrite Ht. eauto.
  - apply String.eqb_neq in Ht. rewrite Ht. eauto.
  - exfalso. now apply Hr.
  - rewrite Ht. specialize (Hr Ht). destruct (f_requires f); [congruence|]. simpl. eauto.
  - apply String.eqb_neq in Ht. rewrite Ht. eauto.
Qed.

Lemma any_resolved_spec n : forall fs, Forall field_made fs ->
  (forall f, In f fs -> f_type f = "*" -> f_requires f <> []) ->
  (any_resolved n fs = Ret true /\ exists f, In f fs /\ property_type f = Some n) \/
  (any_resolved n fs = Ret false /\ ~ exists f, In f fs /\ property_type f = Some n).
Proof.
  induction fs as [|f fs IH]; intros Hm Hr; simpl.
  - right. split; [reflexivity|]. intros (f & [] & _).
  - inversion Hm; subst.
    destruct (resolvedType_spec f) as (t & -> & Hp); [assumption|apply Hr; simpl; auto|]. cbn.
    destruct (String.eqb_spec t n) as [->|Hne].
    + left. split; [reflexivity|]. exists f. auto.
    + destruct IH as [[-> (g & H3 & H4)]|[-> H3]]; auto.
      * intros g Hg. apply Hr. simpl; auto.
      * left. split; [reflexivity|]. exists g. auto.
      * right. split; [reflexivity|]. intros (g & [<-|Hg] & H4); [congruence|]. apply H3. eauto.
Qed.

Lemma memb_spec n l : memb n l = true <-> In n l.
Proof.
  unfold memb. rewrite existsb_exists. split.
  - intros (x & Hx & E). apply String.eqb_eq in E. now subst.
  - intros H. exists n. rewrite String.eqb_refl. auto.
Qed.

Definition mentions (n : string) (f : field) : Prop :=
  property_type f = Some n \/
  ((f_type f = "*" \/ isArray (f_type f) = Ret true) /\
   exists r parts, In r (f_requires f) /\ nestedGenericTypes r = Ret parts /\ In n parts).

Lemma any_subtype_spec n : isArray n = Ret false -> forall fs, Forall field_made fs ->
  (forall f, In f fs -> f_type f = "*" -> f_requires f <> []) ->
  (any_subtype n fs = Ret true /\ exists f, In f fs /\ mentions n f) \/
  (any_subtype n fs = Ret false /\ ~ exists f, In f fs /\ mentions n f).
Proof.
  intros Hn. induction fs as [|f fs IH]; intros Hm Hr; simpl.
  - right. split; [reflexivity|]. intros (f & [] & _).
  - inversion Hm; subst. rename H1 into Hf. assert (Hrf := fun H => Hr f (or_introl eq_refl) H).
    specialize (IH H2 (fun g Hg => Hr g (or_intror Hg))).
    assert (Hdec : forall b, (b = true <-> mentions n f) ->
      ((if b then Ret true else any_subtype n fs) = Ret true /\ exists f0, (f = f0 \/ In f0 fs) /\ mentions n f0) \/
      ((if b then Ret true else any_subtype n fs) = Ret false /\ ~ exists f0, (f = f0 \/ In f0 fs) /\ mentions n f0)).
    { intros [|] Hb.
      - left. split; [reflexivity|]. exists f. split; [auto|]. now apply Hb.
      - destruct IH as [[-> (g & H3 & H4)]|[-> H3]].
        + left. split; [reflexivity|]. eauto.
        + right. split; [reflexivity|]. intros (g & [<-|Hg] & H4); [apply Hb in H4; discriminate|]. eauto. }
    unfold is_restricted_t.
    destruct (field_made_cases f Hf) as
      [(Ek & Ht & Ha)|[(Ek & Ht & Ha & Hs)|[(_ & Ht & He)|[(Ek & Ht & He & Hs)|(Ek & Ht & Ha)]]]];
      try rewrite Ek.
    + destruct (resolvedType_spec f Hf Hrf) as (t & -> & Hp). cbn. apply Hdec.
      rewrite String.eqb_eq. unfold mentions. rewrite Hp. split; [intros ->; auto|].
      intros [[= ->]|[[H|H] _]]; congruence.
    + apply (Hdec (memb n (f_subTypes f))). rewrite memb_spec, (subTypes_of_spec _ _ Hs).
      unfold mentions, property_type. apply String.eqb_neq in Ht. rewrite Ht.
      split; [intros H; right; auto|]. intros [[= E]|[_ H]]; [congruence|exact H].
    + exfalso. now apply Hrf.
    + assert (Hiff : In n (f_subTypes f) <-> mentions n f).
      { rewrite (subTypes_of_spec _ _ Hs). unfold mentions, property_type. rewrite Ht. simpl.
        split; [intros H; right; auto|]. intros [H|[_ H]]; [|exact H].
        destruct (f_requires f) as [|r rs]; [discriminate|]. simpl in H. injection H as ->.
        cbn [rbind subTypes_of] in Hs. destruct (nestedGenericTypes n) as [parts| | | |] eqn:E; try discriminate.
        exists n, parts. simpl. repeat split; auto. now apply nestedGenericTypes_head. }
      apply (Hdec (memb n (f_subTypes f))). rewrite memb_spec; exact Hiff.
    + destruct (resolvedType_spec f Hf Hrf) as (t & -> & Hp). cbn. apply Hdec.
      rewrite String.eqb_eq. unfold mentions. rewrite Hp. split; [intros ->; auto|].
      intros [[= ->]|[[H|H] _]]; congruence.
Qed.

Lemma mentions_uses c d : (exists f, In f (c_fields c) /\ mentions (c_name d) f) <->
  uses (TComposite c) (TComposite d).
Proof.
  unfold uses, direct, nested_use, mentions. simpl. setoid_rewrite is_array_iff. setoid_rewrite <- mentions_exactly. split.
  - intros (f & Hf & [H|(H & r & p & H1 & H2 & H3)]); [left|right].
    + eauto.
    + exists f, r, p. auto.
  - intros [(f & Hf & H)|(f & r & p & Hf & H & H1 & H2 & H3)]; exists f; split; auto.
    right. split; [exact H|]. eauto.
Qed.

(** ** Restricted notations *)

Lemma made_of r : made (TRestricted r) ->
  match r_kind r with
  | list_t | array_t => exists e, r_of r = [e]
  | map_t => exists k v, r_of r = [k; v]
  | enum_t => r_of r = [""]
  end.
Proof.
  intros (d & n & l & p & s & ch & E). unfold Restricted_make in E.
  destruct (String.eqb s "list").
  - destruct ch as [|c ch].
    + destruct (isArray n) as [[|]| | | |]; try discriminate; cbn [rbind subTypes_of] in E.
      * destruct (arrayType n) as [a| | | |]; try discriminate. cbn [rbind subTypes_of] in E. injection E as <-. simpl. eauto.
      * destruct (listType n) as [[a b]| | | |]; try discriminate. cbn [rbind subTypes_of] in E. injection E as <-. simpl. eauto.
    + injection E as <-. reflexivity.
  - destruct (String.eqb s "map"); [|discriminate].
    destruct (mapType n) as [[[a b] c]| | | |]; try discriminate. cbn [rbind subTypes_of] in E. injection E as <-. simpl. eauto.
Qed.

(** [direct], computed. *)
Definition directb (t u : notation) : bool :=
  match t with
  | TComposite c => existsb (fun f => match property_type f with
                                      | Some n => String.eqb n (n_name u)
                                      | None => false
                                      end) (c_fields c)
  | TRestricted r =>
      match r_kind r with
      | list_t | array_t => String.eqb (of0 r) (n_name u)
      | map_t => String.eqb (of0 r) (n_name u) || String.eqb (of1 r) (n_name u)
      | enum_t => false
      end
  end.

Lemma directb_spec t u : made t -> directb t u = true <-> direct t u.
Proof.
  intros Hm. destruct t as [c|r]; simpl.
  - rewrite existsb_exists. split; intros (f & Hf & H); exists f; split; auto.
    + destruct (property_type f); [|discriminate]. apply String.eqb_eq in H. now subst.
    + rewrite H. apply String.eqb_refl.
  - apply made_of in Hm. unfold of0, of1. destruct (r_kind r).
    + destruct Hm as (e & ->). simpl. rewrite String.eqb_eq. split.
      * intros ->. eauto.
      * intros (e' & [= <-] & ->). reflexivity.
    + destruct Hm as (k & v & ->). simpl. rewrite orb_true_iff, !String.eqb_eq. split.
      * intros H. exists k, v. intuition.
      * intros (k' & v' & [= <- <-] & H). intuition.
    + split; [discriminate|intros []].
    + destruct Hm as (e & ->). simpl. rewrite String.eqb_eq. split.
      * intros ->. eauto.
      * intros (e' & [= <-] & ->). reflexivity.
Qed.

Lemma uses_restricted_l r u : uses (TRestricted r) u <-> direct (TRestricted r) u.
Proof. unfold uses. simpl nested_use. tauto. Qed.
Lemma uses_restricted_r t r : uses t (TRestricted r) <-> direct t (TRestricted r).
Proof. unfold uses. destruct t; simpl nested_use; tauto. Qed.

(** ** Scores *)

Lemma dependsOn_spec j p : entry_ok j -> entry_ok p -> n_name j <> n_name p ->
  ~ blind_pair j p -> ~ blind_pair p j ->
  (uses p j /\ dependsOn j p = Ret 1) \/
  (~ uses p j /\ direct j p /\ dependsOn j p = Ret 2) \/
  (~ uses p j /\ ~ direct j p /\ dependsOn j p = Ret 0).
Proof.
  intros (Mj & Rj & Nj) (Mp & Rp & Np) Hne B1 B2.
  destruct p as [p|p], j as [j|j]; unfold dependsOn; simpl in Rj, Rp, Nj, Np, Hne.
  - (* both classes *)
    unfold composite_rhs_composite.
    destruct (any_subtype_spec (c_name j) Nj (c_fields p) Mp Rp) as [[-> H]|[-> H]]; rewrite mentions_uses in H; cbn.
    + auto.
    + destruct (any_resolved_spec (c_name p) (c_fields j) Mj Rj) as [[-> H']|[-> H']]; cbn [rbind];
        right; [left|right]; (split; [exact H|]; split; [exact H'|reflexivity]).
  - (* j restricted, p a class *)
    unfold composite_rhs_restricted. rewrite uses_restricted_r.
    destruct (any_resolved_spec (r_name j) (c_fields p) Mp Rp) as [[-> H]|[-> H]]; cbn [rbind];
      [left; split; [exact H|reflexivity]|].
    right. destruct (memb (c_name p) (r_of j)) eqn:Em.
    + left. split; [exact H|]. split; [|reflexivity]. apply directb_spec; [exact Mj|].
      apply memb_spec in Em. apply made_of in Mj. simpl. unfold of0, of1. destruct (r_kind j).
      * destruct Mj as (e & E). rewrite E in *. destruct Em as [->|[]]. apply String.eqb_refl.
      * destruct Mj as (k & v & E). rewrite E in *. simpl in *. destruct Em as [->|[->|[]]]; rewrite String.eqb_refl, ?orb_true_r; reflexivity.
      * rewrite Mj in Em. destruct Em as [E|[]]. rewrite <- E in Np. discriminate.
      * destruct Mj as (e & E). rewrite E in *. destruct Em as [->|[]]. apply String.eqb_refl.
    + right. split; [exact H|]. split; [|reflexivity]. intros Hd.
      assert (Hin : In (c_name p) (r_of j)).
      { simpl in Hd. destruct (r_kind j).
        - destruct Hd as (e & -> & <-). simpl; auto.
        - destruct Hd as (k & v & -> & [<-|<-]); simpl; auto.
        - destruct Hd.
        - destruct Hd as (e & -> & <-). simpl; auto. }
      apply memb_spec in Hin. congruence.
  - (* j a class, p restricted *)
    unfold restricted_rhs_composite. rewrite uses_restricted_l.
    assert (Hd := directb_spec (TRestricted p) (TComposite j) Mp).
    assert (Hr := any_resolved_spec (r_name p) (c_fields j) Mj Rj).
    assert (Hfirst : match r_kind p with
        | list_t | array_t => String.eqb (of0 p) (c_name j)
        | map_t => String.eqb (of0 p) (c_name j) || String.eqb (of1 p) (c_name j)
        | enum_t => String.eqb (r_name p) (c_name j)
        end = directb (TRestricted p) (TComposite j)).
    { simpl. destruct (r_kind p); try reflexivity. apply String.eqb_neq. congruence. }
    rewrite Hfirst. destruct (directb (TRestricted p) (TComposite j)).
    + left. split; [now apply Hd|reflexivity].
    + right. assert (Hn : ~ direct (TRestricted p) (TComposite j)) by (intros H; apply Hd in H; discriminate).
      destruct Hr as [[-> H]|[-> H]]; cbn [rbind]; [left|right]; (split; [exact Hn|]; split; [exact H|reflexivity]).
  - (* both restricted *)
    rewrite uses_restricted_l.
    assert (Hpj := directb_spec (TRestricted p) (TRestricted j) Mp).
    assert (Hjp := directb_spec (TRestricted j) (TRestricted p) Mj).
    assert (Hgoal : restricted_rhs_restricted p j =
      if directb (TRestricted p) (TRestricted j) then 1
      else if directb (TRestricted j) (TRestricted p) then 2 else 0).
    { unfold blind_pair in B1, B2. rewrite !uses_restricted_l in *. simpl is_kind in *. simpl is_restricted in *.
      destruct (directb (TRestricted p) (TRestricted j)) eqn:E1;
      destruct (directb (TRestricted j) (TRestricted p)) eqn:E2;
      try (assert (H1 : direct (TRestricted p) (TRestricted j)) by now apply Hpj);
      try (assert (H2 : direct (TRestricted j) (TRestricted p)) by now apply Hjp);
      unfold restricted_rhs_restricted, dependsOnMap, dependsOnList, dependsOnArray, dependsOnEnum;
      unfold directb in E1, E2; simpl n_name in E1, E2;
      destruct (r_kind j) eqn:Kj; destruct (r_kind p) eqn:Kp; try discriminate;
      rewrite ?E1, ?E2; try reflexivity; try (exfalso; tauto).
      all: destruct (String.eqb_spec (r_name j) (r_name p)); [congruence|reflexivity]. }
    rewrite Hgoal.
    destruct (directb (TRestricted p) (TRestricted j)); [left; split; [now apply Hpj|reflexivity]|].
    right. assert (~ direct (TRestricted p) (TRestricted j)) by (intros H; apply Hpj in H; discriminate).
    destruct (directb (TRestricted j) (TRestricted p)).
    + left. split; [assumption|]. split; [now apply Hjp|reflexivity].
    + right. split; [assumption|]. split; [|reflexivity]. intros H'. apply Hjp in H'. discriminate.
Qed.

(** Every comparison gives 0, 1 or 2 when the wildcards name their types. *)
Lemma dependsOn_scored j p : entry_ok j -> entry_ok p -> exists n, n <= 2 /\ dependsOn j p = Ret n.
Proof.
  intros (Mj & Rj & Nj) (Mp & Rp & Np). destruct p as [p|p], j as [j|j]; unfold dependsOn; simpl in Rj, Rp.
  - unfold composite_rhs_composite.
    destruct (any_subtype_spec (c_name j) Nj (c_fields p) Mp Rp) as [[-> _]|[-> _]]; cbn; [eauto|].
    destruct (any_resolved_spec (c_name p) (c_fields j) Mj Rj) as [[-> _]|[-> _]]; cbn; eauto.
  - unfold composite_rhs_restricted.
    destruct (any_resolved_spec (r_name j) (c_fields p) Mp Rp) as [[-> _]|[-> _]]; cbn; [eauto|].
    destruct (memb _ _); eauto.
  - unfold restricted_rhs_composite.
    destruct (match r_kind p with list_t | array_t => _ | map_t => _ | enum_t => _ end); [eauto|].
    destruct (any_resolved_spec (r_name p) (c_fields j) Mj Rj) as [[-> _]|[-> _]]; cbn; eauto.
  - eexists. split; [|reflexivity].
    unfold restricted_rhs_restricted, dependsOnMap, dependsOnList, dependsOnArray, dependsOnEnum.
    repeat match goal with |- context [match ?x with _ => _ end] => destruct x end; lia.
Qed.

Lemma no_nested_right j p : entry_ok j -> entry_ok p -> n_name j <> n_name p ->
  ~ blind_pair j p -> ~ blind_pair p j -> ~ (nested_use j p /\ ~ direct j p) -> right_score j p (dependsOn j p).
Proof.
  intros Ej Ep Hne B1 B2 Hn. unfold right_score.
  destruct (dependsOn_spec j p Ej Ep Hne B1 B2) as [[H ->]|[(H1 & H2 & ->)|(H1 & H2 & ->)]]; repeat split; auto; try tauto.
  - intros _ H. exfalso. apply H. now left.
  - intros _ [H|H]; [contradiction|]. exfalso. auto.
Qed.

(** ** Orders *)

Lemma regular_sub ts : regular ts -> forall x, In x ts -> entry_ok x.
Proof. intros (H & _) x. rewrite Forall_forall in H. apply H. Qed.

Lemma NoDup_map_inj {A B} (f : A -> B) l : NoDup (map f l) -> NoDup l.
Proof. apply NoDup_map_inv. Qed.

Lemma names_distinct ts x y : NoDup (map n_name ts) -> In x ts -> In y ts -> x <> y -> n_name x <> n_name y.
Proof.
  intros Hnd Hx Hy Hne E. apply Hne.
  induction ts as [|t ts IH]; [destruct Hx|]. simpl in Hnd. inversion Hnd; subst.
  destruct Hx as [->|Hx], Hy as [->|Hy]; auto.
  - exfalso. apply H1. rewrite E. now apply in_map.
  - exfalso. apply H1. rewrite <- E. now apply in_map.
Qed.

Lemma regular_score ts : regular ts -> forall j p, In j ts -> In p ts -> j <> p ->
  score_ok notation dependsOn uses direct j p.
Proof.
  intros (H1 & H2 & H3 & _) j p Hj Hp Hne. rewrite Forall_forall in H1. unfold score_ok.
  apply dependsOn_spec; auto. now apply (names_distinct ts).
Qed.

Lemma uses_through_last ts x y : In x ts -> uses_through ts x y ->
  exists c, In c ts /\ direct c y /\ (x = c \/ chain notation uses ts x c).
Proof.
  intros Hx H. induction H as [x y H|x y z H Hy _ IH].
  - exists x. auto.
  - destruct (IH Hy) as (c & Hc & H0 & [->|H']).
    + exists c. split; [exact Hc|]. split; [exact H0|]. right. apply ch_one. now left.
    + exists c. split; [exact Hc|]. split; [exact H0|]. right. apply ch_more with y; auto. now left.
Qed.

Theorem order_first ts : regular ts -> dependencies_first uses ts ->
  exists levels, inserts notation dependsOn ts [] = Ret levels /\
    Permutation (concat levels) ts /\ dependency_order uses levels.
Proof.
  intros Hr Hf. apply (inserts_dependencies_first notation dependsOn uses direct (fun x => In x ts)); auto.
  - now apply regular_score.
  - intros a b H. now left.
  - apply Hr.
  - apply (NoDup_map_inj n_name). apply Hr.
Qed.

Theorem order_last ts : regular ts -> lists_containers ts -> dependencies_last uses ts ->
  exists levels, inserts notation dependsOn ts [] = Ret levels /\
    Permutation (concat levels) ts /\ dependency_order uses levels.
Proof.
  intros Hr Hc Hf. apply (inserts_dependencies_last notation dependsOn uses direct (fun x => In x ts)); auto.
  - now apply regular_score.
  - intros a b H. now left.
  - apply Hr.
  - apply (NoDup_map_inj n_name). apply Hr.
  - intros x y Hx Hy Hd. apply uses_through_last; auto.
Qed.

Lemma through_chain S x y : uses_through S x y -> exists c, (c = x \/ In c S) /\ direct c y /\ (x = c \/ chain notation uses S x c).
Proof.
  intros H. induction H as [x y H|x y z H Hy _ IH].
  - exists x. auto.
  - destruct IH as (c & Hc & H0 & H').
    exists c. split; [destruct Hc as [->|Hc]; auto|]. split; [exact H0|]. right. destruct H' as [->|H'].
    + apply ch_one. now left.
    + apply ch_more with y; auto. now left.
Qed.

Lemma listed_visible ts : containers_before ts -> forall l p r, ts = (l ++ p :: r)%list -> visible notation uses direct p l.
Proof.
  intros H l p r E.
  assert (M : forall e, In e (p :: l) -> e = p \/ leads uses l e p -> mediated notation uses direct e l).
  { intros e He Hp x Hx Hu. destruct (through_chain l x e (H l p r x e E Hx He Hp Hu)) as (c & Hc & H0 & H').
    exists c. split; [destruct Hc as [->|Hc]; auto|]. auto. }
  split; [apply M; simpl; auto|]. intros e He Hch. apply M; [simpl; auto|]. right. now apply chain_leads.
Qed.

Theorem order_listed ts : regular ts -> listed ts ->
  exists levels, inserts notation dependsOn ts [] = Ret levels /\
    Permutation (concat levels) ts /\ dependency_order uses levels.
Proof.
  intros Hr [Hb Hc]. apply (inserts_bridged notation dependsOn uses direct (fun x => In x ts)); auto.
  - now apply regular_score.
  - intros a b H. now left.
  - apply Hr.
  - apply (NoDup_map_inj n_name). apply Hr.
  - now apply listed_visible.
Qed.

(** ** Orders that are listed *)

Lemma leads_last {T} (R : T -> T -> Prop) S x y : In x S -> leads R S x y -> exists z, In z S /\ R z y.
Proof. intros Hx H. induction H as [x y H|x y z H Hy _ IH]; eauto. Qed.

Theorem first_listed ts : dependencies_first uses ts -> listed ts.
Proof.
  intros Hf.
  assert (Hno : forall l p r, ts = (l ++ p :: r)%list -> forall x, In x l -> ~ uses x p).
  { intros l p r E x Hx. apply in_split in Hx as (l1 & l2 & ->).
    apply (Hf l1 x (l2 ++ p :: r)%list); [rewrite E, <- app_assoc; reflexivity|]. apply in_or_app; simpl; auto. }
  split.
  - intros l p r x y E Hx Hy Hxp _. exfalso. exact (Hno l p r E x Hx Hxp).
  - intros l p r x e E Hx [<-|He] Hp Hu; [exfalso; exact (Hno l p r E x Hx Hu)|].
    exfalso. destruct Hp as [->|Hp]; [exact (Hno l p r E x Hx Hu)|].
    destruct (leads_last uses l e p He Hp) as (z & Hz & Hzp). exact (Hno l p r E z Hz Hzp).
Qed.

Lemma last_before ts : dependencies_last uses ts -> forall l r, ts = (l ++ r)%list ->
  forall x y, In x ts -> In y l -> uses x y -> In x l.
Proof.
  intros Hf l r E x y Hx Hy Hu. rewrite E in Hx. apply in_app_or in Hx as [Hx|Hx]; [exact Hx|]. exfalso.
  apply in_split in Hy as (l1 & l2 & ->). apply (Hf l1 y (l2 ++ r)%list x); auto.
  - rewrite E, <- app_assoc. reflexivity.
  - apply in_or_app; auto.
Qed.

Theorem last_listed ts : lists_containers ts -> dependencies_last uses ts -> (forall t, In t ts -> ~ uses t t) -> listed ts.
Proof.
  intros Hc Hf Hi. split.
  - intros l p r x y E Hx Hy Hxp Hpy. exfalso. apply in_split in Hy as (l1 & l2 & ->).
    apply (Hf l1 y (l2 ++ p :: r)%list p); auto.
    + rewrite E, <- app_assoc. reflexivity.
    + apply in_or_app; simpl; auto.
  - intros l p r x e E Hx He _ Hu.
    assert (Hin : forall z, In z l -> In z ts) by (intros z Hz; rewrite E; apply in_or_app; auto).
    assert (Hp : In p ts) by (rewrite E; apply in_or_app; simpl; auto).
    assert (Hets : In e ts) by (destruct He as [<-|He]; auto).
    assert (Hback : forall z y, In z ts -> In y (p :: l) -> uses z y -> In z l).
    { intros z y Hz [<-|Hy] Hzy; [|apply (last_before ts Hf l (p :: r) E z y); auto].
      assert (Hz' : In z (l ++ [p])).
      { apply (last_before ts Hf (l ++ [p]) r) with p; auto; [rewrite E, <- app_assoc; reflexivity|].
        apply in_or_app; simpl; auto. }
      apply in_app_or in Hz' as [Hz'|[<-|[]]]; [exact Hz'|]. exfalso. exact (Hi p Hp Hzy). }
    specialize (Hc x e (Hin x Hx) Hets Hu). clear Hu Hx.
    induction Hc as [x y H|x y z H Hy Hyz IH]; [now apply ut_one|].
    assert (Hyl : In y l).
    { clear -Hyz Hy He Hback. revert He Hy. induction Hyz as [a b H|a b c H Hb Hbc IHc]; intros He Ha.
      - apply (Hback a b); auto. now left.
      - apply (Hback a b); [exact Ha| |now left]. right. now apply IHc. }
    apply ut_more with y; auto.
Qed.

Theorem transitive_bridged ts : transitively_used ts -> bridged uses ts.
Proof.
  intros H l p r x y E Hx Hy Hxp Hpy. apply lead_one. apply (H x p y); auto; rewrite E; apply in_or_app; simpl; auto.
Qed.

Theorem plain_listed ts : (forall x y, In x ts -> In y ts -> uses x y -> direct x y) -> bridged uses ts -> listed ts.
Proof.
  intros H Hb. split; [exact Hb|]. intros l p r x e E Hx He _ Hu. apply ut_one. apply H; auto.
  - rewrite E. apply in_or_app; auto.
  - rewrite E. apply in_or_app. destruct He as [<-|He]; simpl; auto.
Qed.

Lemma through_incl S S' x y : incl S S' -> uses_through S x y -> uses_through S' x y.
Proof. intros Hi H. induction H as [x y H|x y z H Hy _ IH]; [now apply ut_one|]. apply ut_more with y; auto. Qed.

Theorem containers_first_listed ts : containers_first ts ->
  (forall x y, In x ts -> In y ts -> uses x y -> uses_through (restricted_among ts) x y) ->
  bridged uses ts -> listed ts.
Proof.
  intros Hcf Hth Hb. split; [exact Hb|]. intros l p r x e E Hx He _ Hu.
  assert (Hxts : In x ts) by (rewrite E; apply in_or_app; auto).
  assert (Hets : In e ts) by (rewrite E; apply in_or_app; destruct He as [<-|He]; simpl; auto).
  destruct Hu as [Hu|Hu]; [now apply ut_one|].
  apply (through_incl (restricted_among ts)); [|apply Hth; auto; now right].
  intros z Hz. apply filter_In in Hz as [Hz Hr].
  assert (Hcls : ~ is_restricted x) by (destruct x; cbn in Hu |- *; auto).
  rewrite E in Hz. apply in_app_or in Hz as [Hz|Hz]; [exact Hz|]. exfalso. apply Hcls.
  apply in_split in Hx as (l1 & l2 & ->).
  apply (Hcf l1 x (l2 ++ p :: r)%list z).
  - rewrite E, <- app_assoc. reflexivity.
  - apply in_or_app; auto.
  - destruct z; [discriminate|exact I].
Qed.

Theorem inserts_conserve ts : Forall entry_ok ts ->
  exists levels, inserts notation dependsOn ts [] = Ret levels /\
    Permutation (concat levels) ts /\ (forall l, In l levels -> l <> []).
Proof.
  intros H. rewrite Forall_forall in H.
  destruct (inserts_total notation dependsOn (fun x => In x ts)) with (ps := ts) (levels := @nil (list notation))
    as (levels & E & Hp & Hn); auto.
  - intros j p Hj Hp. apply dependsOn_scored; auto.
  - intros x [].
  - exists levels. split; [exact E|]. split; [now rewrite app_nil_r in Hp|]. apply Hn. intros l [].
Qed.

Lemma FOP_in {A} (R : A -> A -> Prop) l x y : (forall a b, R a b -> R b a) ->
  ForallOrdPairs R l -> In x l -> In y l -> x = y \/ R x y.
Proof.
  intros Hs H Hx Hy. apply (ForallOrdPairs_In H x y Hx) in Hy as [E|[E|E]]; auto.
Qed.

(** Groups hold independent entries when no class uses another only inside a
    container. *)
Theorem groups_independent ts levels : regular ts ->
  (forall x y, In x ts -> In y ts -> nested_use x y -> direct x y) ->
  (forall x y, In x ts -> In y ts -> direct x y -> ~ direct y x) ->
  inserts notation dependsOn ts [] = Ret levels -> independent_groups uses levels.
Proof.
  intros Hr Hn Has E.
  assert (Hu : forall x y, In x ts -> In y ts -> uses x y -> direct x y) by (intros x y Hx Hy [H|H]; auto).
  assert (Hsc : forall j p, In j ts -> In p ts -> exists n, n <= 2 /\ dependsOn j p = Ret n).
  { intros j p Hj Hp. apply dependsOn_scored; now apply (regular_sub ts). }
  destruct (inserts_conserve ts) as (lv & E' & Hp & _); [apply Hr|]. rewrite E in E'. injection E' as <-.
  (* a score of zero is symmetric for distinct entries; equal entries are never compared, so read them as zero *)
  pose (dep := dependsOn).
  assert (Hsym : forall j p, In j ts -> In p ts -> dependsOn j p = Ret 0 -> dependsOn p j = Ret 0).
  { intros j p Hj Hq H0.
    assert (D : j = p \/ j <> p).
    { destruct (String.eqb_spec (n_name j) (n_name p)) as [En|En]; [|right; congruence]. left.
      destruct Hr as (_ & Hnd & _). clear -Hnd En Hj Hq.
      induction ts as [|t ts IH]; [destruct Hj|]. simpl in Hnd. inversion Hnd; subst.
      destruct Hj as [->|Hj], Hq as [->|Hq]; auto.
      - exfalso. apply H1. rewrite En. now apply in_map.
      - exfalso. apply H1. rewrite <- En. now apply in_map. }
    destruct D as [->|Hne]; [exact H0|].
    destruct (regular_score ts Hr j p Hj Hq Hne) as [[_ A]|[(_ & _ & A)|(A1 & A2 & A3)]]; try congruence.
    destruct (regular_score ts Hr p j Hq Hj (not_eq_sym Hne)) as [[B _]|[(_ & B & _)|(_ & _ & B)]]; auto.
    - exfalso. apply A2. now apply Hu.
    - exfalso. apply A1. now left. }
  assert (Hi := inserts_indep notation dependsOn (fun x => In x ts) Hsc Hsym ts [] levels
                  (fun x H => H) (fun x H => match H with end) (Forall_nil _) E).
  intros x y n (g & Hg & Hx) (g' & Hg' & Hy) Hd. rewrite Hg in Hg'. injection Hg' as <-.
  assert (Hgi : ForallOrdPairs (none notation dependsOn) g).
  { unfold indep in Hi. rewrite Forall_forall in Hi. apply Hi. now apply nth_error_In in Hg. }
  assert (Hin : forall z, In z g -> In z ts).
  { intros z Hz. apply (Permutation_in _ Hp). apply in_concat. exists g. split; [now apply nth_error_In in Hg|exact Hz]. }
  destruct (FOP_in _ g x y (fun a b H => conj (proj2 H) (proj1 H)) Hgi Hx Hy) as [->|[N1 N2]].
  - apply Hr in Hd; auto.
  - assert (Hne : y <> x).
    { intros ->. apply Hr in Hd; auto. }
    destruct (regular_score ts Hr y x (Hin y Hy) (Hin x Hx) Hne) as [[_ A]|[(A & _)|(A & _)]].
    + congruence.
    + contradiction.
    + contradiction.
Qed.

(** ** Lookup *)

Lemma first_with_some key k l t : first_with key k l = Some t -> In t l /\ key t = k.
Proof. intros H. apply find_some in H as [H1 H2]. apply String.eqb_eq in H2. auto. Qed.

Lemma first_with_none key k l : first_with key k l = None -> forall t, In t l -> key t <> k.
Proof. intros H t Ht E. apply (find_none _ _ H) in Ht. subst. rewrite String.eqb_refl in Ht. discriminate. Qed.

Lemma first_with_unique key l t : NoDup (map key l) -> In t l -> first_with key (key t) l = Some t.
Proof.
  unfold first_with. induction l as [|u l IH]; intros Hnd Ht; [destruct Ht|]. simpl in *. inversion Hnd; subst.
  destruct Ht as [->|Ht].
  - now rewrite String.eqb_refl.
  - destruct (String.eqb_spec (key u) (key t)) as [E|_]; [|now apply IH].
    exfalso. apply H1. rewrite E. now apply in_map.
Qed.

Lemma fromType_spec s t : fromType s t =
  match first_with n_name t (concat (s_types s)) with Some n => Ret n | None => Exc RuntimeError end.
Proof. reflexivity. Qed.

Theorem fromType_found s t : NoDup (map n_name (concat (s_types s))) -> In t (concat (s_types s)) ->
  fromType s (n_name t) = Ret t.
Proof. intros Hn Ht. unfold fromType. now rewrite first_with_unique. Qed.
Theorem fromType_missing s k : (forall t, In t (concat (s_types s)) -> n_name t <> k) ->
  fromType s k = Exc RuntimeError.
Proof.
  intros H. unfold fromType. destruct (first_with n_name k _) eqn:E; [|reflexivity].
  apply first_with_some in E as [E1 E2]. exfalso. now apply (H n).
Qed.
Theorem fromDescriptor_found s t : NoDup (map n_descriptor (concat (s_types s))) -> In t (concat (s_types s)) ->
  fromDescriptor s (n_descriptor t) = Ret t.
Proof. intros Hn Ht. unfold fromDescriptor. now rewrite first_with_unique. Qed.
Theorem fromDescriptor_missing s k : (forall t, In t (concat (s_types s)) -> n_descriptor t <> k) ->
  fromDescriptor s k = Exc RuntimeError.
Proof.
  intros H. unfold fromDescriptor. destruct (first_with n_descriptor k _) eqn:E; [|reflexivity].
  apply first_with_some in E as [E1 E2]. exfalso. now apply (H n).
Qed.

(** ** Deciding [uses] and [regular] on concrete schemas *)

Definition usesb (t u : notation) : bool :=
  match t, u with
  | TComposite c, TComposite d =>
      match any_subtype (c_name d) (c_fields c) with Ret true => true | _ => false end
  | _, _ => directb t u
  end.

Lemma usesb_spec t u : entry_ok t -> entry_ok u -> usesb t u = true <-> uses t u.
Proof.
  intros (Mt & Rt & Nt) (Mu & Ru & Nu). destruct t as [c|r], u as [d|q]; simpl usesb; simpl in Rt, Ru, Nt, Nu.
  - rewrite <- mentions_uses.
    destruct (any_subtype_spec (c_name d) Nu (c_fields c) Mt Rt) as [[-> H]|[-> H]]; split; auto; try discriminate.
  - rewrite uses_restricted_r. apply (directb_spec (TComposite c) (TRestricted q) Mt).
  - rewrite uses_restricted_l. apply (directb_spec (TRestricted r) (TComposite d) Mt).
  - rewrite uses_restricted_l. apply (directb_spec (TRestricted r) (TRestricted q) Mt).
Qed.

Definition kindb (k : restricted_kind) (t : notation) : bool :=
  match t with
  | TRestricted r => match r_kind r, k with
                     | list_t, list_t | map_t, map_t | enum_t, enum_t | array_t, array_t => true
                     | _, _ => false
                     end
  | TComposite _ => false
  end.
Definition restrictedb (t : notation) : bool := match t with TRestricted _ => true | _ => false end.
Definition blind_pairb (t u : notation) : bool :=
  (kindb array_t t && restrictedb u && (usesb t u || usesb u t)) ||
  (kindb map_t t && kindb enum_t u && usesb t u).

Lemma blind_pairb_spec t u : entry_ok t -> entry_ok u -> blind_pairb t u = false -> ~ blind_pair t u.
Proof.
  intros Et Eu. unfold blind_pairb, blind_pair.
  assert (K : forall k x, kindb k x = true <-> is_kind k x).
  { intros k [c|r]; simpl; [split; [discriminate|intros []]|]. destruct (r_kind r), k; split; congruence. }
  assert (R : forall x, restrictedb x = true <-> is_restricted x).
  { intros [c|r]; simpl; split; auto; discriminate. }
  intros E H. assert (blind_pairb t u = true); [|unfold blind_pairb in *; congruence].
  unfold blind_pairb. rewrite orb_true_iff, !andb_true_iff, orb_true_iff, !K, R, !usesb_spec by assumption. tauto.
Qed.

Fixpoint nodupb (l : list string) : bool :=
  match l with [] => true | x :: l' => negb (memb x l') && nodupb l' end.
Lemma nodupb_spec l : nodupb l = true -> NoDup l.
Proof.
  induction l as [|x l IH]; simpl; [constructor|]. rewrite andb_true_iff, negb_true_iff. intros [H1 H2].
  constructor; [|auto]. intros H. apply memb_spec in H. congruence.
Qed.

Definition regularb (ts : list notation) : bool :=
  nodupb (map n_name ts) &&
  forallb (fun t => negb (usesb t t) && forallb (fun u => negb (blind_pairb t u)) ts) ts.

Lemma regularb_spec ts : Forall entry_ok ts -> regularb ts = true -> regular ts.
Proof.
  unfold regularb, regular. intros He H. apply andb_true_iff in H as [H1 H2].
  rewrite forallb_forall in H2. assert (He' := He). rewrite Forall_forall in He'.
  split; [exact He|]. split; [now apply nodupb_spec|]. split.
  - intros t u Ht Hu. specialize (H2 t Ht). apply andb_true_iff in H2 as [_ H2].
    rewrite forallb_forall in H2. specialize (H2 u Hu). apply negb_true_iff in H2.
    apply blind_pairb_spec; auto.
  - intros t Ht Hu. specialize (H2 t Ht). apply andb_true_iff in H2 as [H2 _].
    apply negb_true_iff in H2. apply usesb_spec in Hu; auto. congruence.
Qed.

(** ** Concrete schemas *)

Definition field_of (name type : string) (requires : list string) : field :=
  match Field_make name type requires "" "" true false with
  | Ret f => f
  | _ => {| f_kind := CustomField; f_name := ""; f_type := ""; f_requires := []; f_default := "";
            f_label := ""; f_mandatory := true; f_multiple := false; f_subTypes := [] |}
  end.
Definition class_of (name : string) (fields : list field) : notation :=
  TComposite {| c_name := name; c_label := ""; c_provides := []; c_descriptor := "net.corda:" ++ name; c_fields := fields |}.
Definition restricted_of (name source : string) (choices : list string) : notation :=
  match Restricted_make ("net.corda:" ++ name) name "" [] source choices with
  | Ret r => TRestricted r
  | _ => class_of "" []
  end.

Definition field_eq_dec (f g : field) : {f = g} + {f <> g}.
Proof. repeat decide equality. Defined.
Definition restricted_eq_dec (f g : restricted) : {f = g} + {f <> g}.
Proof. repeat decide equality. Defined.

Definition entry_okb (t : notation) : bool :=
  match t with
  | TComposite c =>
      forallb (fun f =>
        match Field_make (f_name f) (f_type f) (f_requires f) (f_default f) (f_label f) (f_mandatory f) (f_multiple f) with
        | Ret g => if field_eq_dec f g then true else false
        | _ => false
        end && (negb (String.eqb (f_type f) "*") || match f_requires f with [] => false | _ => true end))%bool
        (c_fields c) &&
      match isArray (c_name c) with Ret false => true | _ => false end
  | TRestricted r =>
      match Restricted_make (r_descriptor r) (r_name r) (r_label r) (r_provides r) (r_source r) (r_choices r) with
      | Ret q => if restricted_eq_dec r q then true else false
      | _ => false
      end
  end.

Lemma entry_okb_spec t : entry_okb t = true -> entry_ok t.
Proof.
  destruct t as [c|r]; simpl; intros H.
  - apply andb_true_iff in H as [H1 H2]. rewrite forallb_forall in H1.
    split; [|split]; simpl.
    + apply Forall_forall. intros f Hf. specialize (H1 f Hf). apply andb_true_iff in H1 as [H1 _].
      destruct (Field_make _ _ _ _ _ _ _) as [g| | | |] eqn:E; try discriminate.
      destruct (field_eq_dec f g) as [<-|]; [|discriminate]. unfold field_made. eauto 10.
    + intros f Hf Ht. specialize (H1 f Hf). apply andb_true_iff in H1 as [_ H1]. rewrite Ht in H1. simpl in H1.
      destruct (f_requires f); discriminate.
    + destruct (isArray (c_name c)) as [[|]| | | |]; congruence.
  - split; [|split; exact I]. simpl.
    destruct (Restricted_make _ _ _ _ _ _) as [g| | | |] eqn:E; try discriminate.
    destruct (restricted_eq_dec r g) as [<-|]; [|discriminate]. eauto 10.
Qed.

Lemma regular_check ts : forallb entry_okb ts && regularb ts = true -> regular ts.
Proof.
  intros H. apply andb_true_iff in H as [H1 H2]. apply regularb_spec; [|exact H2].
  apply Forall_forall. intros t Ht. apply entry_okb_spec. rewrite forallb_forall in H1. auto.
Qed.

(** Y <- X <- A <- P <- B *)
Definition ts_chain : list notation :=
  [ class_of "net.Y" []; class_of "net.X" [field_of "y" "net.Y" []];
    class_of "net.A" [field_of "x" "net.X" []]; class_of "net.B" [field_of "p" "net.P" []];
    class_of "net.P" [field_of "a" "net.A" []] ].

Lemma ts_chain_regular : regular ts_chain.
Proof. apply regular_check. vm_compute. reflexivity. Qed.

Fixpoint firstb (l : list notation) : bool :=
  match l with [] => true | x :: r => forallb (fun y => negb (usesb x y)) r && firstb r end.
Fixpoint lastb (l : list notation) : bool :=
  match l with [] => true | x :: r => forallb (fun y => negb (usesb y x)) r && lastb r end.

Lemma firstb_spec ts : Forall entry_ok ts -> firstb ts = true -> dependencies_first uses ts.
Proof.
  intros He H l. revert ts He H. induction l as [|a l IH]; intros ts He H x r y -> Hy Hu; simpl in *.
  - apply andb_true_iff in H as [H _]. rewrite forallb_forall in H. specialize (H y Hy).
    inversion He; subst. rewrite Forall_forall in H3. apply usesb_spec in Hu; auto. rewrite Hu in H. discriminate.
  - apply andb_true_iff in H as [_ H]. inversion He; subst. exact (IH _ H3 H x r y eq_refl Hy Hu).
Qed.
Lemma lastb_spec ts : Forall entry_ok ts -> lastb ts = true -> dependencies_last uses ts.
Proof.
  intros He H l. revert ts He H. induction l as [|a l IH]; intros ts He H x r y -> Hy Hu; simpl in *.
  - apply andb_true_iff in H as [H _]. rewrite forallb_forall in H. specialize (H y Hy).
    inversion He; subst. rewrite Forall_forall in H3. apply usesb_spec in Hu; auto. rewrite Hu in H. discriminate.
  - apply andb_true_iff in H as [_ H]. inversion He; subst. exact (IH _ H3 H x r y eq_refl Hy Hu).
Qed.

Lemma first_check ts : forallb entry_okb ts && regularb ts && firstb ts = true -> regular ts /\ dependencies_first uses ts.
Proof.
  intros H. apply andb_true_iff in H as [H1 H2]. apply regular_check in H1. split; [exact H1|].
  apply firstb_spec; [apply H1|exact H2].
Qed.
Lemma last_check ts : forallb entry_okb ts && regularb ts && lastb ts = true -> regular ts /\ dependencies_last uses ts.
Proof.
  intros H. apply andb_true_iff in H as [H1 H2]. apply regular_check in H1. split; [exact H1|].
  apply lastb_spec; [apply H1|exact H2].
Qed.

(** A schema with a class, a list, a map and an enum, dependencies first. *)
Definition ts_mixed : list notation :=
  [ class_of "net.B" [field_of "n" "int" []];
    restricted_of "net.E" "list" ["A"; "B"];
    restricted_of "java.util.List<net.B>" "list" [];
    restricted_of "java.util.Map<string, java.util.List<net.B>>" "map" [];
    class_of "net.A" [field_of "m" "*" ["java.util.Map<string, java.util.List<net.B>>"];
                      field_of "e" "net.E" []] ].

Lemma ts_mixed_first : regular ts_mixed /\ dependencies_first uses ts_mixed.
Proof. apply first_check. vm_compute. reflexivity. Qed.
Lemma ts_mixed_last : regular (rev ts_mixed) /\ dependencies_last uses (rev ts_mixed).
Proof. apply last_check. vm_compute. reflexivity. Qed.

Lemma ts_mixed_containers : lists_containers (rev ts_mixed).
Proof.
  assert (Hok : Forall entry_ok (rev ts_mixed)) by apply ts_mixed_last.
  rewrite Forall_forall in Hok.
  intros t u Ht Hu H. apply usesb_spec in H; [|now apply Hok|now apply Hok].
  assert (D : directb t u = true \/
    exists y z, directb t y = true /\ directb y z = true /\ directb z u = true /\ In y (rev ts_mixed) /\ In z (rev ts_mixed)).
  { destruct Ht as [<-|[<-|[<-|[<-|[<-|[]]]]]]; destruct Hu as [<-|[<-|[<-|[<-|[<-|[]]]]]];
      try (vm_compute in H; discriminate); try (left; vm_compute; reflexivity).
    right. exists (nth 1 (rev ts_mixed) (class_of "" [])), (nth 2 (rev ts_mixed) (class_of "" [])).
    repeat split; try (vm_compute; reflexivity); vm_compute; auto. }
  destruct D as [D|(y & z & D1 & D2 & D3 & Hy & Hz)].
  - apply ut_one. apply directb_spec; [|exact D]. now apply (Hok t).
  - apply ut_more with y; [|exact Hy|apply ut_more with z; [|exact Hz|apply ut_one]].
    + apply directb_spec; [|exact D1]. now apply (Hok t).
    + apply directb_spec; [|exact D2]. now apply (Hok y).
    + apply directb_spec; [|exact D3]. now apply (Hok z).
Qed.

(** A schema with a list before the class that has it, and before the class of its
    elements: neither dependencies first nor dependencies last. *)
Definition ts_between : list notation :=
  [ restricted_of "java.util.List<net.Pet>" "list" [];
    class_of "net.Owner" [field_of "pets" "*" ["java.util.List<net.Pet>"]; field_of "vet" "net.Vet" []];
    class_of "net.Pet" [field_of "name" "string" []];
    class_of "net.Vet" [field_of "name" "string" []] ].
Lemma ts_between_listed : regular ts_between /\ transitively_used ts_between /\ containers_first ts_between /\
  (forall x y, In x ts_between -> In y ts_between -> uses x y -> uses_through (restricted_among ts_between) x y) /\
  ~ dependencies_first uses ts_between /\ ~ dependencies_last uses ts_between.
Proof.
  assert (Hr : regular ts_between) by (apply regular_check; vm_compute; reflexivity).
  assert (Hok : forall t, In t ts_between -> entry_ok t) by (apply Forall_forall, Hr).
  assert (Hu : forall x y, In x ts_between -> In y ts_between -> uses x y -> usesb x y = true)
    by (intros x y Hx Hy H; apply usesb_spec; auto).
  assert (Hd : forall x y, In x ts_between -> directb x y = true -> direct x y)
    by (intros x y Hx H; apply directb_spec; auto; now apply Hok).
  split; [exact Hr|]. split; [|split; [|split; [|split]]].
  - intros x y z Hx Hy Hz H1 H2. apply usesb_spec; [now apply Hok|now apply Hok|].
    apply Hu in H1; auto. apply Hu in H2; auto.
    destruct Hx as [<-|[<-|[<-|[<-|[]]]]]; destruct Hy as [<-|[<-|[<-|[<-|[]]]]]; try (vm_compute in H1; discriminate);
      destruct Hz as [<-|[<-|[<-|[<-|[]]]]]; try (vm_compute in H2; discriminate); vm_compute; reflexivity.
  - intros l x r y E Hy Hres. destruct l as [|a l]; [injection E as <- E; exact I|]. injection E as <- E.
    assert (Hin : In y (l ++ x :: r)) by (apply in_or_app; simpl; auto). rewrite <- E in Hin.
    destruct Hin as [<-|[<-|[<-|[]]]]; destruct Hres.
  - intros x y Hx Hy H. apply Hu in H; auto.
    destruct Hx as [<-|[<-|[<-|[<-|[]]]]]; destruct Hy as [<-|[<-|[<-|[<-|[]]]]]; try (vm_compute in H; discriminate);
      try (apply ut_one; apply Hd; [simpl; auto|vm_compute; reflexivity]).
    apply ut_more with (restricted_of "java.util.List<net.Pet>" "list" []).
    + apply Hd; [simpl; auto|vm_compute; reflexivity].
    + vm_compute. auto.
    + apply ut_one, Hd; [simpl; auto|vm_compute; reflexivity].
  - intros H. apply (H [restricted_of "java.util.List<net.Pet>" "list" []] (nth 1 ts_between (class_of "" [])) (skipn 2 ts_between)
      (nth 3 ts_between (class_of "" []))); [reflexivity|simpl; auto|].
    left. apply Hd; [simpl; auto|vm_compute; reflexivity].
  - intros H. apply (H [] (nth 0 ts_between (class_of "" [])) (skipn 1 ts_between) (nth 1 ts_between (class_of "" [])));
      [reflexivity|simpl; auto|].
    left. apply Hd; [simpl; auto|vm_compute; reflexivity].
Qed.

(** ** Counterexamples *)

Lemma any_order_wrong : exists ts ts' levels,
  regular ts /\ Permutation ts ts' /\ dependencies_first uses ts' /\
  inserts notation dependsOn ts [] = Ret levels /\ ~ dependency_order uses levels.
Proof.
  exists ts_chain.
  exists [ class_of "net.Y" []; class_of "net.X" [field_of "y" "net.Y" []];
    class_of "net.A" [field_of "x" "net.X" []]; 
    class_of "net.P" [field_of "a" "net.A" []]; class_of "net.B" [field_of "p" "net.P" []] ].
  eexists. split; [apply ts_chain_regular|]. split.
  { unfold ts_chain. do 3 constructor. constructor. }
  split.
  { apply first_check. vm_compute. reflexivity. }
  split; [vm_compute; reflexivity|].
  intros H.
  specialize (H (class_of "net.P" [field_of "a" "net.A" []]) (class_of "net.A" [field_of "x" "net.X" []]) 0 2).
  assert (2 < 0); [|lia]. apply H.
  - eexists. split; [reflexivity|]. vm_compute. auto.
  - eexists. split; [reflexivity|]. vm_compute. auto.
  - left. simpl. eexists. split; [left; reflexivity|]. reflexivity.
Qed.

(** A class that uses another only inside a container may share its group. *)
Lemma same_group : exists ts levels a b n,
  regular ts /\ inserts notation dependsOn ts [] = Ret levels /\
  in_group a n levels /\ in_group b n levels /\ uses a b.
Proof.
  exists [ class_of "net.J" [field_of "a" "net.A" []]; class_of "net.B" [];
           class_of "net.A" [field_of "bs" "*" ["java.util.List<net.B>"]] ].
  eexists. exists (class_of "net.A" [field_of "bs" "*" ["java.util.List<net.B>"]]), (class_of "net.B" []), 0.
  split; [apply regular_check; vm_compute; reflexivity|].
  split; [vm_compute; reflexivity|].
  split; [eexists; split; [reflexivity|]; vm_compute; auto|].
  split; [eexists; split; [reflexivity|]; vm_compute; auto|].
  right. simpl. eexists _, _, _. split; [left; reflexivity|]. split; [left; reflexivity|].
  split; [left; reflexivity|]. split; [apply mentions_exactly; vm_compute; reflexivity|]. simpl. auto.
Qed.

Lemma nested_score_wrong : exists j p, entry_ok j /\ entry_ok p /\ n_name j <> n_name p /\
  ~ uses p j /\ uses j p /\ dependsOn j p = Ret 0 /\ dependsOn p j = Ret 1.
Proof.
  exists (class_of "net.A" [field_of "bs" "*" ["java.util.List<net.B>"]]), (class_of "net.B" []).
  assert (E1 : entry_ok (class_of "net.A" [field_of "bs" "*" ["java.util.List<net.B>"]]))
    by (apply entry_okb_spec; vm_compute; reflexivity).
  assert (E2 : entry_ok (class_of "net.B" [])) by (apply entry_okb_spec; vm_compute; reflexivity).
  split; [exact E1|]. split; [exact E2|]. split; [discriminate|].
  split; [rewrite <- usesb_spec by assumption; vm_compute; discriminate|].
  split; [apply usesb_spec; auto; vm_compute; reflexivity|]. split; vm_compute; reflexivity.
Qed.

Lemma array_score_wrong : exists j p, entry_ok j /\ entry_ok p /\ n_name j <> n_name p /\
  uses p j /\ dependsOn j p = Ret 0.
Proof.
  exists (restricted_of "int[]" "list" []), (restricted_of "java.util.List<int[]>" "list" []).
  assert (E1 : entry_ok (restricted_of "int[]" "list" [])) by (apply entry_okb_spec; vm_compute; reflexivity).
  assert (E2 : entry_ok (restricted_of "java.util.List<int[]>" "list" [])) by (apply entry_okb_spec; vm_compute; reflexivity).
  split; [exact E1|]. split; [exact E2|]. split; [discriminate|].
  split; [apply usesb_spec; auto; vm_compute; reflexivity|]. vm_compute; reflexivity.
Qed.

Lemma enum_score_wrong : exists j p, entry_ok j /\ entry_ok p /\ n_name j <> n_name p /\
  ~ uses p j /\ uses j p /\ dependsOn j p = Ret 1.
Proof.
  exists (restricted_of "java.util.Map<string, net.E>" "map" []), (restricted_of "net.E" "list" ["X"; "Y"]).
  assert (E1 : entry_ok (restricted_of "java.util.Map<string, net.E>" "map" [])) by (apply entry_okb_spec; vm_compute; reflexivity).
  assert (E2 : entry_ok (restricted_of "net.E" "list" ["X"; "Y"])) by (apply entry_okb_spec; vm_compute; reflexivity).
  split; [exact E1|]. split; [exact E2|]. split; [discriminate|].
  split; [rewrite <- usesb_spec by assumption; vm_compute; discriminate|].
  split; [apply usesb_spec; auto; vm_compute; reflexivity|]. vm_compute; reflexivity.
Qed.

(** A wildcard property without a required type makes the comparison undefined. *)
Lemma wildcard_undefined : exists j p, made j /\ made p /\ dependsOn j p = Undef.
Proof.
  exists (class_of "net.B" []), (class_of "net.A" [field_of "o" "*" []]).
  split; [constructor|]. split; [|vm_compute; reflexivity].
  repeat constructor. exists "o", "*", [], "", "", true, false. reflexivity.
Qed.

(** ** General forms *)

Theorem inserts_conserve_gen : forall (T : Type) (dep : T -> T -> res nat) (ps : list T),
  (forall j p, In j ps -> In p ps -> exists n, n <= 2 /\ dep j p = Ret n) ->
  exists levels, inserts T dep ps [] = Ret levels /\
    Permutation (concat levels) ps /\ (forall l, In l levels -> l <> []).
Proof.
  intros T dep ps H.
  destruct (inserts_total T dep (fun x => In x ps) H ps []) as (levels & E & Hp & Hn); auto.
  - intros x [].
  - exists levels. split; [exact E|]. split; [now rewrite app_nil_r in Hp|]. apply Hn. intros l [].
Qed.

Lemma FOP_split {A} (R : A -> A -> Prop) l x m y r : ForallOrdPairs R (l ++ x :: m ++ y :: r)%list -> R x y.
Proof.
  induction l as [|a l IH]; simpl; intros H; inversion H; subst; auto.
  rewrite Forall_forall in H2. apply H2. apply in_or_app. simpl; auto.
Qed.

Theorem groups_independent_gen : forall (T : Type) (dep : T -> T -> res nat) (ps : list T) levels,
  (forall j p, In j ps -> In p ps -> exists n, n <= 2 /\ dep j p = Ret n) ->
  (forall j p, In j ps -> In p ps -> (dep j p = Ret 1 <-> dep p j = Ret 2)) ->
  inserts T dep ps [] = Ret levels ->
  forall g l x m y r, In g levels -> g = (l ++ x :: m ++ y :: r)%list -> dep x y = Ret 0 /\ dep y x = Ret 0.
Proof.
  intros T dep ps levels Hs Hsym E g l x m y r Hg ->.
  assert (H0 : forall j p, In j ps -> In p ps -> dep j p = Ret 0 -> dep p j = Ret 0).
  { intros j p Hj Hp H. destruct (Hs p j Hp Hj) as (n & Hn & En). destruct n as [|[|[|n]]]; [exact En| | |lia].
    - apply Hsym in En; auto. congruence.
    - apply Hsym in En; auto. congruence. }
  assert (Hi := inserts_indep T dep (fun x => In x ps) Hs H0 ps [] levels
                  (fun x H => H) (fun x H => match H with end) (Forall_nil _) E).
  unfold indep in Hi. rewrite Forall_forall in Hi. specialize (Hi _ Hg).
  apply FOP_split in Hi. exact Hi.
Qed.

Theorem order_first_gen : forall (T : Type) (dep : T -> T -> res nat) (depends : T -> T -> Prop) ps,
  (forall j p, In j ps -> In p ps -> j <> p -> reports depends dep j p) ->
  (forall x, In x ps -> ~ depends x x) -> NoDup ps -> dependencies_first depends ps ->
  exists levels, inserts T dep ps [] = Ret levels /\
    Permutation (concat levels) ps /\ dependency_order depends levels.
Proof.
  intros T dep depends ps H1 H2 H3 H4.
  apply (inserts_dependencies_first T dep depends depends (fun x => In x ps)); auto.
Qed.

Theorem order_last_gen : forall (T : Type) (dep : T -> T -> res nat) (depends : T -> T -> Prop) ps,
  (forall j p, In j ps -> In p ps -> j <> p -> reports depends dep j p) ->
  (forall x, In x ps -> ~ depends x x) -> NoDup ps -> dependencies_last depends ps ->
  exists levels, inserts T dep ps [] = Ret levels /\
    Permutation (concat levels) ps /\ dependency_order depends levels.
Proof.
  intros T dep depends ps H1 H2 H3 H4.
  apply (inserts_dependencies_last T dep depends depends (fun x => In x ps)); auto.
  intros x y Hx Hy Hd. exists x. auto.
Qed.

Lemma in_firstn_group {T} (x : T) k levels : In x (concat (firstn k levels)) -> exists n, n < k /\ in_group x n levels.
Proof.
  revert k. induction levels as [|l ls IH]; intros [|k] H; simpl in H; try (destruct H; fail).
  apply in_app_or in H as [H|H].
  - exists 0. split; [lia|]. exists l. auto.
  - destruct (IH k H) as (n & Hn & g & Hg & Hx). exists (S n). split; [lia|]. exists g. auto.
Qed.
Lemma in_skipn_group {T} (x : T) k levels : In x (concat (skipn k levels)) -> exists n, k <= n /\ in_group x n levels.
Proof.
  revert k. induction levels as [|l ls IH]; intros [|k] H; simpl in H; try (destruct H; fail).
  - apply in_app_or in H as [H|H].
    + exists 0. split; [lia|]. exists l. auto.
    + destruct (IH 0 H) as (n & Hn & g & Hg & Hx). exists (S n). split; [lia|]. exists g. auto.
  - destruct (IH k H) as (n & Hn & g & Hg & Hx). exists (S n). split; [lia|]. exists g. auto.
Qed.

Theorem insert_keeps_order : forall (T : Type) (dep : T -> T -> res nat) (depends : T -> T -> Prop) p levels k,
  (forall a b, In a (p :: concat levels) -> In b (p :: concat levels) -> a <> b -> reports depends dep a b) ->
  (forall a, In a (p :: concat levels) -> ~ depends a a) ->
  NoDup (p :: concat levels) -> dependency_order depends levels ->
  (forall x n, in_group x n levels -> depends p x -> n < k) ->
  (forall x n, in_group x n levels -> depends x p -> k <= n) ->
  exists levels', insert T dep p levels = Ret levels' /\
    Permutation (concat levels') (p :: concat levels) /\ dependency_order depends levels'.
Proof.
  intros T dep depends p levels k H1 H2 H3 H4 H5 H6.
  destruct (insert_ordered T dep depends depends (fun x => In x (p :: concat levels))) with (p := p) (levels := levels)
    as (levels' & E & Hp & Ho); auto.
  - now apply ordered_spec.
  - split.
    + intros x Hx Hd. exists x. auto.
    + intros e He _ x Hx Hd. exists x. auto.
  - exists k. split.
    + intros x Hx Hd. destruct (in_firstn_group x k levels Hx) as (n & Hn & Hg). specialize (H6 x n Hg Hd). lia.
    + intros x Hx Hd. destruct (in_skipn_group x k levels Hx) as (n & Hn & Hg). specialize (H5 x n Hg Hd). lia.
  - exists levels'. split; [exact E|]. split; [exact Hp|]. now apply ordered_spec.
Qed.

Theorem insert_right_exactly : forall (T : Type) (dep : T -> T -> res nat) (depends : T -> T -> Prop) p levels,
  (forall a b, In a (p :: concat levels) -> In b (p :: concat levels) -> a <> b -> reports depends dep a b) ->
  (forall a, In a (p :: concat levels) -> ~ depends a a) ->
  (forall a, In a (concat levels) -> depends a p -> ~ depends p a) ->
  NoDup (p :: concat levels) -> dependency_order depends levels ->
  exists levels', insert T dep p levels = Ret levels' /\ Permutation (concat levels') (p :: concat levels) /\
    (dependency_order depends levels' <->
     forall x y n m, in_group x n levels -> in_group y m levels -> depends x p -> depends p y -> m <= n).
Proof.
  intros T dep depends p levels H1 H2 H3 H4 H5.
  apply (insert_exactly T dep depends (fun x => In x (p :: concat levels))); auto.
Qed.

Theorem order_bridged_gen : forall (T : Type) (dep : T -> T -> res nat) (depends : T -> T -> Prop) ps,
  (forall j p, In j ps -> In p ps -> j <> p -> reports depends dep j p) ->
  (forall x, In x ps -> ~ depends x x) -> NoDup ps -> bridged depends ps ->
  exists levels, inserts T dep ps [] = Ret levels /\
    Permutation (concat levels) ps /\ dependency_order depends levels.
Proof.
  intros T dep depends ps H1 H2 H3 H4.
  apply (inserts_bridged T dep depends depends (fun x => In x ps)); auto.
  intros l p r _. apply all_visible.
Qed.

Theorem scores_right : forall j p,
  entry_ok j -> entry_ok p -> n_name j <> n_name p ->
  ~ is_kind array_t j -> ~ is_kind enum_t j -> ~ is_kind array_t p -> ~ is_kind enum_t p ->
  (nested_use j p -> direct j p) ->
  right_score j p (dependsOn j p).
Proof.
  intros j p Ej Ep Hne A1 A2 A3 A4 Hn. apply no_nested_right; auto; unfold blind_pair; tauto.
Qed.

Theorem array_enum_scores : forall j p,
  entry_ok j -> entry_ok p -> n_name j <> n_name p ->
  (is_kind array_t j \/ is_kind enum_t j \/ is_kind array_t p \/ is_kind enum_t p) ->
  ~ blind_pair j p -> ~ blind_pair p j ->
  right_score j p (dependsOn j p).
Proof.
  intros j p Ej Ep Hne Hk B1 B2. apply no_nested_right; auto.
  intros [H _]. destruct j, p; simpl in *; tauto.
Qed.

Lemma ts_chain_ok : regular ts_chain /\
  (forall x y, In x ts_chain -> In y ts_chain -> nested_use x y -> direct x y) /\
  (forall x y, In x ts_chain -> In y ts_chain -> direct x y -> ~ direct y x).
Proof.
  assert (Hr := ts_chain_regular). assert (Hok := regular_sub _ Hr). split; [exact Hr|].
  assert (Hd : forall x y, In x ts_chain -> In y ts_chain -> direct x y <-> directb x y = true).
  { intros x y Hx Hy. symmetry. apply directb_spec. now apply Hok. }
  split; intros x y Hx Hy H.
  - rewrite Hd by assumption. assert (Hu : usesb x y = true) by (apply usesb_spec; auto; now right).
    clear H Hd. unfold ts_chain in Hx, Hy. simpl In in Hx, Hy.
    repeat destruct Hx as [Hx|Hx]; try (destruct Hx; fail); subst x;
    repeat destruct Hy as [Hy|Hy]; try (destruct Hy; fail); subst y;
    try (vm_compute in Hu; discriminate); vm_compute; reflexivity.
  - rewrite Hd in * by assumption. intros H'. clear Hd. unfold ts_chain in Hx, Hy. simpl In in Hx, Hy.
    repeat destruct Hx as [Hx|Hx]; try (destruct Hx; fail); subst x;
    repeat destruct Hy as [Hy|Hy]; try (destruct Hy; fail); subst y;
    vm_compute in H, H'; discriminate.
Qed.
