(** Proofs about type names (C04-C09). *)
From Coq Require Import Lia.
From Verif Require Import Base TypeNames SpecTypes.
Open Scope string_scope.

(** ** Strings *)

Lemma app_assoc_s : forall a b c : string, (a ++ b) ++ c = a ++ (b ++ c).
Proof. induction a as [|x a IH]; intros b c; [reflexivity|]. simpl. now rewrite IH. Qed.

Lemma app_nil_r_s : forall a : string, a ++ "" = a.
Proof. induction a as [|x a IH]; [reflexivity|]. simpl. now rewrite IH. Qed.

Lemma length_app_s : forall a b : string,
    String.length (a ++ b) = String.length a + String.length b.
Proof. induction a as [|x a IH]; intros b; simpl; [reflexivity|]. now rewrite IH. Qed.

Lemma substring_0_le : forall s n, String.length s <= n -> substring 0 n s = s.
Proof.
  induction s as [|x s IH]; intros n H; destruct n as [|n]; simpl in *; try reflexivity; try lia.
  rewrite IH by lia. reflexivity.
Qed.

Lemma substring_0_app : forall a b, substring 0 (String.length a) (a ++ b) = a.
Proof. induction a as [|x a IH]; intros b; simpl; [now destruct b|]. now rewrite IH. Qed.

Lemma substring_skip : forall a b n, substring (String.length a) n (a ++ b) = substring 0 n b.
Proof. induction a as [|x a IH]; intros b n; simpl; [reflexivity|]. apply IH. Qed.

Lemma substr_prefix a b : substr (a ++ b) 0 (String.length a) = Ret a.
Proof. unfold substr. simpl. now rewrite substring_0_app. Qed.

Lemma substr_mid a b c : substr (a ++ b ++ c) (String.length a) (String.length b) = Ret b.
Proof.
  unfold substr. rewrite length_app_s.
  destruct (Nat.leb_spec (String.length a) (String.length a + String.length (b ++ c))); [|lia].
  now rewrite substring_skip, substring_0_app.
Qed.

Lemma chars_app a b : chars (a ++ b) = (chars a ++ chars b)%list.
Proof. unfold chars. induction a as [|x a IH]; simpl; [reflexivity|]. now rewrite IH. Qed.

Lemma chars_inj a b : chars a = chars b -> a = b.
Proof.
  unfold chars; intros H.
  rewrite <- (string_of_list_ascii_of_string a), <- (string_of_list_ascii_of_string b).
  now rewrite H.
Qed.

Lemma find_char_app c a b :
  ~ has c a -> find_char c (a ++ String c b) = Some (String.length a).
Proof.
  unfold has. induction a as [|x a IH]; intros H; simpl.
  - now rewrite Ascii.eqb_refl.
  - destruct (Ascii.eqb_spec c x) as [->|Hne]; [exfalso; apply H; simpl; auto|].
    rewrite IH; [reflexivity|]. intros Hin; apply H; simpl; auto.
Qed.

Lemma find_char_none c a : ~ has c a -> find_char c a = None.
Proof.
  unfold has. induction a as [|x a IH]; intros H; simpl; [reflexivity|].
  destruct (Ascii.eqb_spec c x) as [->|Hne]; [exfalso; apply H; simpl; auto|].
  rewrite IH; [reflexivity|]. intros Hin; apply H; simpl; auto.
Qed.

Lemma find_char_some c s n : find_char c s = Some n ->
  exists a b, s = a ++ String c b /\ String.length a = n /\ ~ has c a.
Proof.
  revert n; induction s as [|x s IH]; intros n H; simpl in H; [discriminate|].
  destruct (Ascii.eqb_spec c x) as [->|Hne].
  - injection H as <-. exists "", s. repeat split; auto.
  - destruct (find_char c s) as [m|] eqn:E; [|discriminate].
    injection H as <-. destruct (IH m eq_refl) as (a & b & -> & Hl & Hn).
    exists (String x a), b. simpl. repeat split; [now rewrite Hl|].
    intros [->|Hin]; [now apply Hne|]. now apply Hn.
Qed.

Lemma find_char_none_inv c s : find_char c s = None -> ~ has c s.
Proof.
  unfold has. induction s as [|x s IH]; simpl; intros H; [tauto|].
  destruct (Ascii.eqb_spec c x) as [->|Hne]; [discriminate|].
  destruct (find_char c s) as [m|] eqn:E; [discriminate|].
  intros [->|Hin]; [congruence|]. now apply IH.
Qed.

Lemma starts_with_spec p s : starts_with p s = true <-> begins_with p s.
Proof.
  revert s; induction p as [|x p IH]; intros s.
  - split; [intros _; exists s; reflexivity|reflexivity].
  - destruct s as [|y s]; simpl.
    + split; [discriminate|]. intros [r Hr]. discriminate.
    + rewrite andb_true_iff, IH. split.
      * intros [He [r ->]]. apply Ascii.eqb_eq in He as ->. exists r. reflexivity.
      * intros [r Hr]. simpl in Hr. injection Hr as -> ->.
        split; [apply Ascii.eqb_refl|]. exists r. reflexivity.
Qed.

Lemma starts_with_app p s : starts_with p (p ++ s) = true.
Proof. apply starts_with_spec. exists s. reflexivity. Qed.

Lemma not_starts_with p s : ~ begins_with p s -> starts_with p s = false.
Proof.
  intros H. destruct (starts_with p s) eqn:E; [|reflexivity].
  now apply starts_with_spec in E.
Qed.

(** ** unbox *)

Lemma assoc_find {A} k (l : list (string * A)) :
  assoc k l = option_map snd (find (fun p => String.eqb (fst p) k) l).
Proof.
  induction l as [|[k' a] l IH]; simpl; [reflexivity|].
  rewrite (String.eqb_sym k' k). destruct (String.eqb k k'); [reflexivity|exact IH].
Qed.

Lemma unbox_spec n : unbox n = unboxed_name n.
Proof.
  unfold unbox, unboxed_name. rewrite assoc_find.
  change boxedToUnboxed with boxed_table.
  destruct (find _ boxed_table) as [[k u]|]; reflexivity.
Qed.

(** ** listType *)

Theorem listType_spec : forall c t,
    ~ has "<" c ->
    listType (c ++ "<" ++ t ++ ">") = Ret (unboxed_name c, unboxed_name t).
Proof.
  intros c t Hc. unfold listType.
  change (c ++ "<" ++ t ++ ">") with (c ++ String "<" (t ++ ">")).
  rewrite find_char_app by assumption.
  rewrite substr_prefix. cbn [rbind].
  replace (c ++ String "<" (t ++ ">")) with ((c ++ "<") ++ t ++ ">")
    by (now rewrite app_assoc_s).
  replace (String.length c + 1) with (String.length (c ++ "<"))
    by (rewrite length_app_s; reflexivity).
  replace (String.length ((c ++ "<") ++ t ++ ">") - String.length c - 2)
    with (String.length t) by (rewrite !length_app_s; simpl; lia).
  rewrite substr_mid. cbn [rbind].
  now rewrite !unbox_spec.
Qed.

(** ** mapType *)

Lemma comma_scan_app b s : bracketed b s -> forall n rest,
    (0 <= n)%Z -> (b = false \/ 0 < n)%Z ->
    comma_scan (s ++ rest) n = String.length s + comma_scan rest n.
Proof.
  induction 1 as [c|c x s Hl Hr Hc Hs IH|s Hs IH|c i s Hi IHi Hs IHs]; intros n rest Hn Hb.
  - reflexivity.
  - simpl. rewrite (proj2 (Ascii.eqb_neq x "<") Hl), (proj2 (Ascii.eqb_neq x ">") Hr),
      (proj2 (Ascii.eqb_neq x ",") Hc). simpl. now rewrite IH.
  - simpl. destruct Hb as [Hb|Hb]; [discriminate|].
    destruct (Z.eqb_spec n 0); [lia|]. rewrite IH; auto.
  - rewrite !app_assoc_s. simpl. rewrite IHi by lia. simpl.
    replace (n + 1 - 1)%Z with n by lia. rewrite IHs by assumption.
    simpl. rewrite length_app_s. simpl. lia.
Qed.

Lemma drop_blanks_spec g v : blanks g -> ~ begins_with " " v -> drop_blanks (g ++ v) = v.
Proof.
  unfold blanks. induction g as [|x g IH]; intros Hb Hv; simpl.
  - destruct v as [|y v]; [reflexivity|]. simpl.
    destruct (Ascii.eqb_spec y " ") as [->|]; [|reflexivity].
    exfalso. apply Hv. exists v. reflexivity.
  - inversion Hb; subst. simpl. now apply IH.
Qed.

Theorem mapType_gen : forall c k v,
    ~ has "<" c -> bracketed false k ->
    mapType (c ++ "<" ++ k ++ "," ++ v ++ ">")
    = Ret (c, unboxed_name (drop_blanks k), unboxed_name (drop_blanks v)).
Proof.
  intros c k v Hc Hk. unfold mapType.
  change (c ++ "<" ++ k ++ "," ++ v ++ ">") with (c ++ String "<" (k ++ "," ++ v ++ ">")).
  rewrite find_char_app by assumption.
  set (w := c ++ String "<" (k ++ "," ++ v ++ ">")).
  assert (Hw : w = (c ++ "<") ++ k ++ "," ++ v ++ ">") by (unfold w; now rewrite app_assoc_s).
  assert (Hst : String.length c + 1 = String.length (c ++ "<"))
    by (rewrite length_app_s; reflexivity).
  assert (Ht : substr w (String.length c + 1) (String.length w) = Ret (k ++ "," ++ v ++ ">")).
  { rewrite Hst. unfold substr.
    destruct (Nat.leb_spec (String.length (c ++ "<")) (String.length w)) as [_|Hlt].
    - rewrite Hw at 2. rewrite substring_skip. f_equal. apply substring_0_le.
      rewrite Hw, (length_app_s (c ++ "<")). lia.
    - exfalso. rewrite Hw, (length_app_s (c ++ "<")) in Hlt. lia. }
  rewrite Ht. cbn [rbind].
  rewrite (comma_scan_app false k Hk 0 ("," ++ v ++ ">")) by (auto; lia).
  replace (comma_scan ("," ++ v ++ ">") 0) with 0 by reflexivity.
  rewrite Nat.add_0_r.
  unfold w at 1. rewrite substr_prefix. cbn [rbind].
  replace (String.length c + 1 + String.length k - (String.length c + 1))
    with (String.length k) by lia.
  rewrite Hst, Hw. rewrite substr_mid. cbn [rbind].
  replace ((c ++ "<") ++ k ++ "," ++ v ++ ">") with (((c ++ "<") ++ k ++ ",") ++ v ++ ">")
    by (now rewrite !app_assoc_s).
  replace (String.length (c ++ "<") + String.length k + 1)
    with (String.length ((c ++ "<") ++ k ++ ","))
    by (rewrite !length_app_s; simpl; lia).
  replace (String.length (((c ++ "<") ++ k ++ ",") ++ v ++ ">") -
           (String.length (c ++ "<") + String.length k + 2))
    with (String.length v) by (rewrite !length_app_s; simpl; lia).
  rewrite substr_mid. cbn [rbind].
  now rewrite !unbox_spec.
Qed.

Theorem mapType_spec : forall c k g v,
    ~ has "<" c -> bracketed false k -> ~ begins_with " " k ->
    blanks g -> ~ begins_with " " v ->
    mapType (c ++ "<" ++ k ++ "," ++ g ++ v ++ ">")
    = Ret (c, unboxed_name k, unboxed_name v).
Proof.
  intros c k g v Hc Hk Hkb Hg Hv.
  pose proof (mapType_gen c k (g ++ v) Hc Hk) as H. rewrite app_assoc_s in H.
  rewrite H. rewrite drop_blanks_spec by assumption.
  rewrite <- (drop_blanks_spec "" k) at 2; [reflexivity|constructor|assumption].
Qed.

(** ** nestedGenericTypes *)

Lemma unbox_length s : String.length (unbox s) <= String.length s.
Proof.
  unfold unbox. destruct (assoc s boxedToUnboxed) as [u|] eqn:E; [|lia].
  unfold boxedToUnboxed in E. simpl in E.
  repeat match type of E with
         | (if String.eqb s ?k then _ else _) = _ =>
             destruct (String.eqb_spec s k) as [->|_];
             [injection E as <-; simpl; lia|]
         end.
  discriminate.
Qed.

Lemma substring_length s n m : String.length (substring n m s) <= String.length s - n.
Proof.
  revert n m; induction s as [|x s IH]; intros n m; destruct n, m; simpl; try lia.
  - specialize (IH 0 m). lia.
  - specialize (IH n 0). lia.
  - specialize (IH n (S m)). lia.
Qed.

Lemma substring_length_le s n m : String.length (substring n m s) <= m.
Proof.
  revert n m; induction s as [|x s IH]; intros n m; destruct n, m; simpl; try lia.
  - specialize (IH 0 m). lia.
  - specialize (IH n 0). lia.
  - specialize (IH n (S m)). lia.
Qed.

Lemma substr_Ret s n m r : substr s n m = Ret r -> n <= String.length s /\ r = substring n m s.
Proof.
  unfold substr. destruct (Nat.leb_spec n (String.length s)); [|discriminate].
  intros H'; injection H' as <-. auto.
Qed.

Lemma substr_ok s n m : n <= String.length s -> substr s n m = Ret (substring n m s).
Proof. unfold substr. intros H. destruct (Nat.leb_spec n (String.length s)); [reflexivity|lia]. Qed.

Lemma starts_with_length p s : starts_with p s = true -> String.length p <= String.length s.
Proof. intros H. apply starts_with_spec in H as [r ->]. rewrite length_app_s. lia. Qed.

Lemma listType_cases s : exists a b, listType s = Ret (a, b) /\
  (s <> "" -> String.length b < String.length s).
Proof.
  unfold listType. destruct (find_char "<" s) as [n|] eqn:E.
  - destruct (find_char_some _ _ _ E) as (x & y & Hs & Hn & _).
    assert (Hlen : String.length s = n + S (String.length y))
      by (rewrite Hs, length_app_s; simpl; lia).
    unfold substr. simpl.
    destruct (Nat.leb_spec (n + 1) (String.length s)); [|lia]. simpl.
    eexists _, _. split; [reflexivity|]. intros _.
    eapply Nat.le_lt_trans; [apply unbox_length|].
    pose proof (substring_length s (n + 1) (String.length s - n - 2)). lia.
  - unfold substr. simpl. eexists _, _. split; [reflexivity|]. intros Hne.
    eapply Nat.le_lt_trans; [apply unbox_length|].
    pose proof (substring_length_le s 0 (String.length s - 1)).
    destruct s; [congruence|]. simpl in *. lia.
Qed.

Lemma drop_blanks_length s : String.length (drop_blanks s) <= String.length s.
Proof.
  induction s as [|x s IH]; simpl; [lia|]. destruct (Ascii.eqb x " "); simpl; lia.
Qed.

Lemma mapType_cases s :
  (exists a k v, mapType s = Ret (a, k, v) /\
     String.length k < String.length s /\ String.length v < String.length s)
  \/ mapType s = Exc OutOfRange.
Proof.
  unfold mapType.
  set (start := match find_char "<" s with Some p => p + 1 | None => 0 end).
  assert (Hst : start <= String.length s).
  { unfold start. destruct (find_char "<" s) as [n|] eqn:E; [|lia].
    destruct (find_char_some _ _ _ E) as (x & y & Hs & Hn & _).
    rewrite Hs, length_app_s. simpl. lia. }
  rewrite (substr_ok s start) by assumption.
  cbn [rbind].
  set (idx := start + comma_scan _ 0).
  assert (Hm : exists m, match find_char "<" s with Some pos => substr s 0 pos | None => Ret s end
                         = Ret m).
  { destruct (find_char "<" s); [|eauto]. unfold substr. simpl. eauto. }
  destruct Hm as [m Hm]. rewrite Hm. cbn [rbind].
  rewrite (substr_ok s start) by assumption.
  cbn [rbind].
  unfold substr. destruct (Nat.leb_spec (idx + 1) (String.length s)) as [Hi|Hi]; [|right; reflexivity].
  left. cbn [rbind]. eexists _, _, _. split; [reflexivity|]. split.
  - eapply Nat.le_lt_trans; [apply unbox_length|].
    eapply Nat.le_lt_trans; [apply drop_blanks_length|].
    pose proof (substring_length_le s start (idx - start)). lia.
  - eapply Nat.le_lt_trans; [apply unbox_length|].
    eapply Nat.le_lt_trans; [apply drop_blanks_length|].
    pose proof (substring_length s (idx + 1) (String.length s - (idx + 2))). lia.
Qed.

Lemma nested_total : forall fuel s, String.length s < fuel ->
  (exists l, nested fuel s = Ret l) \/ nested fuel s = Exc OutOfRange.
Proof.
  induction fuel as [|fuel IH]; intros s Hf; [lia|]. cbn [nested].
  destruct (isList s) eqn:EL.
  - apply starts_with_length in EL. simpl in EL.
    destruct (listType_cases s) as (a & b & Hl & Hb). rewrite Hl. cbn [rbind].
    assert (Hb' : String.length b < fuel).
    { assert (String.length b < String.length s) by (apply Hb; intros ->; simpl in EL; lia). lia. }
    destruct (IH b Hb') as [[l ->]| ->]; cbn [rbind]; eauto.
  - destruct (isMap s) eqn:EM; [|eauto].
    destruct (mapType_cases s) as [(a & k & v & Hm & Hk & Hv)|Hm]; rewrite Hm; cbn [rbind]; auto.
    destruct (IH k ltac:(lia)) as [[l ->]| ->]; cbn [rbind]; auto.
    destruct (IH v ltac:(lia)) as [[l' ->]| ->]; cbn [rbind]; eauto.
Qed.

(** More fuel does not matter. *)
Lemma nested_fuel : forall f1 f2 s, String.length s < f1 -> String.length s < f2 ->
  nested f1 s = nested f2 s.
Proof.
  induction f1 as [|f1 IH]; intros f2 s H1 H2; [lia|].
  destruct f2 as [|f2]; [lia|]. cbn [nested].
  destruct (isList s) eqn:EL.
  - apply starts_with_length in EL. simpl in EL.
    destruct (listType_cases s) as (a & b & Hl & Hb). rewrite Hl. cbn [rbind].
    assert (String.length b < String.length s) by (apply Hb; intros ->; simpl in EL; lia).
    now rewrite (IH f2 b) by lia.
  - destruct (isMap s); [|reflexivity].
    destruct (mapType_cases s) as [(a & k & v & Hm & Hk & Hv)|Hm]; rewrite Hm; cbn [rbind]; auto.
    rewrite (IH f2 k), (IH f2 v) by lia. reflexivity.
Qed.

Theorem nestedGenericTypes_total : forall s,
  (exists l, nestedGenericTypes s = Ret l) \/ nestedGenericTypes s = Exc OutOfRange.
Proof. intros s. apply nested_total. lia. Qed.

Lemma not_has_cons c x s : ~ has c (String x s) -> c <> x /\ ~ has c s.
Proof. unfold has; simpl; intuition. Qed.

Lemma plain_bracketed n b : ~ has "<" n -> ~ has ">" n -> ~ has "," n -> bracketed b n.
Proof.
  induction n as [|x n IH]; intros H1 H2 H3; [constructor|].
  apply not_has_cons in H1 as [? ?], H2 as [? ?], H3 as [? ?].
  apply br_char; auto.
Qed.

Lemma bracketed_app b s t : bracketed b s -> bracketed b t -> bracketed b (s ++ t).
Proof.
  induction 1 as [c|c x s Hl Hr Hc Hs IH|s Hs IH|c i s Hi IHi Hs IHs]; intros Ht.
  - exact Ht.
  - simpl. apply br_char; auto.
  - simpl. apply br_comma; auto.
  - rewrite !app_assoc_s. apply br_group; auto.
Qed.

Lemma bracketed_weaken b s : bracketed b s -> bracketed true s.
Proof.
  induction 1; [constructor|apply br_char; auto|apply br_comma; auto|apply br_group; auto].
Qed.

Lemma blanks_bracketed b g : blanks g -> bracketed b g.
Proof.
  unfold blanks. induction g as [|x g IH]; intros H; [constructor|].
  inversion H; subst. apply br_char; try discriminate. now apply IH.
Qed.

Definition wf_names (t : texp) : Prop := Forall plain (names t).

Lemma bracketed_group_end b c i : bracketed b c -> bracketed true i -> bracketed b (c ++ "<" ++ i ++ ">").
Proof.
  intros Hc Hi. apply bracketed_app; [exact Hc|].
  replace ("<" ++ i ++ ">") with ("<" ++ i ++ ">" ++ "") by reflexivity.
  apply br_group; [exact Hi|constructor].
Qed.

Ltac solve_lit := repeat (apply br_char; [discriminate|discriminate|discriminate|]); apply br_nil.

Lemma print_bracketed g t b : blanks g -> wf_names t -> bracketed b (print g t).
Proof.
  intros Hg; revert b; unfold wf_names.
  induction t as [n|e IH|k IHk v IHv]; intros b H; simpl names in H; cbn [print].
  - inversion H as [|? ? (?&?&?&?) ?]; subst. now apply plain_bracketed.
  - change ("java.util.List<" ++ print g e ++ ">") with ("java.util.List" ++ "<" ++ print g e ++ ">").
    apply bracketed_group_end; [solve_lit|]. now apply IH.
  - apply Forall_app in H as [Hk Hv].
    replace ("java.util.Map<" ++ print g k ++ "," ++ g ++ print g v ++ ">")
      with ("java.util.Map" ++ "<" ++ (print g k ++ "," ++ g ++ print g v) ++ ">")
      by (rewrite !app_assoc_s; reflexivity).
    apply bracketed_group_end; [solve_lit|].
    apply bracketed_app; [now apply IHk|].
    apply (br_comma (g ++ print g v)).
    apply bracketed_app; [now apply blanks_bracketed|now apply IHv].
Qed.

Lemma print_no_blank g t : wf_names t -> ~ begins_with " " (print g t).
Proof.
  unfold wf_names. destruct t as [n|e|k v]; simpl; intros H.
  - inversion H as [|? ? (?&?&?&?&?) ?]; subst. assumption.
  - intros [r Hr]. discriminate.
  - intros [r Hr]. discriminate.
Qed.

Lemma unboxed_name_not_container n :
  begins_with "java.util.List" n \/ begins_with "java.util.Map" n -> unboxed_name n = n.
Proof.
  intros H. unfold unboxed_name, boxed_table. cbn [find fst].
  repeat match goal with
         | |- context [String.eqb ?k n] =>
             destruct (String.eqb_spec k n) as [<-|_];
             [exfalso; destruct H as [[r Hr]|[r Hr]]; discriminate Hr|]
         end.
  reflexivity.
Qed.

Lemma unboxed_print g t : unboxed_name (print g t) = print g (unbox_if_name t).
Proof.
  destruct t as [n|e|k v]; cbn [unbox_if_name print]; [reflexivity| |].
  - apply unboxed_name_not_container. left. exists ("<" ++ print g e ++ ">"). reflexivity.
  - apply unboxed_name_not_container. right.
    exists ("<" ++ print g k ++ "," ++ g ++ print g v ++ ">"). reflexivity.
Qed.

Lemma unboxed_plain n : plain n -> plain (unboxed_name n).
Proof.
  intros H. unfold unboxed_name, boxed_table. cbn [find fst].
  assert (A : forall a, In a ["int"; "bool"; "char"; "short"; "float"; "long"; "double"] -> plain a).
  { intros a Ha. unfold plain, has, begins_with. simpl in Ha.
    repeat (destruct Ha as [<-|Ha]; [repeat split; simpl;
      first [ intros [r Hr]; discriminate Hr | intuition discriminate ]|]).
    contradiction. }
  repeat match goal with
         | |- context [String.eqb ?k n] =>
             destruct (String.eqb_spec k n) as [_|_]; [apply A; simpl; tauto|]
         end.
  exact H.
Qed.

Lemma print_isList_name n : plain n -> isList n = false /\ isMap n = false.
Proof.
  intros (_&_&_&_&H1&H2). unfold isList, isMap. split; now apply not_starts_with.
Qed.

Lemma nested_inner g : blanks g -> forall t fuel, wf_names t ->
  String.length (print g (unbox_if_name t)) < fuel ->
  nested fuel (print g (unbox_if_name t)) = Ret (map (fun c => print g (unbox_if_name c)) (components t)).
Proof.
  intros Hg. induction t as [n|e IH|k IHk v IHv]; intros fuel Hwf Hf;
    (destruct fuel as [|fuel]; [lia|]).
  - cbn [unbox_if_name print components map nested].
    inversion Hwf; subst.
    destruct (print_isList_name (unboxed_name n)) as [-> ->]; [now apply unboxed_plain|].
    reflexivity.
  - cbn [unbox_if_name] in Hf |- *. cbn [nested].
    change (isList (print g (TListOf e))) with true. cbv iota.
    change (print g (TListOf e)) with ("java.util.List" ++ "<" ++ print g e ++ ">") at 1.
    rewrite listType_spec by (unfold has; simpl; intuition discriminate).
    cbn [rbind].
    rewrite unboxed_print.
    rewrite IH; [reflexivity|exact Hwf|].
    rewrite <- unboxed_print.
    pose proof (unbox_length (print g e)) as Hu. rewrite unbox_spec in Hu.
    cbn [print] in Hf. repeat (rewrite length_app_s in Hf || simpl String.length in Hf). lia.
  - cbn [unbox_if_name] in Hf |- *. cbn [nested].
    change (isList (print g (TMapOf k v))) with false.
    change (isMap (print g (TMapOf k v))) with true. cbv iota.
    apply Forall_app in Hwf as [Hk Hv].
    change (print g (TMapOf k v))
      with ("java.util.Map" ++ "<" ++ print g k ++ "," ++ g ++ print g v ++ ">") at 1.
    rewrite mapType_spec; [|unfold has; simpl; intuition discriminate
      |now apply print_bracketed|now apply print_no_blank|exact Hg|now apply print_no_blank].
    cbn [rbind]. rewrite !unboxed_print.
    cbn [print] in Hf. repeat (rewrite length_app_s in Hf || simpl String.length in Hf).
    pose proof (unbox_length (print g k)) as Huk. rewrite unbox_spec, unboxed_print in Huk.
    pose proof (unbox_length (print g v)) as Huv. rewrite unbox_spec, unboxed_print in Huv.
    rewrite IHk by (auto; lia). cbn [rbind].
    rewrite IHv by (auto; lia). cbn [rbind].
    cbn [components map unbox_if_name]. rewrite map_app. reflexivity.
Qed.

(** Expected result of flattening: the type itself as written, then its
    components with boxed primitives unboxed. *)
Theorem nestedGenericTypes_spec : forall g t, blanks g -> wf_names t ->
  nestedGenericTypes (print g t) = Ret (print g t :: map (fun c => print g (unbox_if_name c)) (tl (components t))).
Proof.
  intros g t Hg Hwf. unfold nestedGenericTypes.
  destruct t as [n|e|k v].
  - cbn [nested print]. inversion Hwf; subst.
    destruct (print_isList_name n) as [-> ->]; [assumption|]. reflexivity.
  - exact (nested_inner g Hg (TListOf e) _ Hwf (Nat.lt_succ_diag_r _)).
  - exact (nested_inner g Hg (TMapOf k v) _ Hwf (Nat.lt_succ_diag_r _)).
Qed.

(** ** Arrays (C08) *)

Lemma finishes_rev p s : finishes_with p s <-> exists l, rev (chars s) = (rev (chars p) ++ l)%list.
Proof.
  split.
  - intros [l ->]. rewrite chars_app, rev_app_distr. eauto.
  - intros [l Hl]. exists (string_of_list_ascii (rev l)).
    apply chars_inj. rewrite chars_app. unfold chars at 2.
    rewrite list_ascii_of_string_of_list_ascii.
    rewrite <- (rev_involutive (chars s)), Hl, rev_app_distr, !rev_involutive. reflexivity.
Qed.

Lemma rev_chars_eq s p : s = p <-> rev (chars s) = rev (chars p).
Proof.
  split; [now intros ->|]. intros H. apply chars_inj.
  rewrite <- (rev_involutive (chars s)), H. apply rev_involutive.
Qed.

Theorem isArray_spec : forall s,
  (isArray s = Undef /\ (s = "" \/ s = "]" \/ s = "p]")) \/
  (isArray s = Ret true /\ (finishes_with "[]" s \/ finishes_with "[p]" s)) \/
  (isArray s = Ret false /\ ~ finishes_with "[]" s /\ ~ finishes_with "[p]" s /\
   s <> "" /\ s <> "]" /\ s <> "p]").
Proof.
  intros s. rewrite !finishes_rev, !(rev_chars_eq s). unfold isArray.
  generalize (rev (chars s)). intros r. simpl.
  destruct r as [|a r]; [left; auto|]. simpl.
  destruct (Ascii.eqb_spec a "]") as [->|Ha]; simpl.
  2:{ right; right. split; [reflexivity|].
      repeat split; try (intros [l Hl]; injection Hl; congruence); congruence. }
  destruct r as [|b r]; [left; auto|]. simpl.
  destruct (Ascii.eqb_spec b "[") as [->|Hb]; simpl.
  { right; left. split; [reflexivity|]. left. exists r. reflexivity. }
  destruct (Ascii.eqb_spec b "p") as [->|Hp]; simpl.
  2:{ right; right. split; [reflexivity|].
      repeat split; try (intros [l Hl]; injection Hl; congruence); congruence. }
  destruct r as [|c r]; [left; auto|]. simpl.
  destruct (Ascii.eqb_spec c "[") as [->|Hc]; simpl.
  { right; left. split; [reflexivity|]. right. exists r. reflexivity. }
  right; right. split; [reflexivity|].
  repeat split; try (intros [l Hl]; injection Hl; congruence); congruence.
Qed.

Theorem arrayType_spec : forall e, ~ has "[" e ->
  arrayType (e ++ "[]") = Ret e /\ arrayType (e ++ "[p]") = Ret e.
Proof.
  intros e He. unfold arrayType. change "[]" with (String "[" "]"). change "[p]" with (String "[" "p]").
  rewrite !find_char_app by assumption. now rewrite !substr_prefix.
Qed.

(** ** Replacement *)

Lemma rx_replace_skip p v a b : rx_replace p v (String.length a) (a ++ b) = rx_replace p v 0 b.
Proof. induction a as [|x a IH]; [reflexivity|]. simpl. exact IH. Qed.

Lemma rx_match_lit a b : rx_match (rx_lit a) (a ++ b) = true.
Proof.
  unfold rx_lit, chars. induction a as [|x a IH]; [reflexivity|]. simpl.
  now rewrite Ascii.eqb_refl, IH.
Qed.

Lemma rx_lit_length a : List.length (rx_lit a) = String.length a.
Proof. unfold rx_lit, chars. rewrite map_length. induction a; simpl; congruence. Qed.

Lemma rx_replace_hit x a v b :
  rx_replace (rx_lit (String x a)) v 0 (String x a ++ b) = v ++ rx_replace (rx_lit (String x a)) v 0 b.
Proof.
  change (String x a ++ b) with (String x (a ++ b)). cbn [rx_replace].
  rewrite (rx_match_lit (String x a) b : rx_match (rx_lit (String x a)) (String x (a ++ b)) = true).
  f_equal. rewrite rx_lit_length. simpl String.length. rewrite Nat.sub_succ, Nat.sub_0_r.
  apply rx_replace_skip.
Qed.

Lemma rx_replace_copy c p v n b :
  ~ has c n -> rx_replace (Some c :: p) v 0 (n ++ b) = n ++ rx_replace (Some c :: p) v 0 b.
Proof.
  induction n as [|x n IH]; intros H; [reflexivity|].
  apply not_has_cons in H as [Hx Hn].
  change (String x n ++ b) with (String x (n ++ b)). cbn [rx_replace rx_match rx_char_ok].
  rewrite (proj2 (Ascii.eqb_neq c x) Hx). simpl. now rewrite IH.
Qed.

Lemma rx_replace_copy_all c p v n :
  ~ has c n -> rx_replace (Some c :: p) v 0 n = n.
Proof.
  intros H. rewrite <- (app_nil_r_s n) at 1. rewrite rx_replace_copy by assumption.
  simpl. apply app_nil_r_s.
Qed.

(** ** javaTypeName (C09) *)

Theorem javaName_spec : forall path cls,
  identifier cls -> Forall (fun o => match o with Some n => identifier n | None => True end) path ->
  javaName (cxx_name path cls) = java_name path cls.
Proof.
  intros path cls [Hc1 Hc2] Hp. unfold javaName.
  set (anon := "(anonymous namespace)::").
  assert (Ha : rx_replace (rx_lit anon) "" 0 (cxx_name path cls)
               = cxx_name (filter (fun o => match o with Some _ => true | None => false end) path) cls).
  { induction Hp as [|o path Ho Hp IH]; simpl.
    - unfold anon. apply rx_replace_copy_all. assumption.
    - destruct o as [n|].
      + destruct Ho as [Ho1 Ho2]. simpl.
        replace (n ++ String ":" (String ":" (cxx_name path cls)))
          with ((n ++ "::") ++ cxx_name path cls) by (rewrite app_assoc_s; reflexivity).
        unfold anon, rx_lit at 1. simpl map.
        rewrite rx_replace_copy.
        * change (rx_replace _ "" 0 (cxx_name path cls)) with
            (rx_replace (rx_lit anon) "" 0 (cxx_name path cls)).
          rewrite IH. rewrite app_assoc_s. reflexivity.
        * unfold has in *. intros Hin. change list_ascii_of_string with chars in Hin.
          rewrite chars_app in Hin. apply in_app_or in Hin as [Hin|Hin]; [now apply Ho2|].
          simpl in Hin. intuition discriminate.
      + change (rx_replace (rx_lit anon) "" 0 (anon ++ cxx_name path cls)
                = cxx_name (filter (fun o => match o with Some _ => true | None => false end) path) cls).
        unfold anon. rewrite rx_replace_hit. exact IH. }
  rewrite Ha. clear Ha. clear anon.
  induction Hp as [|o path Ho Hp IH]; simpl.
  - apply rx_replace_copy_all. assumption.
  - destruct o as [n|]; [|exact IH]. destruct Ho as [Ho1 Ho2]. simpl.
    change (rx_lit "::") with (Some ":"%char :: rx_lit ":").
    rewrite rx_replace_copy by assumption.
    change (Some ":"%char :: rx_lit ":") with (rx_lit "::").
    change (String ":" (String ":" ?x)) with ("::" ++ x).
    rewrite (rx_replace_hit ":" ":" "." _). now rewrite IH.
Qed.

Theorem javaTypeName_spec : forall t, identifiers t ->
  javaTypeName (demangled t) = print "" (java_type t).
Proof.
  induction t as [|path cls|e IH|k IHk v IHv]; simpl; intros H.
  - reflexivity.
  - destruct H. now apply javaName_spec.
  - now rewrite IH.
  - destruct H. now rewrite IHk, IHv.
Qed.

Theorem javaTypeName_parse : forall t, identifiers t -> Forall plain (names (java_type t)) ->
  nestedGenericTypes (javaTypeName (demangled t))
  = Ret (print "" (java_type t)
         :: map (fun c => print "" (unbox_if_name c)) (tl (components (java_type t)))).
Proof.
  intros t H1 H2. rewrite javaTypeName_spec by assumption.
  apply nestedGenericTypes_spec; [constructor|exact H2].
Qed.
