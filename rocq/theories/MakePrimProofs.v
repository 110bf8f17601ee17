(** Proofs about RestrictedDescriptor::makePrim (C07). *)
From Coq Require Import Lia.
From Verif Require Import Base TypeNames SpecTypes TypeNamesProofs.
Open Scope string_scope.

(** The eight class names in package java.lang. *)
Definition prim_classes : list string :=
  ["Boolean"; "Byte"; "Character"; "Double"; "Float"; "Integer"; "Long"; "Short"].

Definition rx (X : string) : list (option ascii) := rx_of ("java.lang." ++ X).

Definition sep (c : ascii) : bool :=
  Ascii.eqb c "<" || Ascii.eqb c ">" || Ascii.eqb c "," || Ascii.eqb c " ".

Definition letters (X : string) : bool :=
  forallb (fun c => negb (sep c) && negb (Ascii.eqb c ".")) (chars X).

(** Matching only looks at as many characters as the pattern has. *)
Lemma rx_match_app p u b : List.length p <= String.length u ->
  rx_match p (u ++ b) = rx_match p u.
Proof.
  revert u; induction p as [|x p IH]; intros u H; [reflexivity|].
  destruct u as [|y u]; simpl in *; [lia|]. rewrite IH by lia. reflexivity.
Qed.

Lemma rx_match_short p u : String.length u < List.length p -> rx_match p u = false.
Proof.
  revert u; induction p as [|x p IH]; intros u H; simpl in *; [lia|].
  destruct u as [|y u]; [reflexivity|]. simpl in H. rewrite IH by lia. apply andb_false_r.
Qed.

(** Literal patterns without separators do not match across one. *)
Lemma rx_lit_sep_cross X c u b :
  letters X = true -> sep c = true -> String.length u < String.length X ->
  rx_match (rx_of X) (u ++ String c b) = false.
Proof.
  revert u; induction X as [|x X IH]; intros u HX Hc Hl; simpl in *; [lia|].
  apply andb_true_iff in HX as [Hx HX]. apply andb_true_iff in Hx as [Hx1 Hx2].
  apply negb_true_iff in Hx1, Hx2. unfold rx_of. simpl. rewrite Hx2.
  destruct u as [|y u]; simpl.
  - destruct (Ascii.eqb_spec x c) as [->|]; [congruence|reflexivity].
  - simpl in Hl. unfold rx_of in IH. rewrite IH by (auto; lia). apply andb_false_r.
Qed.

Lemma eqb_sep x c : sep c = true -> sep x = false -> Ascii.eqb x c = false.
Proof. intros H1 H2. destruct (Ascii.eqb_spec x c) as [->|]; [congruence|reflexivity]. Qed.

Lemma sep_cases c : sep c = true -> c = "<"%char \/ c = ">"%char \/ c = ","%char \/ c = " "%char.
Proof.
  unfold sep. intros H. repeat (apply orb_true_iff in H as [H|H]); apply Ascii.eqb_eq in H; tauto.
Qed.

Lemma rx_match_cons x p y s : rx_match (x :: p) (String y s) = rx_char_ok x y && rx_match p s.
Proof. reflexivity. Qed.

Lemma chars_length X : List.length (chars X) = String.length X.
Proof. unfold chars. induction X; simpl; congruence. Qed.

Lemma cross_false X c u b :
  letters X = true -> sep c = true ->
  ~ finishes_with "java" u -> ~ finishes_with "lang" u ->
  String.length u < List.length (rx X) ->
  rx_match (rx X) (u ++ String c b) = false.
Proof.
  intros HX Hc Hj Hl Hlen.
  assert (Hrx : rx X = (Some "j" :: Some "a" :: Some "v" :: Some "a" :: None :: Some "l" :: Some "a"
            :: Some "n" :: Some "g" :: None :: rx_of X)%char) by reflexivity.
  assert (Hlen2 : String.length u < 10 + String.length X).
  { rewrite Hrx in Hlen. simpl in Hlen. unfold rx_of in Hlen. rewrite map_length, chars_length in Hlen. lia. }
  clear Hlen. rewrite Hrx. clear Hrx.
  assert (Hc4 : forall x y, sep x = false ->
            rx_char_ok (Some x) c && y = false).
  { intros x y Hx. simpl. now rewrite (eqb_sep x c). }
  Ltac lit_step u Hc4 :=
    destruct u as [|?y u]; cbn [append]; rewrite rx_match_cons; [apply Hc4; reflexivity|];
    match goal with |- rx_char_ok (Some ?x) ?z && _ = false =>
      destruct (Ascii.eqb_spec x z) as [<-|Hne];
      [cbn [rx_char_ok]; rewrite Ascii.eqb_refl, andb_true_l
      |cbn [rx_char_ok]; apply Ascii.eqb_neq in Hne; rewrite Hne; reflexivity] end.
  do 4 lit_step u Hc4.
  destruct u as [|u5 u]; [exfalso; apply Hj; exists ""; reflexivity|]. cbn [append].
  rewrite rx_match_cons. apply andb_false_iff; right.
  do 4 lit_step u Hc4.
  destruct u as [|u10 u];
    [exfalso; apply Hl; exists (String "j" (String "a" (String "v" (String "a" (String u5 "")))));
     reflexivity|]. cbn [append].
  rewrite rx_match_cons. apply andb_false_iff; right.
  apply rx_lit_sep_cross; auto. cbn [String.length] in Hlen2. lia.
Qed.

(** A text in whose suffixes no match is completed by what follows a
    separator. *)
Definition closed (X : string) (a : string) : Prop :=
  forall l u, a = l ++ u -> forall c b, sep c = true ->
    rx_match (rx X) (u ++ String c b) = rx_match (rx X) u.

Lemma closed_intro X a : letters X = true ->
  ~ finishes_with "java" a -> ~ finishes_with "lang" a -> closed X a.
Proof.
  intros HX Hj Hl l u Ha c b Hc.
  destruct (Nat.le_gt_cases (List.length (rx X)) (String.length u)) as [Hle|Hgt].
  - now apply rx_match_app.
  - rewrite (rx_match_short _ u) by assumption.
    apply cross_false; auto.
    + intros [z Hz]. apply Hj. exists (l ++ z). now rewrite Ha, Hz, app_assoc_s.
    + intros [z Hz]. apply Hl. exists (l ++ z). now rewrite Ha, Hz, app_assoc_s.
Qed.

Lemma rx_match_length p s : rx_match p s = true -> List.length p <= String.length s.
Proof.
  intros H. destruct (Nat.le_gt_cases (List.length p) (String.length s)) as [|Hgt]; [assumption|].
  rewrite rx_match_short in H by assumption. discriminate.
Qed.

Lemma rx_replace_split X v a c b :
  closed X a -> sep c = true -> forall k, k <= String.length a ->
  rx_replace (rx X) v k (a ++ String c b)
  = rx_replace (rx X) v k a ++ rx_replace (rx X) v 0 (String c b).
Proof.
  intros Ha Hc. induction a as [|x a IH]; intros k Hk.
  - simpl in Hk. replace k with 0 by lia. reflexivity.
  - assert (Ha' : closed X a).
    { intros l u E. apply (Ha (String x l) u). simpl. now rewrite E. }
    destruct k as [|k].
    + change (String x a ++ String c b) with (String x (a ++ String c b)).
      cbn [rx_replace].
      change (String x (a ++ String c b)) with (String x a ++ String c b).
      rewrite (Ha "" (String x a) eq_refl c b Hc).
      destruct (rx_match (rx X) (String x a)) eqn:E.
      * rewrite IH; [now rewrite app_assoc_s|exact Ha'|].
        apply rx_match_length in E. cbn [String.length] in E. lia.
      * rewrite IH; [reflexivity|exact Ha'|lia].
    + simpl. simpl in Hk. apply IH; [exact Ha'|lia].
Qed.

Lemma rx_replace_sep X v c b : sep c = true ->
  rx_replace (rx X) v 0 (String c b) = String c (rx_replace (rx X) v 0 b).
Proof.
  intros Hc. cbn [rx_replace].
  destruct (sep_cases c Hc) as [->|[->|[->| ->]]]; reflexivity.
Qed.

Lemma rx_replace_blanks X v g b : blanks g ->
  rx_replace (rx X) v 0 (g ++ b) = g ++ rx_replace (rx X) v 0 b.
Proof.
  unfold blanks. induction g as [|x g IH]; intros H; [reflexivity|].
  inversion H; subst. change (String " " g ++ b) with (String " " (g ++ b)).
  rewrite rx_replace_sep by reflexivity. simpl. now rewrite IH.
Qed.

(** No match anywhere: nothing changes. *)
Lemma rx_replace_quiet p v s :
  (forall l r, s = l ++ r -> r <> "" -> rx_match p r = false) -> rx_replace p v 0 s = s.
Proof.
  induction s as [|x s IH]; intros H; [reflexivity|]. cbn [rx_replace].
  rewrite (H "" (String x s) eq_refl) by discriminate.
  rewrite IH; [reflexivity|]. intros l r E. apply (H (String x l) r). simpl. now rewrite E.
Qed.

Lemma rx_match_looks b r : rx_match (rx_of b) r = true ->
  exists m r', r = m ++ r' /\ looks_like b m.
Proof.
  revert r; induction b as [|x b IH]; intros r H.
  - exists "", r. split; [reflexivity|exact I].
  - destruct r as [|y r]; [discriminate|]. unfold rx_of in H. simpl in H.
    apply andb_true_iff in H as [Hx H]. destruct (IH r H) as (m & r' & -> & Hm).
    exists (String y m), r'. split; [reflexivity|]. split; [|exact Hm].
    destruct (Ascii.eqb_spec x ".") as [->|]; [now right|]. left.
    simpl in Hx. now apply Ascii.eqb_eq.
Qed.

(** A name the theorem speaks about: boxed, or unrelated to boxed names. *)
Definition okname (n : string) : Prop := boxed n \/ unrelated n.

Definition prim_of (X : string) : string :=
  match find (fun p => String.eqb (fst p) ("java.lang." ++ X)) boxed_table with
  | Some (_, u) => u
  | None => ""
  end.

Definition step (X : string) (n : string) : string :=
  if String.eqb n ("java.lang." ++ X) then prim_of X else n.

Lemma regexs_prims : regexs = map (fun X => ("java.lang." ++ X, prim_of X)) prim_classes.
Proof. reflexivity. Qed.

Lemma prims_letters X : In X prim_classes -> letters X = true.
Proof.
  intros H. pose proof (eq_refl : forallb letters prim_classes = true) as E.
  rewrite forallb_forall in E. now apply E.
Qed.

Lemma prims_boxed X : In X prim_classes -> boxed ("java.lang." ++ X).
Proof.
  intros H. unfold boxed. simpl in *.
  repeat (destruct H as [<-|H]; [simpl; tauto|]). contradiction.
Qed.

Lemma looks_length b m : looks_like b m -> String.length m = String.length b.
Proof.
  revert m; induction b as [|x b IH]; intros [|y m]; simpl; try tauto.
  intros [_ H]. now rewrite (IH m H).
Qed.

Lemma boxed_length b : boxed b -> 14 <= String.length b.
Proof.
  intros H. unfold boxed in H. simpl in H.
  repeat (destruct H as [<-|H]; [simpl; lia|]). contradiction.
Qed.

Lemma finishes_rev_bool p s : finishes_with p s -> starts_with
   (string_of_list_ascii (rev (chars p))) (string_of_list_ascii (rev (chars s))) = true.
Proof.
  intros [l ->]. rewrite chars_app, rev_app_distr. apply starts_with_spec.
  exists (string_of_list_ascii (rev (chars l))).
  generalize (rev (chars p)). intros q. induction q as [|x q IH]; simpl; congruence.
Qed.

Lemma short_unrelated n : String.length n < 14 ->
  ~ finishes_with "java" n -> ~ finishes_with "lang" n -> unrelated n.
Proof.
  intros Hl Hj Hg. split; [|split; assumption].
  intros b l m r Hb -> Hm. apply looks_length in Hm. apply boxed_length in Hb.
  rewrite !length_app_s in Hl. lia.
Qed.

Ltac no_finish := intros Hf; apply finishes_rev_bool in Hf; discriminate Hf.

Lemma step_ok X n : In X prim_classes -> okname n -> okname (step X n).
Proof.
  intros HX Hn. unfold step. destruct (String.eqb n _); [|exact Hn].
  right. simpl in HX.
  repeat (destruct HX as [<-|HX];
          [apply short_unrelated; [simpl; lia|no_finish|no_finish]|]).
  contradiction.
Qed.

Lemma boxed_ends n : boxed n -> ~ finishes_with "java" n /\ ~ finishes_with "lang" n.
Proof.
  intros H. unfold boxed in H. simpl in H.
  repeat (destruct H as [<-|H]; [split; no_finish|]). contradiction.
Qed.

Lemma okname_closed X n : In X prim_classes -> okname n -> closed X n.
Proof.
  intros HX Hn. apply prims_letters in HX. destruct Hn as [Hb|(_&Hj&Hl)].
  - apply boxed_ends in Hb as [Hj Hl]. now apply closed_intro.
  - now apply closed_intro.
Qed.

Lemma replace_boxed : forall X b, In X prim_classes -> boxed b ->
  rx_replace (rx X) (prim_of X) 0 b = step X b.
Proof.
  intros X b HX Hb.
  assert (E : forallb (fun X => forallb (fun b =>
            String.eqb (rx_replace (rx X) (prim_of X) 0 b) (step X b)) (map fst boxed_table))
            prim_classes = true) by (vm_compute; reflexivity).
  rewrite forallb_forall in E. specialize (E X HX). rewrite forallb_forall in E.
  specialize (E b Hb). now apply String.eqb_eq.
Qed.

Lemma unrelated_not_boxed n : unrelated n -> ~ boxed n.
Proof.
  intros [H _] Hb. apply (H n "" n "" Hb); [simpl; now rewrite app_nil_r_s|].
  clear. induction n as [|x n IH]; simpl; auto.
Qed.

Lemma replace_unrelated : forall X n, In X prim_classes -> unrelated n ->
  rx_replace (rx X) (prim_of X) 0 n = n.
Proof.
  intros X n HX [H _]. apply rx_replace_quiet. intros l r E Hr.
  destruct (rx_match (rx X) r) eqn:Em; [|reflexivity]. exfalso.
  apply rx_match_looks in Em as (m & r' & -> & Hm).
  apply (H _ l m r' (prims_boxed X HX) E Hm).
Qed.

Lemma replace_name X n : In X prim_classes -> okname n ->
  rx_replace (rx X) (prim_of X) 0 n = step X n.
Proof.
  intros HX [Hb|Hu]; [now apply replace_boxed|].
  rewrite replace_unrelated by assumption. unfold step.
  destruct (String.eqb_spec n ("java.lang." ++ X)) as [->|]; [|reflexivity].
  exfalso. apply (unrelated_not_boxed _ Hu). now apply prims_boxed.
Qed.

(** What may follow a type expression in a larger one. *)
Definition tail_ok (t : string) : Prop :=
  t = "" \/ exists c b, t = String c b /\ sep c = true.

Lemma replace_print X g : In X prim_classes -> blanks g -> forall t tail,
  Forall okname (names t) -> tail_ok tail ->
  rx_replace (rx X) (prim_of X) 0 (print g t ++ tail)
  = print g (map_names (step X) t) ++ rx_replace (rx X) (prim_of X) 0 tail.
Proof.
  intros HX Hg. induction t as [n|e IH|k IHk v IHv]; intros tail Hn Ht; cbn [print map_names].
  - inversion Hn; subst. destruct Ht as [->|(c & b & -> & Hc)].
    + rewrite !app_nil_r_s. now apply replace_name.
    + rewrite rx_replace_split; [|now apply okname_closed|assumption|lia].
      now rewrite replace_name.
  - rewrite !app_assoc_s.
    assert (E : forall w, rx_replace (rx X) (prim_of X) 0 ("java.util.List<" ++ w)
              = "java.util.List<" ++ rx_replace (rx X) (prim_of X) 0 w)
      by (intros w; unfold rx, rx_of; simpl; reflexivity).
    rewrite E. rewrite IH; [|exact Hn|right; exists ">"%char, tail; split; reflexivity].
    change (">" ++ tail) with (String ">" tail). rewrite rx_replace_sep by reflexivity.
    reflexivity.
  - apply Forall_app in Hn as [Hk Hv]. rewrite !app_assoc_s.
    assert (E : forall w, rx_replace (rx X) (prim_of X) 0 ("java.util.Map<" ++ w)
              = "java.util.Map<" ++ rx_replace (rx X) (prim_of X) 0 w)
      by (intros w; unfold rx, rx_of; simpl; reflexivity).
    rewrite E.
    rewrite IHk; [|exact Hk|right; eexists ","%char, _; split; reflexivity].
    change ("," ++ g ++ print g v ++ ">" ++ tail) with (String "," (g ++ print g v ++ ">" ++ tail)).
    rewrite rx_replace_sep by reflexivity. rewrite rx_replace_blanks by assumption.
    rewrite IHv; [|exact Hv|right; exists ">"%char, tail; split; reflexivity].
    change (">" ++ tail) with (String ">" tail). rewrite rx_replace_sep by reflexivity.
    reflexivity.
Qed.

Lemma names_map f t : names (map_names f t) = map f (names t).
Proof.
  induction t as [n|e IH|k IHk v IHv]; simpl; [reflexivity|exact IH|].
  now rewrite map_app, IHk, IHv.
Qed.

Lemma map_names_comp f h t : map_names f (map_names h t) = map_names (fun n => f (h n)) t.
Proof. induction t as [n|e IH|k IHk v IHv]; simpl; congruence. Qed.

Lemma map_names_ext f h t : (forall n, In n (names t) -> f n = h n) -> map_names f t = map_names h t.
Proof.
  induction t as [n|e IH|k IHk v IHv]; simpl; intros H.
  - now rewrite H by auto.
  - now rewrite IH.
  - rewrite IHk, IHv; [reflexivity| |]; intros n Hn; apply H; apply in_or_app; auto.
Qed.

Lemma makePrim_fold g : blanks g -> forall Xs t,
  incl Xs prim_classes -> Forall okname (names t) ->
  fold_left (fun n r => rx_replace (rx_of (fst r)) (snd r) 0 n)
    (map (fun X => ("java.lang." ++ X, prim_of X)) Xs) (print g t)
  = print g (map_names (fun n => fold_left (fun n X => step X n) Xs n) t).
Proof.
  intros Hg. induction Xs as [|X Xs IH]; intros t HX Hn.
  - simpl. f_equal. clear. induction t as [n|e IH|k IHk v IHv]; simpl; congruence.
  - cbn [map fold_left fst snd].
    assert (HX1 : In X prim_classes) by (apply HX; simpl; auto).
    pose proof (replace_print X g HX1 Hg t "" Hn (or_introl eq_refl)) as R.
    simpl rx_replace in R. rewrite !app_nil_r_s in R.
    change (rx_of ("java.lang." ++ X)) with (rx X). rewrite R.
    rewrite IH.
    + now rewrite map_names_comp.
    + intros x Hx. apply HX. simpl; auto.
    + rewrite names_map. apply Forall_map. eapply Forall_impl; [|exact Hn].
      intros n. now apply step_ok.
Qed.

Lemma steps_unboxed n : okname n -> fold_left (fun n X => step X n) prim_classes n = unboxed_name n.
Proof.
  intros [Hb|Hu].
  - assert (E : forallb (fun b => String.eqb (fold_left (fun n X => step X n) prim_classes b)
              (unboxed_name b)) (map fst boxed_table) = true) by (vm_compute; reflexivity).
    rewrite forallb_forall in E. specialize (E n Hb). now apply String.eqb_eq.
  - pose proof (unrelated_not_boxed n Hu) as Hnb.
    assert (Hs : forall X, In X prim_classes -> step X n = n).
    { intros X HX. unfold step. destruct (String.eqb_spec n ("java.lang." ++ X)) as [->|]; [|reflexivity].
      exfalso. apply Hnb. now apply prims_boxed. }
    assert (Hf : forall Xs, incl Xs prim_classes -> fold_left (fun n X => step X n) Xs n = n).
    { induction Xs as [|X Xs IH]; intros Hi; [reflexivity|]. simpl.
      rewrite Hs by (apply Hi; simpl; auto). apply IH. intros x Hx. apply Hi. simpl; auto. }
    rewrite Hf by apply incl_refl. unfold unboxed_name.
    destruct (find _ boxed_table) as [[k u]|] eqn:E; [|reflexivity].
    apply find_some in E as [Hin Heq]. simpl in Heq. apply String.eqb_eq in Heq as ->.
    exfalso. apply Hnb. unfold boxed. apply in_map_iff. exists (n, u). auto.
Qed.

Theorem makePrim_spec : forall g t, blanks g ->
  Forall (fun n => boxed n \/ unrelated n) (names t) ->
  makePrim (print g t) = print g (map_names unboxed_name t).
Proof.
  intros g t Hg Hn. unfold makePrim. rewrite regexs_prims.
  rewrite makePrim_fold by (auto; apply incl_refl). f_equal.
  apply map_names_ext. intros n Hin. apply steps_unboxed.
  rewrite Forall_forall in Hn. now apply Hn.
Qed.

Lemma unboxed_okname n : okname n -> okname (unboxed_name n).
Proof.
  intros H. rewrite <- steps_unboxed by exact H.
  assert (Hf : forall Xs n, incl Xs prim_classes -> okname n ->
                 okname (fold_left (fun n X => step X n) Xs n)).
  { induction Xs as [|X Xs IH]; intros m Hi Hm; [exact Hm|]. simpl. apply IH.
    - intros x Hx. apply Hi. simpl; auto.
    - apply step_ok; [apply Hi; simpl; auto|exact Hm]. }
  apply Hf; [apply incl_refl|exact H].
Qed.

Lemma unboxed_idem n : unboxed_name (unboxed_name n) = unboxed_name n.
Proof.
  unfold unboxed_name at 2 3. destruct (find _ boxed_table) as [[k u]|] eqn:E.
  - apply find_some in E as [Hin _]. simpl in Hin.
    repeat (destruct Hin as [Hin|Hin]; [injection Hin as <- <-; reflexivity|]). contradiction.
  - unfold unboxed_name. now rewrite E.
Qed.

Theorem makePrim_idem : forall g t, blanks g ->
  Forall (fun n => boxed n \/ unrelated n) (names t) ->
  makePrim (makePrim (print g t)) = makePrim (print g t).
Proof.
  intros g t Hg Hn. rewrite (makePrim_spec g t Hg Hn).
  rewrite makePrim_spec; [|exact Hg|].
  - f_equal. rewrite map_names_comp. apply map_names_ext. intros n _. apply unboxed_idem.
  - rewrite names_map. apply Forall_map. eapply Forall_impl; [|exact Hn].
    intros n. apply unboxed_okname.
Qed.

(** ** Idempotence on every string *)

(** Some suffix of the text is matched. *)
Fixpoint hits (p : list (option ascii)) (s : string) : bool :=
  match s with
  | EmptyString => false
  | String _ s' => rx_match p s || hits p s'
  end.

(** No continuation makes [v ++ _] match [p]. *)
Fixpoint clash (p : list (option ascii)) (v : string) : bool :=
  match p, v with
  | x :: p', String c v' => negb (rx_char_ok x c) || clash p' v'
  | _, _ => false
  end.

Lemma clash_match p v t : clash p v = true -> rx_match p (v ++ t) = false.
Proof.
  revert v; induction p as [|x p IH]; intros [|c v]; cbn [clash]; try discriminate.
  intros H. cbn [append]. rewrite rx_match_cons. apply orb_true_iff in H as [H|H].
  - apply negb_true_iff in H. now rewrite H.
  - rewrite IH by assumption. apply andb_false_r.
Qed.

(** The replacement never becomes part of a match: not inside or at the end of
    one ([i >= 1] pattern characters before it), not at its start. *)
Fixpoint tails_clash (p : list (option ascii)) (v : string) : bool :=
  match p with
  | [] => true
  | _ :: p' => clash p v && tails_clash p' v
  end.
Fixpoint starts_clash (p : list (option ascii)) (v : string) : bool :=
  match v with
  | EmptyString => true
  | String _ v' => clash p v && starts_clash p v'
  end.

Lemma match_copied q v : forall s p, tails_clash p v = true ->
  rx_match p (rx_replace q v 0 s) = true -> rx_match p s = true.
Proof.
  induction s as [|c s IH]; intros p Hp H; [exact H|].
  destruct p as [|x p]; [reflexivity|].
  cbn [tails_clash] in Hp. apply andb_true_iff in Hp as [Hc Hp].
  cbn [rx_replace] in H. destruct (rx_match q (String c s)).
  - rewrite clash_match in H by assumption. discriminate.
  - rewrite rx_match_cons in *. apply andb_true_iff in H as [H1 H2].
    rewrite H1. simpl. now apply IH.
Qed.

Lemma hits_after v p t : starts_clash p v = true -> hits p (v ++ t) = hits p t.
Proof.
  induction v as [|c v IH]; intros H; [reflexivity|]. cbn [starts_clash] in H.
  apply andb_true_iff in H as [H1 H2]. change (String c v ++ t) with (String c (v ++ t)).
  cbn [hits]. change (String c (v ++ t)) with (String c v ++ t).
  rewrite clash_match by assumption. now apply IH.
Qed.

Definition apart (p : list (option ascii)) (v : string) : bool :=
  match p with [] => false | _ :: p' => tails_clash p' v && starts_clash p v end.

Lemma match_cons_copied q v p c s : apart p v = true ->
  rx_match p (String c (rx_replace q v 0 s)) = true -> rx_match p (String c s) = true.
Proof.
  destruct p as [|x p]; cbn [apart]; [discriminate|]. intros H Hm.
  apply andb_true_iff in H as [H _]. rewrite rx_match_cons in *.
  apply andb_true_iff in Hm as [H1 H2]. rewrite H1. simpl. now apply match_copied in H2.
Qed.

Lemma apart_starts p v : apart p v = true -> starts_clash p v = true.
Proof. destruct p; cbn [apart]; [discriminate|]. intros H. now apply andb_true_iff in H. Qed.

Lemma hits_preserved p q v : apart p v = true -> forall s k,
  hits p s = false -> hits p (rx_replace q v k s) = false.
Proof.
  intros Ha. induction s as [|c s IH]; intros k H; [reflexivity|].
  cbn [hits] in H. apply orb_false_iff in H as [H1 H2].
  destruct k as [|k]; cbn [rx_replace]; [|now apply IH].
  destruct (rx_match q (String c s)).
  - rewrite hits_after by now apply apart_starts. now apply IH.
  - cbn [hits]. rewrite IH by assumption.
    destruct (rx_match p (String c (rx_replace q v 0 s))) eqn:E; [|reflexivity].
    apply match_cons_copied in E; congruence.
Qed.

Lemma hits_removed p v : apart p v = true -> forall s k, hits p (rx_replace p v k s) = false.
Proof.
  intros Ha. induction s as [|c s IH]; intros k; [reflexivity|].
  destruct k as [|k]; cbn [rx_replace]; [|now apply IH].
  destruct (rx_match p (String c s)) eqn:Em.
  - rewrite hits_after by now apply apart_starts. now apply IH.
  - cbn [hits]. rewrite IH.
    destruct (rx_match p (String c (rx_replace p v 0 s))) eqn:E; [|reflexivity].
    apply match_cons_copied in E; congruence.
Qed.

Lemma no_hits_replace p v s : hits p s = false -> rx_replace p v 0 s = s.
Proof.
  induction s as [|c s IH]; intros H; [reflexivity|].
  cbn [hits] in H. apply orb_false_iff in H as [H1 H2].
  cbn [rx_replace]. rewrite H1. now rewrite IH.
Qed.

Definition pass (n : string) (r : string * string) : string :=
  rx_replace (rx_of (fst r)) (snd r) 0 n.

Lemma passes_clean (all rs : list (string * string)) :
  (forall r r', In r all -> In r' all -> apart (rx_of (fst r)) (snd r') = true) ->
  incl rs all -> forall s done,
  incl done all ->
  (forall r, In r done -> hits (rx_of (fst r)) s = false) ->
  forall r, In r (done ++ rs)%list -> hits (rx_of (fst r)) (fold_left pass rs s) = false.
Proof.
  intros Hall. induction rs as [|r0 rs IH]; intros Hi s done Hd Hs r Hr.
  - simpl. apply Hs. now rewrite app_nil_r in Hr.
  - cbn [fold_left]. apply (IH (fun x Hx => Hi x (or_intror Hx)) (pass s r0) (done ++ [r0])%list).
    + intros x Hx. apply in_app_or in Hx as [Hx|[<-|[]]]; [now apply Hd|apply Hi; simpl; auto].
    + intros x Hx. unfold pass. apply in_app_or in Hx as [Hx|[<-|[]]].
      * apply hits_preserved; [apply Hall; [now apply Hd|apply Hi; simpl; auto]|now apply Hs].
      * apply hits_removed. apply Hall; apply Hi; simpl; auto.
    + rewrite <- app_assoc. exact Hr.
Qed.

Lemma passes_quiet rs s :
  (forall r, In r rs -> hits (rx_of (fst r)) s = false) -> fold_left pass rs s = s.
Proof.
  induction rs as [|r rs IH]; intros H; [reflexivity|]. cbn [fold_left]. unfold pass at 2.
  rewrite no_hits_replace by (apply H; simpl; auto). apply IH. intros x Hx. apply H. simpl; auto.
Qed.

Lemma regexs_apart r r' : In r regexs -> In r' regexs -> apart (rx_of (fst r)) (snd r') = true.
Proof.
  intros H H'.
  assert (E : forallb (fun r => forallb (fun r' => apart (rx_of (fst r)) (snd r')) regexs) regexs = true)
    by (vm_compute; reflexivity).
  rewrite forallb_forall in E. specialize (E r H). rewrite forallb_forall in E. now apply E.
Qed.

Theorem makePrim_idempotent : forall s, makePrim (makePrim s) = makePrim s.
Proof.
  intros s. unfold makePrim at 1. apply passes_quiet. intros r Hr.
  apply (passes_clean regexs regexs regexs_apart (incl_refl _) s []).
  - intros x [].
  - intros x [].
  - exact Hr.
Qed.

(** After normalising, nothing in the text looks like a boxed name any more. *)
Lemma rx_match_looks_conv b : forall m r, looks_like b m ->
  (forall c, has c m -> c <> "010"%char /\ c <> "013"%char) -> rx_match (rx_of b) (m ++ r) = true.
Proof.
  induction b as [|x b IH]; intros [|y m] r; simpl looks_like; try tauto.
  intros [Hx Hm] Hc. unfold rx_of. cbn [chars list_ascii_of_string map append].
  rewrite rx_match_cons. change (map _ (list_ascii_of_string b)) with (rx_of b).
  rewrite IH; [|exact Hm|intros c Hin; apply Hc; right; exact Hin].
  rewrite andb_true_r. destruct (Ascii.eqb_spec x ".") as [->|Hne]; cbn [rx_char_ok].
  - destruct (Hc y) as [H1 H2]; [left; reflexivity|].
    apply Ascii.eqb_neq in H1, H2. now rewrite H1, H2.
  - destruct Hx as [->|]; [apply Ascii.eqb_refl|contradiction].
Qed.

Lemma hits_suffix p l r : r <> "" -> rx_match p r = true -> hits p (l ++ r) = true.
Proof.
  intros Hr Hm. induction l as [|c l IH].
  - destruct r; [contradiction|]. cbn [append hits]. now rewrite Hm.
  - cbn [append hits]. rewrite IH. apply orb_true_r.
Qed.

Theorem makePrim_no_boxed : forall s b l r, boxed b -> makePrim s <> l ++ b ++ r.
Proof.
  intros s b l r Hb E.
  assert (Hh : hits (rx_of b) (makePrim s) = true).
  { rewrite E. apply hits_suffix.
    - unfold boxed in Hb. simpl in Hb.
      repeat (destruct Hb as [<-|Hb]; [discriminate|]). contradiction.
    - apply rx_match_looks_conv.
      + clear. induction b; simpl; auto.
      + unfold boxed in Hb. simpl in Hb. unfold has.
        repeat (destruct Hb as [<-|Hb]; [simpl; intros c Hc; repeat (destruct Hc as [<-|Hc]; [split; discriminate|]); contradiction|]).
        contradiction. }
  assert (Hr : exists v, In (b, v) regexs).
  { unfold boxed in Hb. simpl in Hb.
    repeat (destruct Hb as [<-|Hb]; [eexists; simpl; eauto 10|]). contradiction. }
  destruct Hr as [v Hr].
  pose proof (passes_clean regexs regexs regexs_apart (incl_refl _) s []
     (fun x (H : In x []) => match H with end) (fun x (H : In x []) => match H with end) (b, v) Hr) as Hf.
  change (fold_left pass regexs s) with (makePrim s) in Hf. simpl fst in Hf. congruence.
Qed.

Lemma makePrim_bad : exists g t, blanks g /\ Forall plain (names t) /\
  makePrim (print g t) <> print g (map_names unboxed_name t).
Proof.
  exists "", (TName "com.java.lang.IntegerCache"). split; [constructor|]. split.
  - constructor; [|constructor]. unfold plain.
    repeat split; try (unfold has; simpl; intuition discriminate);
      intros [r Hr]; discriminate Hr.
  - vm_compute. discriminate.
Qed.

Lemma unrelated_intro n : String.length n < 14 ->
  starts_with "avaj" (string_of_list_ascii (rev (chars n))) = false ->
  starts_with "gnal" (string_of_list_ascii (rev (chars n))) = false -> unrelated n.
Proof.
  intros Hl Hj Hg. apply short_unrelated; [exact Hl| |];
    intros Hf; apply finishes_rev_bool in Hf; [exact (eq_true_false_abs _ Hf Hj)|exact (eq_true_false_abs _ Hf Hg)].
Qed.

(** A decidable form of [unrelated], for examples. *)
Lemma unrelated_dec n : forallb (fun b => negb (hits (rx_of b) n)) (map fst boxed_table) = true ->
  (forall c, has c n -> c <> "010"%char /\ c <> "013"%char) ->
  starts_with "avaj" (string_of_list_ascii (rev (chars n))) = false ->
  starts_with "gnal" (string_of_list_ascii (rev (chars n))) = false -> unrelated n.
Proof.
  intros Hb Hc Hj Hg. split; [|split].
  - intros b l m r Hbx E Hm. rewrite forallb_forall in Hb. specialize (Hb b Hbx).
    apply negb_true_iff in Hb. rewrite E, hits_suffix in Hb; [discriminate| |].
    + pose proof (boxed_length b Hbx). apply looks_length in Hm. destruct m; simpl in *; [lia|discriminate].
    + apply rx_match_looks_conv; [exact Hm|]. intros c Hin. apply Hc. subst n. unfold has in *.
      change list_ascii_of_string with chars in *. rewrite !chars_app. apply in_or_app; right. apply in_or_app; auto.
  - intros Hf; apply finishes_rev_bool in Hf. exact (eq_true_false_abs _ Hf Hj).
  - intros Hf; apply finishes_rev_bool in Hf. exact (eq_true_false_abs _ Hf Hg).
Qed.

Lemma unrelated_party : unrelated "net.corda.Party".
Proof.
  apply unrelated_dec; try reflexivity. unfold has. simpl. intros c Hc.
  repeat (destruct Hc as [<-|Hc]; [split; discriminate|]). contradiction.
Qed.
