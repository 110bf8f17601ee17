(** The parsers of type names do on every text what SpecNames says. *)
From Verif Require Import Base TypeNames SpecTypes TypeNamesProofs MakePrimProofs SpecNames.
From Coq Require Import Lia ZArith.
Import List ListNotations.
Open Scope string_scope.

Lemma prefix_starts p s : String.prefix p s = starts_with p s.
Proof.
  revert s. induction p as [|a p IH]; intros [|b s]; cbn; try reflexivity.
  destruct (ascii_dec a b) as [->|N]; [rewrite Ascii.eqb_refl; apply IH|].
  destruct (Ascii.eqb_spec a b); [contradiction|reflexivity].
Qed.
Lemma list_name_is s : list_name s = isList s.
Proof. apply prefix_starts. Qed.
Lemma map_name_is s : map_name s = isMap s.
Proof. apply prefix_starts. Qed.

Lemma find_before c s : match find_char c s with
  | Some n => up_to c s = substring 0 n s /\ past c s = Some (substring (n + 1) (String.length s) s) /\ n < String.length s
  | None => up_to c s = s /\ past c s = None
  end.
Proof.
  induction s as [|d s IH]; cbn [find_char up_to past]; [split; reflexivity|]. rewrite (Ascii.eqb_sym d c).
  destruct (Ascii.eqb c d).
  - cbn. split; [reflexivity|]. split; [|lia]. rewrite substring_0_le by lia. reflexivity.
  - destruct (find_char c s) as [n|].
    + destruct IH as (-> & -> & Hn). cbn [Nat.add substring String.length]. repeat split; [|lia].
      f_equal. clear. revert n. assert (K : forall k n (t : string), String.length t <= k -> substring n k t = substring n (S k) t).
      { intros k n t. revert k n. induction t as [|x t I]; intros [|k] [|n] H; cbn in *; try reflexivity; try lia; [f_equal; apply (I k 0); lia|].
        apply (I (S k) n). lia. }
      intros n. apply K. lia.
    + destruct IH as [-> ->]. split; reflexivity.
Qed.
Lemma but_last_is s : but_last s = substring 0 (String.length s - 1) s.
Proof.
  induction s as [|c [|d s] IH]; try reflexivity. cbn [but_last] in *. rewrite IH. cbn [String.length substring Nat.sub]. rewrite Nat.sub_0_r. reflexivity.
Qed.
Lemma substring_twice s : forall p n m, m <= n -> substring 0 m (substring p n s) = substring p m s.
Proof.
  induction s as [|c s IH]; intros [|p] n m H.
  - destruct n, m; reflexivity.
  - destruct n, m; reflexivity.
  - destruct n, m; cbn; try reflexivity; try lia. f_equal. apply IH. lia.
  - cbn. apply IH. exact H.
Qed.
Lemma substring_rest s p : p <= String.length s -> String.length (substring p (String.length s) s) = String.length s - p.
Proof.
  revert p. assert (K : forall (t : string) k p, String.length t <= k -> p <= String.length t -> String.length (substring p k t) = String.length t - p).
  { induction t as [|c t IH]; intros [|k] [|p] H H'; cbn in *; try reflexivity; try lia; [rewrite (IH k 0) by lia; lia|apply IH; lia]. }
  intros p. apply K. lia.
Qed.

Theorem list_parts_right s : listType s = Ret (list_parts s).
Proof.
  unfold listType, list_parts, arguments. pose proof (find_before "<" s) as F. destruct (find_char "<" s) as [n|].
  - destruct F as (-> & -> & Hn). rewrite !substr_ok by lia. cbn [rbind]. rewrite !unbox_spec, but_last_is, substring_rest by lia.
    rewrite substring_twice by lia. replace (String.length s - (n + 1) - 1) with (String.length s - n - 2) by lia. reflexivity.
  - destruct F as [-> ->]. rewrite substr_ok by lia. cbn [rbind]. rewrite !unbox_spec, but_last_is. reflexivity.
Qed.
Lemma comma_is s : forall z, match at_comma z s with
  | Some (k, v) => s = k ++ "," ++ v /\ comma_scan s z = String.length k
  | None => comma_scan s z = String.length s
  end.
Proof.
  induction s as [|c s IH]; intros z; [reflexivity|]. cbn [at_comma comma_scan String.length].
  destruct (Ascii.eqb_spec c ",") as [->|N].
  - change (Ascii.eqb "," "<") with false. change (Ascii.eqb "," ">") with false. cbn [andb]. destruct (Z.eqb z 0); [split; reflexivity|].
    specialize (IH z). destruct (at_comma z s) as [[k v]|]; [destruct IH as [-> ->]; split; reflexivity|rewrite IH; reflexivity].
  - cbn [andb]. destruct (Ascii.eqb c "<"); [|destruct (Ascii.eqb c ">")].
    + specialize (IH (Z.succ z)). unfold Z.succ in *. destruct (at_comma (z + 1) s) as [[k v]|]; [destruct IH as [-> ->]; split; reflexivity|rewrite IH; reflexivity].
    + specialize (IH (Z.pred z)). change (z - 1)%Z with (Z.pred z). destruct (at_comma (Z.pred z) s) as [[k v]|]; [destruct IH as [-> ->]; split; reflexivity|rewrite IH; reflexivity].
    + specialize (IH z). destruct (at_comma z s) as [[k v]|]; [destruct IH as [-> ->]; split; reflexivity|rewrite IH; reflexivity].
Qed.
Lemma unindented_is s : unindented s = drop_blanks s.
Proof. induction s as [|c s IH]; cbn; [reflexivity|]. now rewrite IH. Qed.

Lemma arguments_split s : exists p, s = p ++ arguments s /\
  String.length p = match find_char "<" s with Some n => n + 1 | None => 0 end.
Proof.
  unfold arguments. induction s as [|d s IH]; cbn [find_char past]; [exists ""; split; reflexivity|]. rewrite (Ascii.eqb_sym d "<").
  destruct (Ascii.eqb_spec "<" d) as [<-|N]; [exists "<"; split; reflexivity|].
  destruct IH as (p & E & L). pose proof (find_before "<" s) as F. destruct (find_char "<" s) as [n|].
  - destruct F as (_ & Ha & _). rewrite Ha in E |- *. exists (String d p). cbn. rewrite <- E, L. split; [reflexivity|lia].
  - destruct F as (_ & ->). exists "". split; reflexivity.
Qed.
Lemma substring_after p s n : substring (String.length p) n (p ++ s) = substring 0 n s.
Proof. apply substring_skip. Qed.
Theorem map_parts_right s : mapType s = match map_parts s with Some x => Ret x | None => Exc OutOfRange end.
Proof.
  unfold mapType, map_parts. destruct (arguments_split s) as (p & E & L). pose proof (find_before "<" s) as F.
  assert (Hb : match find_char "<" s with Some pos => substr s 0 pos | None => Ret s end = Ret (up_to "<" s)).
  { destruct (find_char "<" s); [destruct F as (-> & _); apply substr_ok; lia|destruct F as [-> _]; reflexivity]. }
  rewrite Hb. rewrite <- L. clear L F Hb. remember (arguments s) as a eqn:Ea. clear Ea. remember (up_to "<" s) as h eqn:Eh. clear Eh. subst s.
  assert (Hl : String.length p <= String.length (p ++ a)) by (rewrite length_app_s; lia).
  rewrite !(substr_ok _ (String.length p)) by exact Hl. cbn [rbind]. rewrite substring_after, substring_0_le by (rewrite length_app_s; lia).
  pose proof (comma_is a 0) as C. destruct (at_comma 0 a) as [[k v]|].
  - destruct C as [-> ->]. rewrite !length_app_s. cbn [String.length append].
    rewrite (substr_ok _ (String.length p)) by exact Hl. cbn [rbind]. rewrite substring_after. replace (String.length p + String.length k - String.length p) with (String.length k) by lia. rewrite substring_0_app.
    rewrite substr_ok by (rewrite !length_app_s; cbn; lia). cbn [rbind].
    replace (p ++ k ++ String "," v) with ((p ++ k ++ ",") ++ v) by (rewrite !app_assoc_s; reflexivity).
    replace (String.length p + String.length k + 1) with (String.length (p ++ k ++ ",")) by (rewrite !length_app_s; cbn; lia).
    rewrite substring_after, !unbox_spec, (unindented_is k), (unindented_is (but_last v)), but_last_is.
    replace (String.length p + (String.length k + (1 + String.length v)) - (String.length p + String.length k + 2)) with (String.length v - 1) by lia. reflexivity.
  - rewrite C. rewrite (substr_ok _ (String.length p)) by exact Hl. cbn [rbind]. unfold substr. rewrite length_app_s. destruct (Nat.leb_spec (String.length p + String.length a + 1) (String.length p + String.length a)); [lia|reflexivity].
Qed.
Theorem array_part_right s : arrayType s = Ret (array_part s).
Proof.
  unfold arrayType, array_part. pose proof (find_before "[" s) as F. destruct (find_char "[" s).
  - destruct F as (-> & _). apply substr_ok. lia.
  - destruct F as (-> & _). reflexivity.
Qed.

Lemma mentioned_is : forall b s, String.length s < b -> nested b s = match mentioned b s with Some l => Ret l | None => Exc OutOfRange end.
Proof.
  induction b as [|b IH]; intros s H; [lia|]. cbn [nested mentioned]. rewrite list_name_is, map_name_is.
  destruct (isList s) eqn:EL.
  - apply starts_with_length in EL. destruct (listType_cases s) as (x & e & He & Hs). rewrite list_parts_right in He. assert (He' : list_parts s = (x, e)) by congruence. clear He. rename He' into He.
    rewrite list_parts_right, He. cbn [rbind snd]. assert (String.length e < String.length s) by (apply Hs; intros ->; cbn in EL; lia).
    rewrite IH by lia. destruct (mentioned b e); reflexivity.
  - destruct (isMap s); [|reflexivity]. pose proof (mapType_cases s) as M. rewrite map_parts_right in *. destruct (map_parts s) as [[[x k] v]|]; [|reflexivity].
    destruct M as [(x' & k' & v' & [= <- <- <-] & Hk & Hv)|M]; [|discriminate]. cbn [rbind]. rewrite !IH by lia.
    destruct (mentioned b k); [|reflexivity]. cbn [rbind]. destruct (mentioned b v); reflexivity.
Qed.
Theorem all_mentioned_right s : nestedGenericTypes s = match all_mentioned s with Some l => Ret l | None => Exc OutOfRange end.
Proof. apply mentioned_is. lia. Qed.
Lemma mentions_nested s l : names_in s l -> forall b, String.length s < b -> nested b s = Ret l.
Proof.
  induction 1 as [s a e l N E _ IH|s a k v lk lv N M E _ IHk _ IHv|s N M]; intros [|b] H; try lia; cbn [nested]; rewrite <- list_name_is, <- ?map_name_is, N, ?M.
  - rewrite list_name_is in N. apply starts_with_length in N. destruct (listType_cases s) as (x & e' & He & Hs). rewrite list_parts_right, E in He. injection He as <- <-.
    rewrite list_parts_right, E. cbn [rbind]. rewrite IH; [reflexivity|]. assert (String.length e < String.length s) by (apply Hs; intros ->; cbn in N; lia). lia.
  - pose proof (mapType_cases s) as C. rewrite map_parts_right, E in C |- *. destruct C as [(x' & k' & v' & [= <- <- <-] & Hk & Hv)|C]; [|discriminate].
    cbn [rbind]. rewrite IHk, IHv by lia. reflexivity.
  - reflexivity.
Qed.
Lemma nested_mentions : forall b s l, nested b s = Ret l -> names_in s l.
Proof.
  induction b as [|b IH]; intros s l; [discriminate|]. cbn [nested]. rewrite <- list_name_is, <- map_name_is. destruct (list_name s) eqn:N.
  - rewrite list_parts_right. destruct (list_parts s) as [a e] eqn:E. cbn [rbind]. destruct (nested b e) as [x| | | |] eqn:Q; try discriminate. intros [= <-].
    apply (m_list s a e); auto.
  - destruct (map_name s) eqn:M; [|intros [= <-]; now apply m_other]. rewrite map_parts_right. destruct (map_parts s) as [[[a k] v]|] eqn:E; [|discriminate]. cbn [rbind].
    destruct (nested b k) as [x| | | |] eqn:Qk; try discriminate. cbn [rbind]. destruct (nested b v) as [y| | | |] eqn:Qv; try discriminate. intros [= <-].
    apply (m_map s a k v); auto.
Qed.
Theorem mentions_exactly s l : nestedGenericTypes s = Ret l <-> names_in s l.
Proof. split; [apply nested_mentions|intros H; apply (mentions_nested _ _ H); lia]. Qed.

Theorem is_array_iff s : is_array s <-> isArray s = Ret true.
Proof.
  unfold is_array. destruct (isArray_spec s) as [[-> H]|[[-> H]|(-> & H1 & H2 & _)]]; [|tauto|split; [tauto|discriminate]].
  split; [|discriminate]. intros Q. exfalso. destruct Q as [[l Q]|[l Q]]; destruct H as [->|[->| ->]]; destruct l as [|a [|b [|c l]]]; discriminate.
Qed.
Theorem is_no_array_iff s : is_no_array s <-> isArray s = Ret false.
Proof.
  unfold is_no_array. rewrite is_array_iff. destruct (isArray_spec s) as [[-> H]|[[-> H]|(-> & H)]]; [|split; [tauto|discriminate]|]; split; try discriminate; try tauto.
  intros _. split; [discriminate|tauto].
Qed.
Theorem is_container_iff s : is_container s <-> isContainer s = Ret true.
Proof.
  unfold is_container, isContainer, isList, isMap. rewrite is_array_iff, <- !starts_with_spec. destruct (isArray_spec s) as [[-> H]|[[-> H]|(-> & H)]]; cbn [rbind].
  - split; [|discriminate]. destruct H as [->|[->| ->]]; intros [Q|[Q|Q]]; discriminate.
  - cbn. tauto.
  - cbn [orb]. destruct (starts_with _ s), (starts_with _ s); cbn; intuition congruence.
Qed.

(** ** Normalising *)

Lemma resembles_match b : forall s, rx_match (rx_of b) s = true <-> exists m r, s = m ++ r /\ resembles b m.
Proof.
  induction b as [|x b IH]; intros s.
  - split; [intros _; exists "", s; now split|reflexivity].
  - change (rx_of (String x b)) with ((if Ascii.eqb x "." then None else Some x) :: rx_of b). destruct s as [|y s].
    + split; [discriminate|]. intros ([|z m] & r & E & R); [contradiction|discriminate].
    + rewrite rx_match_cons, Bool.andb_true_iff, IH. split.
      * intros (C & m & r & -> & R). exists (String y m), r. split; [reflexivity|]. cbn [resembles]. split; [|exact R].
        destruct (Ascii.eqb x "."); cbn [rx_char_ok] in C; [|now apply Ascii.eqb_eq in C].
        apply Bool.negb_true_iff, Bool.orb_false_iff in C as [C1 C2]. split; now apply Ascii.eqb_neq.
      * intros ([|z m] & r & E & R); [contradiction|]. cbn in E. injection E as <- ->. cbn [resembles] in R. destruct R as [C R].
        split; [|now exists m, r]. destruct (Ascii.eqb x "."); cbn [rx_char_ok]; [|subst; apply Ascii.eqb_refl].
        destruct C as [C1 C2]. apply Bool.negb_true_iff, Bool.orb_false_iff. split; now apply Ascii.eqb_neq.
Qed.
Lemma resembles_length b : forall m, resembles b m -> String.length m = String.length b.
Proof. induction b as [|x b IH]; intros [|y m]; cbn; try contradiction; auto. intros [_ H]. f_equal. auto. Qed.
Lemma rx_of_length b : List.length (rx_of b) = String.length b.
Proof. unfold rx_of. rewrite map_length. apply chars_length. Qed.

Lemma replace_copied p u l s : (forall l1 l2, l = l1 ++ l2 -> l2 <> "" -> rx_match p (l2 ++ s) = false) ->
  rx_replace p u 0 (l ++ s) = l ++ rx_replace p u 0 s.
Proof.
  induction l as [|c l IH]; intros H; [reflexivity|]. pose proof (H "" (String c l) eq_refl ltac:(discriminate)) as Hc. cbn [append rx_replace] in *. rewrite Hc. f_equal. apply IH. intros l1 l2 E N.
  apply (H (String c l1)); [cbn; now rewrite E|exact N].
Qed.
Lemma app_cancel_r a : forall b c : string, String.length a = String.length b -> forall d, a ++ c = b ++ d -> a = b /\ c = d.
Proof. induction a as [|x a IH]; intros [|y b] c L d E; cbn in *; try lia; [auto|]. injection E as -> E. destruct (IH b c ltac:(lia) d E) as [-> ->]. auto. Qed.
Lemma replaced_function b u s s' : b <> "" -> replaced b u s s' -> rx_replace (rx_of b) u 0 s = s'.
Proof.
  intros Hb. induction 1 as [s N|l m r r' R F _ IH].
  - rewrite <- (app_nil_r_s s) at 1. rewrite replace_copied; [cbn; apply app_nil_r_s|]. intros l1 l2 -> Hn. rewrite app_nil_r_s.
    destruct (rx_match (rx_of b) l2) eqn:E; [|reflexivity]. apply resembles_match in E as (m & r & -> & R). exfalso. exact (N l1 m r eq_refl R).
  - rewrite replace_copied.
    + f_equal. pose proof (resembles_length _ _ R) as L. assert (M : rx_match (rx_of b) (m ++ r) = true) by (apply resembles_match; eauto).
      destruct m as [|c m]; [destruct b; [congruence|discriminate]|]. cbn [append rx_replace]. cbn [append] in M. rewrite M. f_equal.
      rewrite rx_of_length, <- L. cbn [String.length]. rewrite Nat.sub_succ, Nat.sub_0_r, rx_replace_skip. exact IH.
    + intros l1 l2 -> Hn. destruct (rx_match (rx_of b) (l2 ++ m ++ r)) eqn:E; [|reflexivity]. apply resembles_match in E as (m' & r0 & E & R').
      specialize (F l1 m' r0). rewrite app_assoc_s, E in F. specialize (F eq_refl R'). rewrite length_app_s in F. destruct l2; [congruence|cbn in F; lia].
Qed.
(** Either nothing resembles [b], or there is a first place. *)
Lemma first_place b s : (forall l m r, s = l ++ m ++ r -> ~ resembles b m) \/
  exists l m r, s = l ++ m ++ r /\ resembles b m /\ forall l' m' r', s = l' ++ m' ++ r' -> resembles b m' -> String.length l <= String.length l'.
Proof.
  assert (K : forall t, rx_match (rx_of b) t = true -> exists l m r, t = l ++ m ++ r /\ resembles b m /\
    forall l' m' r', t = l' ++ m' ++ r' -> resembles b m' -> String.length l <= String.length l').
  { intros t E. apply resembles_match in E as (m & r & E & R). exists "", m, r. split; [exact E|]. split; [exact R|]. cbn. intros. lia. }
  induction s as [|c s IH]; [destruct (rx_match (rx_of b) "") eqn:E|destruct (rx_match (rx_of b) (String c s)) eqn:E]; try (right; now apply K).
  - left. intros l m r E' R. assert (rx_match (rx_of b) "" = true); [|congruence]. apply resembles_match. exists m, r. split; [|exact R].
    destruct l; [exact E'|discriminate].
  - destruct IH as [N|(l & m & r & -> & R & F)].
    + left. intros [|d l] m r E' R; [|cbn in E'; injection E' as _ E'; exact (N l m r E' R)].
      assert (rx_match (rx_of b) (String c s) = true); [|congruence]. apply resembles_match. now exists m, r.
    + right. exists (String c l), m, r. split; [reflexivity|]. split; [exact R|]. intros [|d l'] m' r' E' R'.
      * exfalso. assert (rx_match (rx_of b) (String c (l ++ m ++ r)) = true); [|congruence]. apply resembles_match. now exists m', r'.
      * cbn in E'. injection E' as _ E'. specialize (F l' m' r' E' R'). cbn. lia.
Qed.
Lemma replaced_total b u : b <> "" -> forall n s, String.length s <= n -> exists s', replaced b u s s'.
Proof.
  intros Hb. induction n as [|n IH]; intros s H; (destruct (first_place b s) as [N|(l & m & r & -> & R & F)]; [exists s; now apply r_done|]);
    pose proof (resembles_length _ _ R) as L; rewrite !length_app_s in H; (destruct b; [congruence|]); cbn in L.
  - lia.
  - destruct (IH r ltac:(lia)) as [r' Q]. exists (l ++ u ++ r'). apply r_step; assumption.
Qed.
Lemma replaced_exactly b u s s' : b <> "" -> replaced b u s s' <-> rx_replace (rx_of b) u 0 s = s'.
Proof.
  intros Hb. split; [now apply replaced_function|]. intros <-. destruct (replaced_total b u Hb _ s (Nat.le_refl _)) as [x Q].
  rewrite (replaced_function _ _ _ _ Hb Q). exact Q.
Qed.
Lemma replaced_all_exactly l : (forall b u, In (b, u) l -> b <> "") -> forall s s',
  replaced_all l s s' <-> fold_left (fun n r => rx_replace (rx_of (fst r)) (snd r) 0 n) l s = s'.
Proof.
  induction l as [|[b u] l IH]; intros H s s'; cbn [fold_left fst snd].
  - split; [intros Q; now inversion Q|intros <-; apply ra_nil].
  - assert (Hb : b <> "") by (apply (H b u); now left). assert (Hl : forall b u, In (b, u) l -> b <> "") by (intros b' u' I; apply (H b' u'); now right). split.
    + intros Q. inversion Q as [|b' u' l' s0 s1 s2 Q1 Q2]. subst. apply (replaced_exactly b u _ _ Hb) in Q1. rewrite Q1. now apply (IH Hl).
    + intros E. eapply ra_cons; [apply (replaced_exactly b u); [exact Hb|reflexivity]|now apply (IH Hl)].
Qed.
Theorem normalised_right s s' : makePrim s = s' <-> replaced_all in_order s s'.
Proof.
  symmetry. apply (replaced_all_exactly in_order). intros b u H. cbn in H. decompose [or] H; try contradiction; match goal with E : _ = (b, u) |- _ => injection E as <- <- end; discriminate.
Qed.
