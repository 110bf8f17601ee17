From Coq Require Import Lia.
From Verif Require Import Base Proton.
From Verif Require Export SpecCursor.
Import List ListNotations.

(** ** Cursor levels *)

Lemma height_node a cs : height (Node a cs) = S (heights cs).
Proof. reflexivity. Qed.
Lemma heights_cons t cs : heights (t :: cs) = Nat.max (height t) (heights cs).
Proof. reflexivity. Qed.
Lemma heights_app l r : heights (l ++ r) = Nat.max (heights l) (heights r).
Proof. induction l as [|t l IH]; [reflexivity|]. simpl app. rewrite !heights_cons, IH. lia. Qed.
Lemma heights_in t cs : In t cs -> height t <= heights cs.
Proof.
  induction cs as [|u cs IH]; intros H; [destruct H|]. rewrite heights_cons.
  destruct H as [->|H]; [lia|]. apply IH in H. lia.
Qed.

Definition same_level (d d' : data) : Prop := ups d' = ups d /\ siblings (here d') = siblings (here d).

Definition below (n : nat) (d : data) : Prop := heights (siblings (here d)) <= n.

Lemma same_level_refl d : same_level d d.
Proof. split; reflexivity. Qed.
Lemma same_level_trans a b c : same_level a b -> same_level b c -> same_level a c.
Proof. intros [H1 H2] [H3 H4]. split; congruence. Qed.
Lemma same_level_below n a b : same_level a b -> below n a -> below n b.
Proof. unfold below. intros [_ ->]. auto. Qed.

Lemma next_same d : same_level d (pn_next d).
Proof.
  destruct d as [[[|t r]|l t [|t' r]] u]; split; try reflexivity.
Qed.
Lemma next_at d : isAt d -> isAt (pn_next d).
Proof. destruct d as [[[|t r]|l t [|t' r]] u]; cbv; tauto. Qed.
Lemma next_ok_at d : pn_next_ok d = true -> isAt (pn_next d).
Proof. destruct d as [[[|t r]|l t [|t' r]] u]; try discriminate; intros _; try exact I; reflexivity. Qed.

(** How many more times [pn_next] can succeed. *)
Definition remaining (d : data) : nat :=
  match here d with Before cs => List.length cs | At _ _ r => List.length r end.
Lemma remaining_le d : remaining d <= List.length (siblings (here d)).
Proof.
  destruct d as [[cs|l t r] u]; unfold remaining; simpl; [lia|].
  rewrite rev_append_rev, app_length. simpl. lia.
Qed.
Lemma next_remaining d : pn_next_ok d = true -> remaining d = S (remaining (pn_next d)).
Proof. destruct d as [[[|t r]|l t [|t' r]] u]; try discriminate; intros _; try exact I; reflexivity. Qed.

(** Entering the current node and coming back is the identity, whatever
    happened inside as long as the level is still the same one. *)
Lemma enter_exit d d' : isAt d -> same_level (pn_enter d) d' -> pn_exit d' = d.
Proof.
  destruct d as [[cs|l [a cs] r] u]; simpl; [intros []|]. intros _ [H1 H2].
  unfold pn_exit. rewrite H1, H2. reflexivity.
Qed.
Lemma below_belowc n d : below n d -> belowc n d.
Proof.
  destruct d as [[cs|l t r] u]; unfold below, belowc; simpl; [auto|].
  rewrite rev_append_rev, heights_app, heights_cons. lia.
Qed.
Lemma enter_below n d : isAt d -> belowc n d -> n <> 0 /\ below (n - 1) (pn_enter d).
Proof.
  destruct d as [[cs|l [a cs] r] u]; unfold belowc, below; [intros []|]. intros _. simpl. unfold heights. lia.
Qed.

(** ** Programs that keep their level *)

(** Started anywhere. *)
Definition loose {A} (n : nat) (m : PM A) : Prop := forall d, below n d ->
  match m d with
  | Ok _ d' => same_level d d'
  | Throw _ d' => same_level d d'
  | Fuel => False
  | _ => True
  end.
(** Started on a node. *)
Definition steady {A} (n : nat) (m : PM A) : Prop := forall d, below n d -> isAt d ->
  match m d with
  | Ok _ d' => same_level d d' /\ isAt d'
  | Throw _ d' => same_level d d' /\ isAt d'
  | Fuel => False
  | _ => True
  end.
(** Started anywhere, but succeeds on a node only. *)
Definition probing {A} (n : nat) (m : PM A) : Prop := forall d, below n d ->
  match m d with
  | Ok _ d' => same_level d d' /\ isAt d'
  | Throw _ d' => same_level d d' /\ (isAt d -> isAt d')
  | Fuel => False
  | _ => True
  end.
(** Started on a node, ends on the same node. *)
Definition restoring {A} (n : nat) (m : PM A) : Prop := forall d, belowc n d -> isAt d ->
  match m d with
  | Ok _ d' => d' = d
  | Throw _ d' => d' = d
  | Fuel => False
  | _ => True
  end.

Lemma probing_steady {A} n (m : PM A) : probing n m -> steady n m.
Proof. intros H d Hb Ha. specialize (H d Hb). destruct (m d); intuition. Qed.
Lemma probing_loose {A} n (m : PM A) : probing n m -> loose n m.
Proof. intros H d Hb. specialize (H d Hb). destruct (m d); intuition. Qed.
Lemma restoring_steady {A} n (m : PM A) : restoring n m -> steady n m.
Proof.
  intros H d Hb Ha. specialize (H d (below_belowc _ _ Hb) Ha). destruct (m d); subst; auto using same_level_refl.
Qed.

Lemma loose_bind {A B} n (m : PM A) (f : A -> PM B) : probing n m -> (forall a, steady n (f a)) -> loose n (bind m f).
Proof.
  intros Hm Hf d Hb. unfold bind. specialize (Hm d Hb). destruct (m d) as [a d1|e d1| | |]; try tauto.
  destruct Hm as [H1 H2]. specialize (Hf a d1 (same_level_below _ _ _ H1 Hb) H2).
  destruct (f a d1) as [b d2|e d2| | |]; auto; destruct Hf; eapply same_level_trans; eauto.
Qed.
Lemma steady_bind {A B} n (m : PM A) (f : A -> PM B) : steady n m -> (forall a, steady n (f a)) -> steady n (bind m f).
Proof.
  intros Hm Hf d Hb Ha. unfold bind. specialize (Hm d Hb Ha). destruct (m d) as [a d1|e d1| | |]; try tauto.
  destruct Hm as [H1 H2]. specialize (Hf a d1 (same_level_below _ _ _ H1 Hb) H2).
  destruct (f a d1) as [b d2|e d2| | |]; auto; destruct Hf; split; auto; eapply same_level_trans; eauto.
Qed.
Lemma probing_bind {A B} n (m : PM A) (f : A -> PM B) : probing n m -> (forall a, steady n (f a)) -> probing n (bind m f).
Proof.
  intros Hm Hf d Hb. unfold bind. specialize (Hm d Hb). destruct (m d) as [a d1|e d1| | |]; try tauto.
  destruct Hm as [H1 H2]. specialize (Hf a d1 (same_level_below _ _ _ H1 Hb) H2).
  destruct (f a d1) as [b d2|e d2| | |]; auto; destruct Hf; split; auto; eapply same_level_trans; eauto.
Qed.
Lemma restoring_bind {A B} n (m : PM A) (f : A -> PM B) : restoring n m -> (forall a, restoring n (f a)) -> restoring n (bind m f).
Proof.
  intros Hm Hf d Hb Ha. unfold bind. specialize (Hm d Hb Ha). destruct (m d) as [a d1|e d1| | |]; try tauto.
  subst d1. apply Hf; auto.
Qed.

Lemma ret_steady {A} n (a : A) : steady n (ret a).
Proof. intros d _ Ha. simpl. auto using same_level_refl. Qed.
Lemma ret_restoring {A} n (a : A) : restoring n (ret a).
Proof. intros d _ Ha. reflexivity. Qed.
Lemma throw_probing {A} n e : probing n (@throw data A e).
Proof. intros d _. simpl. auto using same_level_refl. Qed.
Lemma ub_any {A} n : probing n (@ub data A).
Proof. intros d _. exact I. Qed.
Lemma lift_restoring {A} n (m : res A) : m <> NoFuel -> restoring n (lift m).
Proof. intros Hm d _ Ha. unfold lift. destruct m; auto. Qed.

Lemma require_probing n ty : ty <> TInvalid -> probing n (require ty).
Proof.
  intros Hty d _. unfold require, is_type. destruct (pn_type_eqb (pn_dtype d) ty) eqn:E.
  - split; [apply same_level_refl|]. destruct d as [[cs|l [a cs] r] u]; [|exact I]. unfold pn_dtype in E; simpl in E.
    destruct ty; simpl in E; congruence.
  - auto using same_level_refl.
Qed.
Lemma require_restoring n ty : restoring n (require ty).
Proof. intros d _ _. unfold require. destruct (is_type ty d); reflexivity. Qed.

Lemma cur_probing {A} n (m : PM A) : (forall d, match m d with
    | Ok _ d' => d' = d /\ cur_atom d <> None
    | Throw _ d' => d' = d | Fuel => False | _ => True end) -> probing n m.
Proof.
  intros H d _. specialize (H d). destruct (m d); try tauto.
  - destruct H as [-> H]. split; [apply same_level_refl|]. destruct d as [[cs|l [b cs] r] u]; [now elim H|exact I].
  - subst. auto using same_level_refl.
Qed.
Lemma get_string_probing n b : probing n (get_string b).
Proof.
  apply cur_probing. intros d. unfold get_string. destruct (cur_atom d) as [[]|]; auto; try (split; congruence).
  destruct b; auto. split; congruence.
Qed.
Lemma get_symbol_probing n : probing n get_symbol.
Proof. apply cur_probing. intros d. unfold get_symbol. destruct (cur_atom d) as [[]|]; auto. split; congruence. Qed.
Lemma get_boolean_probing n : probing n get_boolean.
Proof. apply cur_probing. intros d. unfold get_boolean. destruct (cur_atom d) as [[]|]; auto. split; congruence. Qed.

Lemma auto_next_steady {A} n (m : PM A) : steady n m -> steady n (auto_next m).
Proof.
  intros H d Hb Ha. unfold auto_next, finally. specialize (H d Hb Ha). destruct (m d) as [a d1|e d1| | |]; auto.
  - destruct H as [H1 H2]. split; [eapply same_level_trans; [exact H1|apply next_same]|now apply next_at].
  - destruct H as [H1 H2]. split; [eapply same_level_trans; [exact H1|apply next_same]|now apply next_at].
Qed.
Lemma auto_next_probing {A} n (m : PM A) : probing n m -> probing n (auto_next m).
Proof.
  intros H d Hb. unfold auto_next, finally. specialize (H d Hb). destruct (m d) as [a d1|e d1| | |]; auto.
  - destruct H as [H1 H2]. split; [eapply same_level_trans; [exact H1|apply next_same]|now apply next_at].
  - destruct H as [H1 H2]. split; [eapply same_level_trans; [exact H1|apply next_same]|]. intros Ha.
    now apply next_at, H2.
Qed.
Lemma readAndNext_string_probing n b : probing n (readAndNext_string b).
Proof.
  apply auto_next_probing, cur_probing. intros d. destruct (cur_atom d) as [[]|]; auto; try (split; congruence).
  destruct b; auto. split; congruence.
Qed.
Lemma read_raw_steady {A} n (g : data -> A) : steady n (read_raw g).
Proof. intros d _ Ha. unfold read_raw. split; [apply next_same|now apply next_at]. Qed.
Lemma read_raw_loose {A} n (g : data -> A) : loose n (read_raw g).
Proof. intros d _. unfold read_raw. apply next_same. Qed.

Lemma auto_enter_restoring {A} n b (m : PM A) : (n <> 0 -> loose (n - 1) m) -> restoring n (auto_enter b m).
Proof.
  intros H d Hb Ha. unfold auto_enter, finally.
  set (d1 := if b then pn_next (w_enter d) else w_enter d).
  assert (Hs : same_level (pn_enter d) d1).
  { unfold d1, w_enter. destruct b; eauto using same_level_trans, next_same. }
  destruct (enter_below n d Ha Hb) as [Hn Hb'].
  specialize (H Hn d1 (same_level_below _ _ _ Hs Hb')).
  destruct (m d1); auto; apply enter_exit; auto; eapply same_level_trans; eauto.
Qed.
Lemma auto_list_enter_restoring {A} n b (m : nat -> PM A) : (forall k, n <> 0 -> loose (n - 1) (m k)) ->
  restoring n (auto_list_enter b m).
Proof.
  intros H d Hb Ha. unfold auto_list_enter, finally.
  set (d1 := if b then pn_next (pn_enter d) else pn_enter d).
  assert (Hs : same_level (pn_enter d) d1).
  { unfold d1. destruct b; eauto using same_level_refl, next_same. }
  destruct (enter_below n d Ha Hb) as [Hn Hb'].
  specialize (H (pn_get_list d) Hn d1 (same_level_below _ _ _ Hs Hb')).
  destruct (m (pn_get_list d) d1); auto; apply enter_exit; auto; eapply same_level_trans; eauto.
Qed.
Lemma auto_map_enter_restoring {A} n b (m : nat -> PM A) : (forall k, n <> 0 -> loose (n - 1) (m k)) ->
  restoring n (auto_map_enter b m).
Proof.
  intros H d Hb Ha. unfold auto_map_enter, finally.
  set (d1 := if b then pn_next (pn_enter d) else pn_enter d).
  assert (Hs : same_level (pn_enter d) d1).
  { unfold d1. destruct b; eauto using same_level_refl, next_same. }
  destruct (enter_below n d Ha Hb) as [Hn Hb'].
  specialize (H (pn_get_map d) Hn d1 (same_level_below _ _ _ Hs Hb')).
  destruct (m (pn_get_map d) d1); auto; apply enter_exit; auto; eapply same_level_trans; eauto.
Qed.

(** ** Writing *)

Lemma put_at t l c u : pn_put_tree t (Data (At l c []) u) = Data (At (c :: l) t []) u.
Proof. reflexivity. Qed.

Lemma put_forest_at ts : forall l t u,
  fold_left (fun d t => pn_put_tree t d) ts (Data (At l t []) u) =
  match rev ts with
  | [] => Data (At l t []) u
  | t' :: ts' => Data (At (ts' ++ t :: l) t' []) u
  end.
Proof.
  induction ts as [|a ts IH]; intros l t u; [reflexivity|]. cbn [fold_left]. rewrite put_at, IH. simpl rev.
  destruct (rev ts) as [|b ts']; simpl; [reflexivity|]. rewrite <- app_assoc. reflexivity.
Qed.

(** Writing a list of trees into an empty node. *)
Lemma put_forest_empty ts u :
  siblings (here (fold_left (fun d t => pn_put_tree t d) ts (Data (Before []) u))) = ts /\
  ups (fold_left (fun d t => pn_put_tree t d) ts (Data (Before []) u)) = u.
Proof.
  destruct ts as [|a ts]; [split; reflexivity|]. cbn [fold_left].
  change (pn_put_tree a (Data (Before []) u)) with (Data (At [] a []) u). rewrite put_forest_at.
  destruct (rev ts) as [|b ts'] eqn:E; simpl; (split; [|reflexivity]).
  - apply (f_equal (@rev tree)) in E. rewrite rev_involutive in E. simpl in E. now subst.
  - apply (f_equal (@rev tree)) in E. rewrite rev_involutive in E. simpl in E. subst ts.
    rewrite rev_append_rev, rev_app_distr. simpl. reflexivity.
Qed.
