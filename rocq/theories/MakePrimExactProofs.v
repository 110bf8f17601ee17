(** Which texts RestrictedDescriptor::makePrim leaves alone. *)
From Coq Require Import Lia.
From Verif Require Import Base TypeNames SpecTypes TypeNamesProofs MakePrimProofs.
Import List ListNotations.
Open Scope string_scope.

Lemma hits_somewhere p s : hits p s = true -> exists l r, s = l ++ r /\ rx_match p r = true.
Proof.
  induction s as [|c s IH]; cbn [hits]; intros H; [discriminate|]. apply Bool.orb_true_iff in H as [H|H]; [exists "", (String c s); now split|].
  destruct (IH H) as (l & r & -> & M). exists (String c l), r. now split.
Qed.
Lemma boxed_regex b : boxed b <-> exists v, In (b, v) regexs.
Proof.
  split.
  - intros Hb. unfold boxed in Hb. simpl in Hb. repeat (destruct Hb as [<-|Hb]; [eexists; simpl; eauto 10|]). contradiction.
  - intros (v & H). unfold boxed. simpl in H. repeat (destruct H as [[= <- _]|H]; [simpl; tauto|]). contradiction.
Qed.
Lemma has_middle c l m r : has c m -> has c (l ++ m ++ r).
Proof. unfold has. change list_ascii_of_string with chars. intros H. rewrite !chars_app. apply in_or_app; right. apply in_or_app; auto. Qed.

Lemma untouched s : (forall c, has c s -> c <> "010"%char /\ c <> "013"%char) ->
  (makePrim s = s <-> forall b l m r, boxed b -> s = l ++ m ++ r -> ~ looks_like b m).
Proof.
  intros Hs. split.
  - intros E b l m r Hb -> Hm. destruct (proj1 (boxed_regex b) Hb) as [v Hr].
    assert (X : hits (rx_of b) (l ++ m ++ r) = true).
    { apply hits_suffix.
      - pose proof (boxed_length b Hb). apply looks_length in Hm. destruct m; simpl in *; [lia|discriminate].
      - apply rx_match_looks_conv; [exact Hm|]. intros c Hc. now apply Hs, has_middle. }
    pose proof (passes_clean regexs regexs regexs_apart (incl_refl _) (l ++ m ++ r) []
      (fun x (H : In x []) => match H with end) (fun x (H : In x []) => match H with end) (b, v) Hr) as Hf.
    change (fold_left pass regexs (l ++ m ++ r)) with (makePrim (l ++ m ++ r)) in Hf. rewrite E in Hf. simpl fst in Hf. congruence.
  - intros H. apply passes_quiet. intros [b v] Hr. cbn [fst]. destruct (hits (rx_of b) s) eqn:E; [|reflexivity].
    destruct (hits_somewhere _ _ E) as (l & r & -> & M). apply rx_match_looks in M as (m & r' & -> & Hm).
    destruct (H b l m r'); [apply boxed_regex; eauto|reflexivity|exact Hm].
Qed.
Lemma makePrim_boxed b : boxed b -> makePrim b = unboxed_name b.
Proof. intros Hb. unfold boxed in Hb. simpl in Hb. repeat (destruct Hb as [<-|Hb]; [reflexivity|]). contradiction. Qed.
Lemma unboxed_other n : ~ boxed n -> unboxed_name n = n.
Proof.
  intros H. unfold unboxed_name. destruct (find _ _) as [p|] eqn:E; [|reflexivity]. apply find_some in E as [E1 E2]. apply String.eqb_eq in E2. subst.
  destruct H. now apply in_map.
Qed.
Lemma boxed_dec n : boxed n \/ ~ boxed n.
Proof. destruct (in_dec string_dec n (map fst boxed_table)); [now left|now right]. Qed.
Lemma normalised_exactly n : (forall c, has c n -> c <> "010"%char /\ c <> "013"%char) ->
  (makePrim n = unboxed_name n <-> boxed n \/ forall b l m r, boxed b -> n = l ++ m ++ r -> ~ looks_like b m).
Proof.
  intros Hn. destruct (boxed_dec n) as [B|B].
  - split; [now left|]. intros _. now apply makePrim_boxed.
  - rewrite (unboxed_other n B), (untouched n Hn). tauto.
Qed.

(** ** The element type of an array *)
Lemma arrayType_first l r : ~ has "[" l -> arrayType (l ++ "[" ++ r) = Ret l.
Proof. intros H. unfold arrayType. change ("[" ++ r) with (String "[" r). now rewrite find_char_app, substr_prefix. Qed.
Lemma has_split c s : has c s -> exists l r, s = l ++ String c r /\ ~ has c l.
Proof.
  induction s as [|a s IH]; intros H; [destruct H|]. destruct (Ascii.eqb_spec a c) as [->|N].
  - exists "", s. split; [reflexivity|intros []].
  - destruct H as [H|H]; [contradiction|]. destruct (IH H) as (l & r & -> & K). exists (String a l), r. split; [reflexivity|]. intros [X|X]; contradiction.
Qed.
Lemma arrayType_wrong e s : has "[" e -> arrayType (e ++ s) <> Ret e.
Proof.
  intros H E. destruct (has_split _ _ H) as (l & r & -> & N). rewrite app_assoc_s in E. change (l ++ String "[" r ++ s) with (l ++ "[" ++ (r ++ s)) in E.
  rewrite (arrayType_first l _ N) in E. injection E as E. apply (f_equal String.length) in E. rewrite length_app_s in E. cbn in E. lia.
Qed.
Lemma arrayType_exactly e :
  (forall l r, ~ has "[" l -> arrayType (l ++ "[" ++ r) = Ret l) /\
  (~ has "[" e -> arrayType e = Ret e) /\
  (arrayType (e ++ "[]") = Ret e <-> ~ has "[" e) /\ (arrayType (e ++ "[p]") = Ret e <-> ~ has "[" e).
Proof.
  split; [exact arrayType_first|]. split; [intros H; unfold arrayType; now rewrite find_char_none|].
  split; (split; [intros E H; exact (arrayType_wrong e _ H E)|intros H; now apply arrayType_spec]).
Qed.
