(** What the lines written while a payload is shown give away, and what they do not. *)
From Coq Require Import Lia.
From Verif Require Import Base OutputWriter SpecOutputWriter Proton SpecCursor ProtonProofs TypeNames Schema SpecSchema SchemaProofs Descriptors SpecDescriptors Factory SpecFactory FactoryProofs
  Readers SpecReaders Blob ReadersProofs SpecAccept AcceptProofs SpecDisplay SpecInstalled DisplayProofs ContentsProofs SpecReadScript SpecParse ParseProofs
  SpecSupply SupplyProofs SpecFate FateProofs PrepareProofs FateBlobProofs Output SpecOutput OutputProofs OutputReader SpecOutputReader OutputReaderProofs OutputShow SpecOutputShow OutputShowProofs OutputShowBlobProofs.
Import List ListNotations.
Open Scope string_scope.

(** ** Veiled trees *)
Lemma same_sort_refl a : same_sort a a.
Proof. now destruct a. Qed.
Lemma both_refl o : both_veiled o o.
Proof. destruct o; cbn; auto using veiled_same. Qed.
Lemma Forall2_refl {A} (R : A -> A -> Prop) l : (forall a, R a a) -> Forall2 R l l.
Proof. intros H. induction l; constructor; auto. Qed.
Lemma veiled_view t t' : veiled t t' -> same_sort (tree_atom t) (tree_atom t') /\ Forall2 veiled (tree_children t) (tree_children t') /\ (tree_atom t = ADescribed -> part 0 t = part 0 t').
Proof.
  intros [t0|a b cs ds N S F|c cs ds F]; cbn.
  - split; [apply same_sort_refl|]. split; [apply Forall2_refl; intros c; apply veiled_same|auto].
  - split; [exact S|]. split; [exact F|]. intros E. now elim N.
  - split; [reflexivity|]. split; [constructor; [apply veiled_same|exact F]|auto].
Qed.
Lemma Forall2_at {A B} (R : A -> B -> Prop) l l' : Forall2 R l l' -> forall n, match nth_error l n, nth_error l' n with Some a, Some b => R a b | None, None => True | _, _ => False end.
Proof. induction 1; intros [|n]; cbn; auto. apply IHForall2. Qed.
Lemma Forall2_len {A B} (R : A -> B -> Prop) l l' : Forall2 R l l' -> length l = length l'.
Proof. induction 1; cbn; congruence. Qed.
Lemma veiled_part k t t' : veiled t t' -> both_veiled (part k t) (part k t').
Proof.
  intros V. apply veiled_view in V as (_ & F & _). unfold part. rewrite (Forall2_len _ _ _ F).
  pose proof (Forall2_at _ _ _ F (Nat.min k (length (tree_children t') - 1))) as H. unfold both_veiled.
  destruct (nth_error (tree_children t) _), (nth_error (tree_children t') _); auto.
Qed.
Lemma veiled_inside k o o' : both_veiled o o' -> both_veiled (inside k o) (inside k o').
Proof. destruct o, o'; cbn; auto; try contradiction. apply veiled_part. Qed.
Lemma veiled_height : forall n t t', height t <= n -> veiled t t' -> height t' = height t.
Proof.
  induction n as [|n IH]; intros [a cs] [b ds] Hn V; rewrite height_node in Hn; [lia|]. apply veiled_view in V as (_ & F & _). cbn [tree_children] in F. rewrite !height_node. f_equal.
  assert (X : forall c, In c cs -> height c <= n) by (intros c Hc; apply heights_in in Hc; lia). clear Hn.
  induction F as [|x y cs ds V F IHF]; [reflexivity|]. rewrite !heights_cons. rewrite IHF by auto with datatypes. rewrite (IH x y); auto with datatypes.
Qed.

(** ** Hearing the same *)
Definition alike_heard {A B} (R : A -> B -> Prop) (h : heard A) (h' : heard B) : Prop :=
  fst h = fst h' /\
  match snd h, snd h' with Gives a, Gives b => R a b | Raises e, Raises e' => e = e' | Stops, Stops | Wild, Wild => True | _, _ => False end.
Definition whatever {A B} (a : A) (b : B) : Prop := True.
Lemma alike_same {A} (R : A -> A -> Prop) h : (forall a, R a a) -> alike_heard R h h.
Proof. intros H. split; [reflexivity|]. destruct (snd h); auto. Qed.
Lemma alike_weak {A B} (R S : A -> B -> Prop) h h' : alike_heard R h h' -> (forall a b, R a b -> S a b) -> alike_heard S h h'.
Proof. intros [E H] W. split; [exact E|]. destruct (snd h), (snd h'); auto. Qed.
Lemma alike_then {A A' B B'} (R : A -> A' -> Prop) (S : B -> B' -> Prop) h h' k k' :
  alike_heard R h h' -> (forall a a', R a a' -> alike_heard S (k a) (k' a')) -> alike_heard S (and_then h k) (and_then h' k').
Proof.
  intros [E H] K. unfold and_then. destruct (snd h) as [a|e| |], (snd h') as [a'|e'| |]; try contradiction; cbn; try (now split).
  destruct (K a a' H) as [K1 K2]. split; cbn; [congruence|exact K2].
Qed.
Lemma alike_gives {A B} (R : A -> B -> Prop) a b : R a b -> alike_heard R (silent (Gives a)) (silent (Gives b)).
Proof. now split. Qed.
Lemma alike_turn {A A' B B'} (P : A -> A' -> Prop) (f : A -> heard B) (f' : A' -> heard B') l l' : Forall2 P l l' -> (forall a a', P a a' -> alike_heard whatever (f a) (f' a')) ->
  alike_heard whatever (in_turn f l) (in_turn f' l').
Proof.
  intros F H. induction F as [|a a' l l' Ha F IH]; cbn [in_turn]; [now apply alike_gives|].
  eapply alike_then; [now apply H|]. intros b b' _. eapply alike_then; [apply IH|]. intros bs bs' _. now apply alike_gives.
Qed.
Lemma alike_end {A B} (h : heard A) (h' : heard B) : alike_heard whatever h h' <-> fst h = fst h' /\ same_end (snd h) (snd h').
Proof. unfold alike_heard, same_end, whatever. reflexivity. Qed.

Lemma word_alike o o' : both_veiled o o' -> alike_heard whatever (word o) (word o').
Proof.
  intros V. unfold word. eapply alike_then; [apply (alike_same eq); reflexivity|]. intros _ _ _. split; [reflexivity|].
  destruct o as [t|], o' as [t'|]; try contradiction; [|exact eq_refl]. apply veiled_view in V as (S & _). destruct t as [a cs], t' as [b ds]. cbn [tree_atom] in S.
  destruct a, b; cbn in S; try discriminate; cbn; unfold whatever; auto.
Qed.
Lemma described_alike o o' : both_veiled o o' -> alike_heard (fun t t' => veiled t t' /\ tree_atom t = ADescribed) (must_be_described o) (must_be_described o').
Proof.
  intros V. split; [reflexivity|]. destruct o as [t|], o' as [t'|]; try contradiction; [|exact eq_refl]. pose proof (veiled_view _ _ V) as (S & _). destruct t as [a cs], t' as [b ds]. cbn [tree_atom] in S.
  destruct a, b; cbn in S; try discriminate; cbn; auto.
Qed.
Lemma list_alike env o o' : both_veiled o o' -> alike_heard veiled (must_be_list env o) (must_be_list env o').
Proof.
  intros V. destruct o as [t|], o' as [t'|]; try contradiction; [|now split]. pose proof (veiled_view _ _ V) as (S & _). destruct t as [a cs], t' as [b ds]. cbn [tree_atom] in S.
  destruct a, b; cbn in S; try discriminate; split; cbn; auto.
Qed.
Lemma note_alike env a n s : alike_heard eq (note env a n s) (note env a n s).
Proof. apply alike_same. reflexivity. Qed.
Lemma integer_alike o o' : both_veiled o o' -> integer o = integer o'.
Proof.
  intros V. destruct o as [t|], o' as [t'|]; try contradiction; [|reflexivity]. pose proof (veiled_view _ _ V) as (S & _). destruct t as [a cs], t' as [b ds]. cbn [tree_atom] in S.
  destruct a, b; cbn in S; try discriminate; cbn; congruence.
Qed.
Lemma parts_alike o o' : both_veiled o o' -> Forall2 veiled (parts_of_list o) (parts_of_list o') /\ parts_of_map o = parts_of_map o' /\ pairs_of_map o = pairs_of_map o'.
Proof.
  intros V. destruct o as [t|], o' as [t'|]; try contradiction; [|split; [constructor|now split]]. pose proof (veiled_view _ _ V) as (S & F & _). destruct t as [a cs], t' as [b ds]. cbn [tree_atom tree_children] in *.
  pose proof (Forall2_len _ _ _ F). destruct a, b; cbn in S; try discriminate; cbn; (split; [first [exact F|apply Forall2_nil]|]); rewrite ?H; auto.
Qed.
Lemma numbered_refl {A} (l : list A) : Forall2 eq l l.
Proof. now apply Forall2_refl. Qed.

Section Hidden.
Context (env : platform) (double : N -> string) (kf : bool) (known ts : list notation) (inst : string -> option (option string -> option tree -> heard string)).
Hypothesis Hi : forall ty g, inst ty = Some g -> forall name o o', both_veiled o o' -> alike_heard whatever (g name o) (g name o').
Notation aloud := (value_aloud env double kf known ts inst).
Lemma primitive_alike name ty o o' : both_veiled o o' ->
  match primitive_aloud env double name ty o, primitive_aloud env double name ty o' with Some h, Some h' => alike_heard whatever h h' | None, None => True | _, _ => False end.
Proof.
  intros V. unfold primitive_aloud, primitive. destruct (String.eqb ty "int").
  { unfold integer_aloud. rewrite (integer_alike _ _ V). now apply alike_same. }
  destruct (String.eqb ty "string").
  { unfold text_aloud. eapply alike_then; [apply (alike_same eq); reflexivity|]. intros _ _ _. eapply alike_then; [now apply word_alike|]. intros s s' _. now apply alike_gives. }
  repeat (destruct (String.eqb ty _); [now split|]). exact I.
Qed.
Lemma type_alike t t' : veiled t t' -> tree_atom t = ADescribed -> alike_heard whatever (type_aloud ts t) (type_aloud ts t').
Proof. intros V D. apply veiled_view in V as (_ & _ & P). unfold type_aloud. rewrite (P D). now apply alike_same. Qed.
Lemma aloud_alike : forall n name ty o o', both_veiled o o' -> alike_heard whatever (aloud n name ty o) (aloud n name ty o').
Proof.
  induction n as [|n IH]; intros name ty o o' V; cbn [value_aloud]; [now split|].
  pose proof (primitive_alike name ty o o' V) as P. destruct (primitive_aloud env double name ty o), (primitive_aloud env double name ty o'); try contradiction; [exact P|].
  destruct (inst ty) as [g|] eqn:Eg; [eapply Hi; eauto|]. destruct (type_called known ty) as [[c|r]|]; [| |now split].
  - assert (G : alike_heard whatever
      (let^ _ := note env "CompositeReader.cxx" 46 "Read Composite: " in let^ t := must_be_described o in let^ fp := silent (of_ending (symbol_of (part 0 t))) in
       match type_printed ts fp with
       | None => silent (Raises RuntimeError) | Some (TRestricted _) => silent (Raises BadCast)
       | Some (TComposite c') => if Nat.eqb (length (c_fields c')) (length (c_fields c)) then let^ body := must_be_list env (part 1 t) in
            let^ xs := in_turn (property_aloud env (aloud n) body) (numbered (combine (c_fields c') (c_fields c))) in silent (Gives (braces xs)) else silent Stops end)
      (let^ _ := note env "CompositeReader.cxx" 46 "Read Composite: " in let^ t := must_be_described o' in let^ fp := silent (of_ending (symbol_of (part 0 t))) in
       match type_printed ts fp with
       | None => silent (Raises RuntimeError) | Some (TRestricted _) => silent (Raises BadCast)
       | Some (TComposite c') => if Nat.eqb (length (c_fields c')) (length (c_fields c)) then let^ body := must_be_list env (part 1 t) in
            let^ xs := in_turn (property_aloud env (aloud n) body) (numbered (combine (c_fields c') (c_fields c))) in silent (Gives (braces xs)) else silent Stops end)).
    { eapply alike_then; [apply note_alike|]. intros _ _ _. eapply alike_then; [now apply described_alike|]. intros t t' [Vt Dt].
      destruct (veiled_view _ _ Vt) as (_ & _ & P0). rewrite (P0 Dt). eapply alike_then; [apply (alike_same eq); reflexivity|]. intros fp _ <-.
      destruct (type_printed ts fp) as [[c'|]|]; [|now split|now split]. destruct (Nat.eqb _ _); [|now split].
      eapply alike_then; [apply list_alike, veiled_part, Vt|]. intros body body' Vb. eapply alike_then; [|intros xs xs' _; now apply alike_gives].
      eapply alike_turn; [apply numbered_refl|]. intros [i [fd' fd]] _ <-. unfold property_aloud. eapply alike_then; [apply note_alike|]. intros _ _ _.
      destruct (property_type fd) as [ty'|]; [|now split]. eapply alike_then; [apply IH, veiled_part, Vb|]. intros x x' _. now apply alike_gives. }
    unfold object_aloud. destruct o as [t|], o' as [t'|]; try contradiction; [|exact G]. pose proof (veiled_view _ _ V) as (S & _). destruct t as [a cs], t' as [b ds]. cbn [tree_atom] in S.
    destruct a, b; cbn in S; try discriminate; try exact G. now split.
  - assert (Sq : forall e, alike_heard whatever (sequence_aloud ts (aloud n) e o) (sequence_aloud ts (aloud n) e o')).
    { intros e. unfold sequence_aloud. eapply alike_then; [now apply described_alike|]. intros t t' [Vt Dt]. eapply alike_then; [now apply type_alike|]. intros _ _ _.
      eapply alike_then; [|intros xs xs' _; now apply alike_gives]. eapply alike_turn; [apply parts_alike, veiled_part, Vt|]. intros p p' Vp. now apply IH. }
    assert (Mp : forall k v, alike_heard whatever (mapping_aloud env kf ts (aloud n) name k v o) (mapping_aloud env kf ts (aloud n) name k v o')).
    { intros k v. unfold mapping_aloud. eapply alike_then; [apply (alike_same eq); reflexivity|]. intros _ _ _. eapply alike_then; [now apply described_alike|]. intros t t' [Vt Dt].
      eapply alike_then; [now apply type_alike|]. intros _ _ _. pose proof (veiled_part 1 _ _ Vt) as V1. destruct (parts_alike _ _ V1) as (_ & -> & ->).
      eapply alike_then; [apply note_alike|]. intros _ _ _. eapply alike_then; [|intros xs xs' _; now apply alike_gives]. eapply alike_turn; [apply numbered_refl|]. intros i _ <-.
      unfold entry_aloud. destruct kf; (eapply alike_then; [apply IH, veiled_inside, V1|]; intros x x' _; eapply alike_then; [apply IH, veiled_inside, V1|]; intros y y' _; now apply alike_gives). }
    assert (Cn : alike_heard whatever (constant_aloud o) (constant_aloud o')).
    { unfold constant_aloud. eapply alike_then; [now apply described_alike|]. intros t t' [Vt Dt]. destruct (veiled_view _ _ Vt) as (_ & _ & P0). rewrite (P0 Dt).
      eapply alike_then; [apply (alike_same eq); reflexivity|]. intros _ _ _. apply word_alike, veiled_inside, veiled_part, Vt. }
    destruct (r_kind r); destruct (r_of r) as [|k1 [|k2 [|]]]; auto; now split.
Qed.
End Hidden.

(** ** Blobs *)
Lemma serialisers_alike env answers rs : discreet answers -> forall ty g, serialiser_aloud env answers rs ty = Some g -> forall name o o', both_veiled o o' -> alike_heard whatever (g name o) (g name o').
Proof.
  intros D ty g. unfold serialiser_aloud. destruct (find _ rs) as [r|]; [|discriminate]. destruct r; try discriminate; intros [= <-] name o o' V.
  - unfold key_aloud. destruct name as [n|]; (split; [reflexivity|]); unfold key_of; cbn [and_then note silent snd fst is_named]; [|reflexivity].
    destruct (described_alike o o' V) as [_ H]. unfold must_be_described, silent in H. cbn [snd] in H.
    destruct (described_tree o) as [t|e| |], (described_tree o') as [t'|e'| |]; try contradiction; cbn [onward]; auto.
    destruct H as [Vt _]. apply (veiled_part 1) in Vt. destruct (part 1 t) as [u|], (part 1 t') as [u'|]; try contradiction; [|reflexivity].
    apply veiled_view in Vt as (S & _). destruct u as [a cs], u' as [b ds]. cbn [tree_atom] in S. destruct a, b; cbn in S; try discriminate; cbn; auto. 
  - apply alike_end. now apply D.
Qed.
Section Same.
Context (payload payload' schema : tree) (after : list tree).
Hypothesis V : veiled payload payload'.
Let t := described 1 (list_of (payload :: schema :: after)).
Let t' := described 1 (list_of (payload' :: schema :: after)).
Lemma same_height : height t' = height t.
Proof. unfold t, t', described, list_of. rewrite !height_node, !heights_cons, !height_node, !heights_cons. now rewrite (veiled_height (height payload) payload payload'). Qed.
Lemma same_envelope : envelope_of t' = envelope_of t.
Proof.
  assert (E : parsed t' = parsed t).
  { unfold parsed. rewrite same_height. generalize (height t) as n. intros n. unfold t, t', described, list_of, leaf. cbn [parse].
    assert (P : forall p, part 1 (Node ADescribed [Node (AULong (vendor 1)) []; Node AList (p :: schema :: after)]) = Some (Node AList (p :: schema :: after))) by reflexivity.
    assert (P0 : forall p, part 0 (Node AList (p :: schema :: after)) = Some p) by reflexivity.
    assert (P1 : forall p, part 1 (Node AList (p :: schema :: after)) = Some schema) by reflexivity.
    rewrite !P. cbn [present]. unfold parse_element.
    destruct (N.eqb (vendor 1) 22); [reflexivity|]. rewrite N.eqb_refl. unfold parse_envelope. rewrite !P0, !P1. cbn [present].
    pose proof (veiled_view _ _ V) as (S & _ & P2). destruct (tree_atom payload) eqn:Ea; cbn in S; destruct (tree_atom payload') eqn:Eb; try discriminate; try contradiction; try reflexivity.
    now rewrite P2. }
  unfold envelope_of. now rewrite E.
Qed.
Lemma inspected_alike env double answers mo kf rs : discreet answers ->
  alike_heard whatever (inspected_aloud env double answers mo kf rs t) (inspected_aloud env double answers mo kf rs t').
Proof.
  intros D. unfold inspected_aloud. rewrite same_envelope. eapply alike_then; [apply (alike_same eq); reflexivity|]. intros e _ <-.
  eapply alike_then; [apply (alike_same eq); reflexivity|]. intros _ _ _. destruct (payload_type e) as [n|]; [|now split].
  unfold payload_aloud. rewrite same_height.
  assert (P : forall p, part 1 (described 1 (list_of (p :: schema :: after))) = Some (Node AList (p :: schema :: after))) by reflexivity.
  unfold t at 1, t' at 1. rewrite !P. unfold must_be_list. set (u := and_then _ _) at 2. set (u' := and_then _ _) at 3. subst u u'.
  eapply (alike_then (fun b b' => b = Node AList (payload :: schema :: after) /\ b' = Node AList (payload' :: schema :: after))).
  { eapply alike_then; [apply (alike_same eq); reflexivity|]. intros _ _ _. now apply alike_gives. }
  intros b b' [-> ->]. cbn [tree_children length]. destruct (Nat.eqb _ 3); [|now split].
  eapply alike_then; [|intros x x' _; now apply alike_gives]. apply aloud_alike; [now apply serialisers_alike|exact V].
Qed.
End Same.

(** ** Integers *)
Lemma then_gives {A B} (h : heard A) (k : A -> heard B) b : snd (and_then h k) = Gives b ->
  exists a, snd h = Gives a /\ snd (k a) = Gives b /\ fst (and_then h k) = fst h ++ fst (k a).
Proof. unfold and_then. destruct (snd h) as [a|e| |]; cbn; try discriminate. eauto. Qed.
Lemma within_refl s : within s s.
Proof. exists "", "". cbn. now rewrite append_nil. Qed.
Lemma within_left s a b : within s a -> within s (a ++ b).
Proof. intros (x & y & ->). exists x, (y ++ b). now rewrite !append_assoc3. Qed.
Lemma within_right s a b : within s b -> within s (a ++ b).
Proof. intros (x & y & ->). exists (a ++ x), y. now rewrite !append_assoc3. Qed.
Lemma within_then {A B} (h : heard A) (k : A -> heard B) b s : snd (and_then h k) = Gives b ->
  (forall a, snd h = Gives a -> snd (k a) = Gives b -> within s (fst h) \/ within s (fst (k a))) -> within s (fst (and_then h k)).
Proof. intros E H. apply then_gives in E as (a & E1 & E2 & ->). destruct (H a E1 E2); auto using within_left, within_right. Qed.
Lemma within_turn {A B} (f : A -> heard B) l a s : forall bs, snd (in_turn f l) = Gives bs -> In a l -> (forall b, snd (f a) = Gives b -> within s (fst (f a))) -> within s (fst (in_turn f l)).
Proof.
  induction l as [|x l IH]; intros bs E Hin H; [destruct Hin|]. cbn [in_turn] in *. eapply within_then; [exact E|]. intros b E1 E2. destruct Hin as [->|Hin]; [left; eauto|right].
  eapply within_then; [exact E2|]. intros bs' E3 _. left. eauto.
Qed.
Lemma numbered_at {A} (l : list A) k a : nth_error l k = Some a -> In (k, a) (numbered l).
Proof.
  unfold numbered. intros H. assert (G : forall j, In (j + k, a) (combine (seq j (length l)) l)); [|exact (G 0)].
  revert k H. induction l as [|x l IH]; intros [|k] H j; try discriminate; cbn in *.
  - injection H as ->. rewrite Nat.add_0_r. now left.
  - right. specialize (IH k H (S j)). now rewrite Nat.add_succ_r.
Qed.
Lemma combine_at {A B} (l : list A) (l' : list B) k b : length l = length l' -> nth_error l' k = Some b -> exists a, nth_error (combine l l') k = Some (a, b).
Proof. revert l' k. induction l as [|x l IH]; intros [|y l'] [|k] L H; try discriminate; cbn in *; [injection H as ->; eauto|]. apply IH; congruence. Qed.
Section Integers.
Context (env : platform) (double : N -> string) (kf : bool) (ts : list notation) (kinds : list string) (inst : string -> option (option string -> option tree -> heard string)).
Hypothesis Hi : forall ty, memb ty kinds = false -> inst ty = None.
Notation aloud := (value_aloud env double kf ts ts inst).
Definition integer_line (z : Z) : string := at_line env "IntPropertyReader.cxx" 43 ("    -> " ++ dec z).
Lemma not_primitive ty name o : memb ty primitives = false -> primitive_aloud env double name ty o = None.
Proof.
  unfold memb, primitives, primitive_aloud, primitive. cbn [existsb]. intros H. apply Bool.orb_false_iff in H as [H1 H]. rewrite ?(String.eqb_sym _ ty) in *.
  repeat (apply Bool.orb_false_iff in H as [? H]). rewrite ?(String.eqb_sym _ ty) in *. repeat match goal with E : String.eqb ty _ = false |- _ => rewrite E; clear E end. reflexivity.
Qed.
Lemma property_within c k fd ty' p body q n x s :
  nth_error (c_fields c) k = Some fd -> property_type fd = Some ty' -> tree_atom p = ADescribed -> part 1 p = Some body -> part k body = Some q ->
  (forall name y, snd (aloud n (Some name) ty' (Some q)) = Gives y -> within s (fst (aloud n (Some name) ty' (Some q)))) ->
  snd (object_aloud env ts (aloud n) c (Some p)) = Gives x -> within s (fst (object_aloud env ts (aloud n) c (Some p))).
Proof.
  intros Hk Hty Hp H1 Hq H. destruct p as [a cs]. cbn in Hp. subst a. unfold object_aloud. intros E. eapply within_then; [exact E|]. clear E. intros _ _ E. right.
  eapply within_then; [exact E|]. clear E. intros t Et E'. rename E' into E. right. injection Et as <-. eapply within_then; [exact E|]. clear E. intros fp _ E. right.
  destruct (type_printed ts fp) as [[c'|]|]; try discriminate. destruct (Nat.eqb_spec (length (c_fields c')) (length (c_fields c))) as [L|]; try discriminate.
  eapply within_then; [exact E|]. clear E. intros body' Eb E. right. apply must_list in Eb as [Eb _]. rewrite H1 in Eb. injection Eb as <-.
  eapply within_then; [exact E|]. clear E. intros xs E _. left. destruct (combine_at _ _ _ _ L Hk) as (fd' & Hc).
  eapply within_turn; [exact E|apply numbered_at, Hc|]. clear E. intros y E. unfold property_aloud in *. eapply within_then; [exact E|]. clear E. intros _ _ E. right.
  rewrite Hty in *. eapply within_then; [exact E|]. clear E. intros z E _. left. rewrite Hq in *. eauto.
Qed.
Lemma integer_within : forall ty p z, integer_in ts kinds ty p z -> forall n name x, snd (aloud n name ty (Some p)) = Gives x -> within (integer_line z) (fst (aloud n name ty (Some p))).
Proof.
  induction 1 as [ty c k fd p body q z (K1 & K2 & K3) Hk Hty Hp H1 Hq Hz|ty c k fd ty' p body q z (K1 & K2 & K3) Hk Hty Hp H1 Hq _ IH|ty e p body q z (K1 & K2 & r & K3 & K4 & K5) Hp H1 Hq _ IH];
    intros n name x; (destruct n as [|n]; [discriminate|]); cbn [value_aloud]; rewrite (not_primitive _ _ _ K1), (Hi _ K2), K3.
  - intros E0. eapply property_within; [exact Hk|exact Hty|exact Hp|exact H1|exact Hq| |exact E0]. clear E0. intros nm y E. destruct n as [|n]; [discriminate|]. cbn [value_aloud] in *. change (primitive_aloud env double (Some nm) "int" (Some q)) with (Some (integer_aloud env (Some nm) (Some q))) in *.
    cbv iota in *. assert (Z : integer (Some q) = z). { destruct q as [a qs]. cbn in Hz. now subst a. } unfold integer_aloud in *. rewrite Z in *.
    eapply within_then; [exact E|]. clear E. intros [] E _. left. eapply within_then; [exact E|]. clear E. intros [] _ E. right. eapply within_then; [exact E|]. intros _ _ _. right. apply within_refl.
  - intros E. eapply property_within; [exact Hk|exact Hty|exact Hp|exact H1|exact Hq| |exact E]. intros nm y. apply IH.
  - rewrite K5. assert (G : snd (sequence_aloud ts (aloud n) e (Some p)) = Gives x -> within (integer_line z) (fst (sequence_aloud ts (aloud n) e (Some p)))).
    { destruct p as [a cs]. cbn in Hp. subst a. unfold sequence_aloud. intros E. eapply within_then; [exact E|]. clear E. intros t Et E'. rename E' into E. right. injection Et as <-.
      eapply within_then; [exact E|]. clear E. intros _ _ E. right. eapply within_then; [exact E|]. clear E. intros xs E _. left. rewrite H1 in *. cbn [parts_of_list] in *.
      eapply within_turn; [exact E|exact Hq|]. intros y. apply IH. }
    destruct K4 as [-> | ->]; exact G.
Qed.
End Integers.
Lemma kinds_free env answers rs ty : memb ty (map reader_type rs) = false -> serialiser_aloud env answers rs ty = None.
Proof.
  intros H. unfold serialiser_aloud. destruct (find _ rs) as [r|] eqn:E; [|reflexivity]. apply find_some in E as [Hin E]. exfalso.
  assert (X : memb ty (map reader_type rs) = true); [|congruence]. unfold memb. apply existsb_exists. exists (reader_type r). split; [now apply in_map|]. apply String.eqb_eq in E. apply String.eqb_eq. congruence.
Qed.
Lemma inspected_integers env double answers mo kf rs t e n body payload z x :
  snd (inspected_aloud env double answers mo kf rs t) = Gives x -> envelope_of t = Gives e -> payload_type e = Some n -> part 1 t = Some body -> part 0 body = Some payload ->
  integer_in (List.concat (s_types (e_schema e))) (map reader_type rs) (n_name n) payload z ->
  within (integer_line env z) (fst (inspected_aloud env double answers mo kf rs t)).
Proof.
  intros E He Hn Hb Hp Hz. unfold inspected_aloud in *. rewrite He in *. eapply within_then; [exact E|]. clear E. intros e' Ee E. right. injection Ee as <-.
  eapply within_then; [exact E|]. clear E. intros _ _ E. right. rewrite Hn in *. unfold payload_aloud in *. eapply within_then; [exact E|]. clear E. intros body' Eb E. right. apply must_list in Eb as [Eb _].
  rewrite Hb in Eb. injection Eb as <-. destruct (Nat.eqb _ 3); [|discriminate]. eapply within_then; [exact E|]. clear E. intros y E _. left. rewrite Hp in *.
  eapply integer_within; eauto. intros ty. apply kinds_free.
Qed.
