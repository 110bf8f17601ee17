(** Proofs for C98. *)
From Coq Require Import Lia.
From Verif Require Import SpecTypes Base Proton TypeNames Schema SpecSchema Descriptors SpecDescriptors Factory SpecFactory Readers SpecReaders Blob SpecApart
  Numbers SpecOrdering Ordering ProtonProofs SchemaProofs DescriptorsProofs FactoryProofs ReadersProofs InspectProofs.
Import List ListNotations.
Open Scope string_scope.

(** ** Texts *)
Notation chars := list_ascii_of_string.
Lemma app_empty_r s : s ++ "" = s.
Proof. induction s as [|c s IH]; [reflexivity|]. cbn. now rewrite IH. Qed.
Lemma app_assoc_s (a b c : string) : (a ++ b) ++ c = a ++ b ++ c.
Proof. induction a as [|x a IH]; [reflexivity|]. cbn. now rewrite IH. Qed.
Lemma app_cancel (a r r' : string) : a ++ r = a ++ r' -> r = r'.
Proof. induction a as [|c a IH]; cbn; [auto|]. intros H. injection H. auto. Qed.

(** Two texts up to the first character that ends them. *)
Definition ended (P : ascii -> Prop) (r : string) : Prop := match r with "" => True | String c _ => P c end.
Lemma cut (P : ascii -> Prop) : forall a b r r',
  (forall c, In c (chars a) -> ~ P c) -> (forall c, In c (chars b) -> ~ P c) -> ended P r -> ended P r' ->
  a ++ r = b ++ r' -> a = b /\ r = r'.
Proof.
  induction a as [|c a IH]; intros [|c' b] r r' Ha Hb Hr Hr' E; cbn in E.
  - auto.
  - subst r. cbn in Hr. destruct (Hb c' (or_introl eq_refl) Hr).
  - subst r'. cbn in Hr'. destruct (Ha c (or_introl eq_refl) Hr').
  - injection E as -> E. destruct (IH b r r') as [-> ->]; auto; intros x Hx; [apply Ha|apply Hb]; now right.
Qed.

Definition delimiter (c : ascii) : Prop := c = " "%char \/ c = ","%char.
Definition stop : string -> Prop := ended delimiter.
Lemma word_cut a b r r' : word a -> word b -> stop r -> stop r' -> a ++ r = b ++ r' -> a = b /\ r = r'.
Proof.
  intros (_ & A1 & A2) (_ & B1 & B2). apply cut; intros c Hc [->| ->]; auto.
Qed.
Lemma quote_cut a b r r' : ~ In """"%char (chars a) -> ~ In """"%char (chars b) -> a ++ """" ++ r = b ++ """" ++ r' -> a = b /\ r = r'.
Proof.
  intros A B E. destruct (cut (fun c => c = """"%char) a b (String """" r) (String """" r')) as [-> E']; try reflexivity; try assumption.
  - intros c Hc ->. auto.
  - intros c Hc ->. auto.
  - injection E' as ->. auto.
Qed.

Definition inked (s : string) : Prop := match s with "" => False | String c _ => c <> " "%char end.
Lemma word_inked s : word s -> inked s.
Proof. intros (H & N & _). destruct s as [|c s]; [now elim H|]. cbn. intros ->. apply N. now left. Qed.
Lemma inked_app s r : inked s -> inked (s ++ r).
Proof. destruct s; cbn; [contradiction|auto]. Qed.
Lemma stop_blank r : stop (" " ++ r). Proof. now left. Qed.
Lemma stop_comma r : stop ("," ++ r). Proof. now right. Qed.

(** Texts in a row, separated by commas and followed by a closing bracket. *)
Lemma row_cut {A} (f : A -> string) (R : A -> A -> Prop) (c : ascii) : forall xs ys r r',
  Forall (fun a => forall b s s', In b ys -> stop s -> stop s' -> f a ++ s = f b ++ s' -> R a b /\ s = s') xs ->
  Forall (fun a => inked (f a)) xs -> Forall (fun b => inked (f b)) ys ->
  String.concat ", " (map f xs) ++ " " ++ String c r = String.concat ", " (map f ys) ++ " " ++ String c r' -> Forall2 R xs ys /\ r = r'.
Proof.
  induction xs as [|a xs IH]; intros [|b ys] r r' Hc Hx Hy E.
  - cbn in E. injection E as ->. auto.
  - exfalso. apply Forall_inv in Hy. destruct ys; cbn [map String.concat] in E; destruct (f b) as [|k s]; cbn in Hy; try contradiction; cbn in E; injection E; congruence.
  - exfalso. apply Forall_inv in Hx. destruct xs; cbn [map String.concat] in E; destruct (f a) as [|k s]; cbn in Hx; try contradiction; cbn in E; injection E; congruence.
  - inversion Hc as [|? ? H1 H2]; subst. inversion Hx as [|? ? H3 H4]; subst. inversion Hy as [|? ? H5 H6]; subst.
    destruct xs as [|a' xs], ys as [|b' ys].
    + cbn [map String.concat] in E. destruct (H1 b _ _ (or_introl eq_refl) (stop_blank _) (stop_blank _) E) as [Hr E']. injection E' as ->. auto.
    + exfalso. change (String.concat ", " (map f (b :: b' :: ys))) with (f b ++ "," ++ " " ++ String.concat ", " (map f (b' :: ys))) in E.
      cbn [map String.concat] in E. rewrite app_assoc_s in E. destruct (H1 b _ _ (or_introl eq_refl) (stop_blank _) (stop_comma _) E) as [_ E']. discriminate E'.
    + exfalso. change (String.concat ", " (map f (a :: a' :: xs))) with (f a ++ "," ++ " " ++ String.concat ", " (map f (a' :: xs))) in E.
      cbn [map String.concat] in E. rewrite app_assoc_s in E. destruct (H1 b _ _ (or_introl eq_refl) (stop_comma _) (stop_blank _) E) as [_ E']. discriminate E'.
    + change (String.concat ", " (map f (b :: b' :: ys))) with (f b ++ "," ++ " " ++ String.concat ", " (map f (b' :: ys))) in E.
      change (String.concat ", " (map f (a :: a' :: xs))) with (f a ++ "," ++ " " ++ String.concat ", " (map f (a' :: xs))) in E.
      rewrite !app_assoc_s in E. destruct (H1 b _ _ (or_introl eq_refl) (stop_comma _) (stop_comma _) E) as [Hr E'].
      apply app_cancel in E'. apply app_cancel in E'.
      destruct (IH (b' :: ys) r r') as [F ->]; auto.
      clear - H2. eapply Forall_impl; [|exact H2]. cbn beta. intros x Hx b0 s s' Hb. apply Hx. now right.
Qed.

(** The properties of two objects of a class. *)
Lemma members_cut {F} (f : string * value -> string) (N : F -> string * value -> Prop) (R : string * value -> string * value -> Prop) :
  forall fs ps qs r r', Forall2 N fs ps -> Forall2 N fs qs ->
  Forall (fun p => forall fd q s s', In q qs -> N fd p -> N fd q -> stop s -> stop s' -> f p ++ s = f q ++ s' -> R p q /\ s = s') ps ->
  stop r -> stop r' -> String.concat ", " (map f ps) ++ r = String.concat ", " (map f qs) ++ r' -> Forall2 R ps qs /\ r = r'.
Proof.
  intros fs ps qs r r' P. revert qs r r'. induction P as [|fd p fs ps Hp P IH]; intros qs r r' Q Hc Hr Hr' E; inversion Q as [|? q ? qs' Hq Q']; subst.
  - cbn in E. auto.
  - inversion Hc as [|? ? H1 H2]; subst.
    assert (H2' : Forall (fun p => forall fd q s s', In q qs' -> N fd p -> N fd q -> stop s -> stop s' -> f p ++ s = f q ++ s' -> R p q /\ s = s') ps).
    { eapply Forall_impl; [|exact H2]. cbn beta. intros x Hx fd' b0 s s' Hb. apply Hx. now right. }
    destruct ps as [|p' ps], qs' as [|q' qs].
    + cbn [map String.concat] in E. destruct (H1 fd q _ _ (or_introl eq_refl) Hp Hq Hr Hr' E) as [K ->]. auto.
    + inversion P; subst. inversion Q'.
    + inversion P; subst. inversion Q'.
    + change (String.concat ", " (map f (p :: p' :: ps))) with (f p ++ "," ++ " " ++ String.concat ", " (map f (p' :: ps))) in E.
      change (String.concat ", " (map f (q :: q' :: qs))) with (f q ++ "," ++ " " ++ String.concat ", " (map f (q' :: qs))) in E.
      rewrite !app_assoc_s in E. destruct (H1 fd q _ _ (or_introl eq_refl) Hp Hq (stop_comma _) (stop_comma _) E) as [K E'].
      apply app_cancel in E'. apply app_cancel in E'. destruct (IH (q' :: qs) r r' Q' H2' Hr Hr' E') as [K' ->]. auto.
Qed.

(** ** Numerals *)
Definition quiet (s : string) : Prop := forall c, In c (chars s) -> ~ delimiter c.
Lemma quiet_word s : s <> "" -> quiet s -> word s.
Proof. intros H Q. split; [exact H|]. split; intros K; apply (Q _ K); [now left|now right]. Qed.
Lemma quiet_nil : quiet "". Proof. intros c []. Qed.
Lemma quiet_cons c s : (Ascii.eqb c " " || Ascii.eqb c ",")%char = false -> quiet s -> quiet (String c s).
Proof. intros H Q x [<-|Hx]; [|now apply Q]. intros [->| ->]; discriminate H. Qed.
Lemma quiet_app a b : quiet a -> quiet b -> quiet (a ++ b).
Proof. induction a as [|c a IH]; intros A B; [exact B|]. intros x [<-|Hx]; [apply A; now left|]. apply IH; [intros y Hy; apply A; now right|exact B|exact Hx]. Qed.
Ltac hush := repeat (apply quiet_cons; [reflexivity|]); try apply quiet_nil.
Lemma digits_quiet u : quiet (DecimalString.NilZero.string_of_uint u) /\ DecimalString.NilZero.string_of_uint u <> "".
Proof.
  assert (H : forall u, quiet (DecimalString.NilEmpty.string_of_uint u)) by (induction u0; cbn [DecimalString.NilEmpty.string_of_uint]; hush; assumption).
  unfold DecimalString.NilZero.string_of_uint. destruct u; (split; [|discriminate]); [hush|apply H..].
Qed.
Lemma dec_word z : word (dec z).
Proof.
  unfold dec. destruct (Z.to_int z) as [u|u]; cbn [DecimalString.NilZero.string_of_int]; destruct (digits_quiet u) as [Q N]; apply quiet_word; auto; [discriminate|].
  apply quiet_cons; [reflexivity|exact Q].
Qed.
Lemma dec_injective z z' : dec z = dec z' -> z = z'.
Proof.
  intros E. destruct (InspectProofs.numerals_read_back z) as (i & H1 & <-), (InspectProofs.numerals_read_back z') as (j & H2 & <-).
  rewrite E, H2 in H1. now injection H1 as ->.
Qed.
Lemma last_digits_quiet k : forall n, quiet (last_digits k n).
Proof.
  induction k as [|k IH]; intros n; [apply quiet_nil|]. cbn [last_digits]. apply quiet_app; [apply IH|]. apply quiet_cons; [|apply quiet_nil].
  assert (L : (n mod 10 < 10)%N) by now apply N.mod_lt. revert L. generalize (n mod 10)%N. intros m L.
  destruct m as [|p]; [reflexivity|]. do 4 (destruct p as [p|p|]; try reflexivity; try (exfalso; lia)).
Qed.
Lemma printf_word wf we b : word (printf_f wf we b).
Proof.
  unfold printf_f. cbv zeta.
  assert (Q : forall s t, word s -> quiet t -> word (s ++ t)).
  { intros s t (N & D1 & D2) T. apply quiet_word; [destruct s; [now elim N|discriminate]|]. apply quiet_app; [|exact T]. intros c Hc [->| ->]; auto. }
  assert (M : forall s, word s -> word ((if N.testbit b (wf + we) then "-" else "") ++ s)).
  { intros s H. destruct (N.testbit b (wf + we)); [|exact H]. cbn [append]. destruct H as (N & D1 & D2). apply quiet_word; [discriminate|].
    apply quiet_cons; [reflexivity|]. intros c Hc [->| ->]; auto. }
  apply M. destruct (_ =? _)%N; [destruct (_ =? _)%N; apply quiet_word; (discriminate || hush)|].
  apply Q; [apply dec_word|]. apply (quiet_app "."); [hush|]. apply last_digits_quiet.
Qed.

(** ** Values *)
Section Apart.
Context (double : N -> string) (Hd : forall b, word (double b)).
Context (ts : list notation) (Hc : constants_are_words ts).
Context (Hu : forall t u, In t ts -> In u ts -> n_name t = n_name u -> t = u).
Context (Hn : forall u, In u ts -> SpecTypes.primitive_name (n_name u) = false).
Notation printed := (printed double dec).

Lemma printed_inked v ty : conforms ts ty v -> inked (printed v).
Proof.
  intros H. destruct H; cbn [SpecReaders.printed]; try (cbn; discriminate).
  - apply word_inked, dec_word.
  - apply word_inked, dec_word.
  - apply word_inked, Hd.
  - destruct b; discriminate.
  - apply word_inked. eapply Hc; eauto.
Qed.

Lemma quotes_members ps : fold_right (fun p P => without_quotes (snd p) /\ P) True ps -> Forall (fun p : string * value => without_quotes (snd p)) ps.
Proof. induction ps as [|p ps IH]; cbn; [constructor|]. intros [A B]. auto. Qed.
Lemma quotes_elements es : fold_right (fun v P => without_quotes v /\ P) True es -> Forall without_quotes es.
Proof. induction es as [|p ps IH]; cbn; [constructor|]. intros [A B]. auto. Qed.
Lemma quotes_entries kvs : fold_right (fun kv P => without_quotes (fst kv) /\ without_quotes (snd kv) /\ P) True kvs ->
  Forall (fun kv : value * value => without_quotes (fst kv) /\ without_quotes (snd kv)) kvs.
Proof. induction kvs as [|p ps IH]; cbn; [constructor|]. intros (A & B & C). auto. Qed.

Ltac refute :=
  match goal with
  | H : In (TComposite ?c) ts, E : _ = c_name ?c |- _ => specialize (Hn _ H); cbn [n_name] in Hn; rewrite <- E in Hn; discriminate Hn
  | H : In (TRestricted ?c) ts, E : _ = r_name ?c |- _ => specialize (Hn _ H); cbn [n_name] in Hn; rewrite <- E in Hn; discriminate Hn
  | H : In (TComposite ?c) ts, E : c_name ?c = _ |- _ => specialize (Hn _ H); cbn [n_name] in Hn; rewrite E in Hn; discriminate Hn
  | H : In (TRestricted ?c) ts, E : r_name ?c = _ |- _ => specialize (Hn _ H); cbn [n_name] in Hn; rewrite E in Hn; discriminate Hn
  | H : In (TComposite ?c) ts, H' : In (TRestricted ?r) ts, E : r_name ?r = c_name ?c |- _ => specialize (Hu _ _ H' H E); discriminate Hu
  | H : In (TComposite ?c) ts, H' : In (TRestricted ?r) ts, E : c_name ?c = r_name ?r |- _ => specialize (Hu _ _ H H' E); discriminate Hu
  end.

Lemma told_apart v : forall ty w r r', conforms ts ty v -> conforms ts ty w -> without_quotes v -> without_quotes w -> stop r -> stop r' ->
  printed v ++ r = printed w ++ r' -> indistinct double v w /\ r = r'.
Proof.
  induction v as [z|z|b|b|s|s| |fp ps IH|fp es IH|fp kvs IH|fp c o] using value_ind'; intros ty w r r' Cv Cw Qv Qw S S' E.
  - inversion Cv; subst. inversion Cw; subst; try refute. cbn [SpecReaders.printed] in E.
    apply word_cut in E as [E ->]; auto using dec_word. apply dec_injective in E as ->. split; [constructor|reflexivity].
  - inversion Cv; subst. inversion Cw; subst; try refute. cbn [SpecReaders.printed] in E.
    apply word_cut in E as [E ->]; auto using dec_word. apply dec_injective in E as ->. split; [constructor|reflexivity].
  - inversion Cv; subst. inversion Cw; subst; try refute. cbn [SpecReaders.printed] in E.
    apply word_cut in E as [E ->]; auto. split; [now constructor|reflexivity].
  - inversion Cv; subst. inversion Cw; subst; try refute. cbn [SpecReaders.printed] in E.
    match goal with H : conforms _ _ (VBoolean ?x) |- indistinct _ _ (VBoolean ?y) /\ _ => destruct b, y end; try discriminate E; injection E as ->; (split; [constructor|reflexivity]).
  - inversion Cv; subst. inversion Cw; subst; try refute. cbn [SpecReaders.printed without_quotes] in E, Qv, Qw.
    rewrite !app_assoc_s in E. apply app_cancel in E. apply quote_cut in E as [-> ->]; auto. split; [constructor|reflexivity].
  - inversion Cv; subst. inversion Cw; subst; try refute. cbn [SpecReaders.printed] in E.
    rewrite !app_assoc_s in E. apply app_cancel in E. apply word_cut in E as [E E']; auto using dec_word; try (now left).
    apply app_cancel in E' as ->. apply dec_injective, Nat2Z.inj in E. split; [now constructor|reflexivity].
  - inversion Cv; subst. inversion Cw; subst; try refute; try discriminate E.
    cbn in E. do 8 (apply app_cancel with (a := String _ "") in E || injection E as E). subst. split; [constructor|reflexivity].
  - inversion Cv as [| | | | | | |c0 ps0 I0 F0| | |]; subst. inversion Cw as [| | | | | | |c1 qs I1 F1| | |]; subst; try refute; try discriminate E.
    assert (TComposite c0 = TComposite c1) as [= <-] by (apply Hu; auto).
    cbn [SpecReaders.printed without_quotes] in E, Qv, Qw. rewrite !app_assoc_s in E. apply app_cancel in E.
    apply quotes_members in Qv, Qw.
    apply (members_cut (fun p => fst p ++ " : " ++ printed (snd p))
             (fun fd p => (fst p = f_name fd /\ exists ty, property_type fd = Some ty /\ conforms ts ty (snd p)))
             (fun p q => fst p = fst q /\ indistinct double (snd p) (snd q)) (c_fields c0)) in E as [F E]; auto; try apply stop_blank.
    + apply app_cancel in E as ->. split; [now constructor|reflexivity].
    + rewrite Forall_forall in *. intros p Hp fd q s s' Hq (N1 & t1 & P1 & C1) (N2 & t2 & P2 & C2) Hs Hs' X.
      rewrite N1, N2, !app_assoc_s in X. rewrite N1, N2. apply app_cancel in X. apply app_cancel in X. rewrite P1 in P2. injection P2 as <-.
      destruct (IH p Hp t1 (snd q) s s' C1 C2 (Qv p Hp) (Qw q Hq) Hs Hs' X) as [K ->]. auto.
  - inversion Cv as [| | | | | | | |r0 e0 vs0 I0 K0 O0 F0| |]; subst. inversion Cw as [| | | | | | | |r1 e1 ws I1 K1 O1 F1|r1 k1 v1 ws I1 K1 O1 F1|r1 c1 o1 I1 K1 O1]; subst; try refute.
    2:{ exfalso. assert (TRestricted r0 = TRestricted r1) as [= <-] by (apply Hu; auto). destruct K0; congruence. }
    2:{ exfalso. assert (TRestricted r0 = TRestricted r1) as [= <-] by (apply Hu; auto). destruct K0; congruence. }
    assert (TRestricted r0 = TRestricted r1) as [= <-] by (apply Hu; auto). rewrite O0 in O1. injection O1 as <-.
    cbn [SpecReaders.printed without_quotes] in E, Qv, Qw. rewrite !app_assoc_s in E. apply app_cancel in E.
    apply quotes_elements in Qv, Qw.
    apply (row_cut printed (indistinct double) "]"%char) in E as [F ->].
    + split; [now constructor|reflexivity].
    + rewrite Forall_forall in *. intros a Ha b s s' Hb Hs Hs' X. apply (IH a Ha e0 b s s'); auto.
    + rewrite Forall_forall in *. intros a Ha. eapply printed_inked; eauto.
    + rewrite Forall_forall in *. intros a Ha. eapply printed_inked; eauto.
  - inversion Cv as [| | | | | | | | |r0 k0 v0 vs0 I0 K0 O0 F0|]; subst. inversion Cw as [| | | | | | | |r1 e1 ws I1 K1 O1 F1|r1 k1 v1 ws I1 K1 O1 F1|r1 c1 o1 I1 K1 O1]; subst; try refute.
    { exfalso. assert (TRestricted r0 = TRestricted r1) as [= <-] by (apply Hu; auto). destruct K1; congruence. }
    2:{ exfalso. assert (TRestricted r0 = TRestricted r1) as [= <-] by (apply Hu; auto). congruence. }
    assert (TRestricted r0 = TRestricted r1) as [= <-] by (apply Hu; auto). rewrite O0 in O1. injection O1 as <- <-.
    cbn [SpecReaders.printed without_quotes] in E, Qv, Qw. rewrite !app_assoc_s in E. apply app_cancel in E.
    apply quotes_entries in Qv, Qw.
    apply (row_cut (fun kv => printed (fst kv) ++ " : " ++ printed (snd kv)) (fun a b => indistinct double (fst a) (fst b) /\ indistinct double (snd a) (snd b)) "}"%char) in E as [F ->].
    + split; [now constructor|reflexivity].
    + rewrite Forall_forall in *. intros a Ha b s s' Hb Hs Hs' X. rewrite !app_assoc_s in X.
      destruct (IH a Ha) as [IHk IHv], (Qv a Ha) as [Q1 Q2], (Qw b Hb) as [Q3 Q4], (F0 a Ha) as [C1 C2], (F1 b Hb) as [C3 C4].
      destruct (IHk k0 (fst b) _ _ C1 C3 Q1 Q3 (stop_blank _) (stop_blank _) X) as [L1 X']. cbn [append] in X'. injection X' as X'.
      destruct (IHv v0 (snd b) s s' C2 C4 Q2 Q4 Hs Hs' X') as [L2 ->]. auto.
    + rewrite Forall_forall in *. intros a Ha. apply inked_app. destruct (F0 a Ha). eapply printed_inked; eauto.
    + rewrite Forall_forall in *. intros a Ha. apply inked_app. destruct (F1 a Ha). eapply printed_inked; eauto.
  - inversion Cv as [| | | | | | | | | |r0 c0 o0 I0 K0 O0]; subst. inversion Cw as [| | | | | | | |r1 e1 ws I1 K1 O1 F1|r1 k1 v1 ws I1 K1 O1 F1|r1 c1 o1 I1 K1 O1]; subst; try refute.
    { exfalso. assert (TRestricted r0 = TRestricted r1) as [= <-] by (apply Hu; auto). destruct K1; congruence. }
    { exfalso. assert (TRestricted r0 = TRestricted r1) as [= <-] by (apply Hu; auto). congruence. }
    assert (TRestricted r0 = TRestricted r1) as [= <-] by (apply Hu; auto). cbn [SpecReaders.printed] in E.
    apply word_cut in E as [-> ->]; eauto. split; [constructor|reflexivity].
Qed.
End Apart.

(** The converse needs nothing. *)
Lemma indistinct_printed double v : forall w, indistinct double v w -> printed double dec v = printed double dec w.
Proof.
  induction v as [z|z|b|b|s|s| |fp ps IH|fp es IH|fp kvs IH|fp c o] using value_ind'; intros w A; inversion A; subst; cbn [printed]; try reflexivity; try congruence.
  - match goal with X : Forall2 _ _ _ |- _ => rename X into F end. f_equal. f_equal. f_equal.
    clear A. induction F as [|p q ps qs [N K] F IHF]; [reflexivity|]. inversion IH; subst. cbn [map]. rewrite N. f_equal; [|now apply IHF]. do 2 f_equal. auto.
  - match goal with X : Forall2 _ _ _ |- _ => rename X into F end. f_equal. f_equal. f_equal.
    clear A. induction F as [|p q ps qs K F IHF]; [reflexivity|]. inversion IH; subst. cbn [map]. f_equal; [|now apply IHF]. auto.
  - match goal with X : Forall2 _ _ _ |- _ => rename X into F end. f_equal. f_equal. f_equal.
    clear A. induction F as [|p q ps qs [K K'] F IHF]; [reflexivity|]. inversion IH as [|? ? [X Y]]; subst. cbn [map]. f_equal; [|now apply IHF]. rewrite (X _ K), (Y _ K'). reflexivity.
Qed.

Lemma whole_apart double ts v w ty : (forall b, word (double b)) -> constants_are_words ts ->
  (forall t u, In t ts -> In u ts -> n_name t = n_name u -> t = u) -> (forall u, In u ts -> SpecTypes.primitive_name (n_name u) = false) ->
  conforms ts ty v -> conforms ts ty w -> without_quotes v -> without_quotes w ->
  "{ Parsed : " ++ printed double dec v ++ " }" = "{ Parsed : " ++ printed double dec w ++ " }" -> indistinct double v w.
Proof.
  intros Hd Hc Hu Hn Cv Cw Qv Qw E. apply app_cancel in E.
  now destruct (told_apart double Hd ts Hc Hu Hn v ty w " }" " }" Cv Cw Qv Qw (stop_blank _) (stop_blank _) E).
Qed.

(** ** Blobs *)
Lemma shown_text fmt custom mo kf fuel groups ts x v h cf t text st :
  Forall2 (fun w t => type_result w = Ret t) (List.concat groups) ts -> Forall entry_ok ts ->
  height (envelope_tree (encode v) groups [x]) < fuel -> run mo h new_factory cf ->
  (forall u, In u ts -> SpecTypes.primitive_name (n_name u) = false) -> consistent h ts -> distinct_fingerprints ts ->
  In t ts -> conforms ts (n_name t) v -> fingerprint_of v = Some (n_descriptor t) -> kf = true \/ map_free v ->
  dumpContents fmt custom mo kf fuel (decoded (envelope_tree (encode v) groups [x]), cf) = Ok text st ->
  text = "{ Parsed : " ++ printed fmt dec v ++ " }".
Proof.
  intros H1 H3 Hh R Hn Hc Hd Ht Hv Hf Hm.
  destruct (encode_payload v _ Hf) as (body & Eb). destruct (blob_high _ _ _ _ Hh) as (m & Em).
  destruct (envelope_wire m (n_descriptor t) body groups [x] ts [] [] [] H1 H3) as (e & A1 & A2 & A3).
  rewrite <- Eb in A1. fold (decoded (envelope_tree (encode v) groups [x])) in A1. rewrite <- Em in A1.
  assert (Hp : Forall proper ts).
  { rewrite Forall_forall in *. intros u Hu. apply entry_proper; auto. }
  destruct (process mo (e_schema e) cf) as [[] cf'|ex cf'| | |] eqn:HP.
  2-5: unfold dumpContents; unfold bind at 1; unfold on_data at 1;
    rewrite (read_envelope_parsed fuel (decoded (envelope_tree (encode v) groups [x])) e I A1); unfold bind at 1, on_factory; rewrite HP; discriminate.
  rewrite (contents_printed fmt custom mo kf fuel groups x v t e h cf cf'); eauto using distinct_perm, consistent_perm, proper_perm.
  - intros E. now injection E.
  - congruence.
  - eapply incl_perm; eauto.
  - eapply conforms_incl; [eapply incl_perm; eauto|exact Hv].
Qed.

(** ** Objects that look the same *)
Lemma known_shown fmt custom mo kf groups ts t v :
  map type_result (List.concat groups) = map (fun t => Ret t) ts -> forallb entry_okb ts && regularb ts && firstb ts = true -> closed_check ts = true ->
  nonprim_check ts = true -> NoDup (map n_descriptor ts) -> NoDup (map n_name ts) -> height (envelope_tree (encode v) groups [leaf ANull]) < 20 ->
  In t ts -> conforms ts (n_name t) v -> fingerprint_of v = Some (n_descriptor t) -> map_free v ->
  exists cf,
  dumpContents fmt custom mo kf 20 (decoded (envelope_tree (encode v) groups [leaf ANull]), new_factory)
  = Ok ("{ Parsed : " ++ printed fmt dec v ++ " }") (decoded (envelope_tree (encode v) groups [leaf ANull]), cf).
Proof.
  intros E K Kc Kn Kd Ku Hh Ht Hv Hf Hm. destruct (first_check ts K) as [Hr Hd].
  assert (Hl : listed ts) by now apply first_listed.
  assert (He : Forall entry_ok ts) by apply Hr.
  assert (H1 : Forall2 (fun w t => type_result w = Ret t) (List.concat groups) ts).
  { revert E. clear. generalize (List.concat groups). intros l. revert ts. induction l as [|a l IH]; intros [|b ts] E; try discriminate E; constructor; injection E; auto. }
  destruct (dump_known fmt custom mo kf 20 groups (leaf ANull) v [] new_factory ts t H1 He Hh (run_nil _ _) new_unpoisoned Hr Hl (closed_checked _ _ Kc))
    as (s & cf & _ & _ & _ & D); auto; [| |apply distinct_nodup, Kd|eauto].
  - unfold nonprim_check in Kn. rewrite forallb_forall in Kn. intros u Hu. specialize (Kn u Hu). now destruct (typeIsPrimitive (n_name u)).
  - split; [|intros r []]. cbn. intros a b Ha Hb Eq. clear - Ku Ha Hb Eq. induction ts as [|c ts IH]; [destruct Ha|].
    cbn in Ku. inversion Ku as [|? ? N1 N2]; subst. destruct Ha as [<- |Ha], Hb as [<- |Hb]; auto; exfalso; apply N1, in_map_iff; eauto.
Qed.

Definition pair_schema : list (list wire_type) := [[wire_class_of "net.P" [plain_field "p" "string" []; plain_field "q" "string" []]]].
Definition pair_value (p q : string) : value := VObject "net.corda:net.P" [("p", VString p); ("q", VString q)].
Lemma pair_shown fmt custom mo kf p q : exists cf,
  dumpContents fmt custom mo kf 20 (decoded (envelope_tree (encode (pair_value p q)) pair_schema [leaf ANull]), new_factory)
  = Ok ("{ Parsed : " ++ printed fmt dec (pair_value p q) ++ " }") (decoded (envelope_tree (encode (pair_value p q)) pair_schema [leaf ANull]), cf).
Proof.
  set (c := {| c_name := "net.P"; c_label := ""; c_provides := []; c_descriptor := "net.corda:net.P"; c_fields := [field_of "p" "string" []; field_of "q" "string" []] |}).
  apply (known_shown fmt custom mo kf pair_schema [TComposite c] (TComposite c)).
  1-4: vm_compute; reflexivity.
  - repeat constructor; intros [].
  - repeat constructor; intros [].
  - apply Nat.leb_le. reflexivity.
  - now left.
  - apply (conf_object [TComposite c] c); [now left|]. repeat constructor; (eexists; split; [reflexivity|constructor]).
  - reflexivity.
  - cbn. repeat constructor.
Qed.

Definition twin_schema : list (list wire_type) := [[wire_class_of "net.B" [plain_field "n" "int" []]; wire_class_of "net.C" [plain_field "n" "int" []]]].
Lemma twin_shown fmt custom mo kf name z : In name ["net.B"; "net.C"] -> exists cf,
  let v := VObject ("net.corda:" ++ name) [("n", VInt z)] in
  dumpContents fmt custom mo kf 20 (decoded (envelope_tree (encode v) twin_schema [leaf ANull]), new_factory)
  = Ok ("{ Parsed : { n : " ++ dec z ++ " } }") (decoded (envelope_tree (encode v) twin_schema [leaf ANull]), cf).
Proof.
  set (c name := {| c_name := name; c_label := ""; c_provides := []; c_descriptor := "net.corda:" ++ name; c_fields := [field_of "n" "int" []] |}).
  intros Hn. set (v := VObject ("net.corda:" ++ name) [("n", VInt z)]).
  assert (Hi : In (TComposite (c name)) [TComposite (c "net.B"); TComposite (c "net.C")]) by (destruct Hn as [<-|[<-|[]]]; [now left|right; now left]).
  destruct (known_shown fmt custom mo kf twin_schema [TComposite (c "net.B"); TComposite (c "net.C")] (TComposite (c name)) v) as (cf & E).
  1-4: vm_compute; reflexivity.
  - repeat constructor; cbn; intuition discriminate.
  - repeat constructor; cbn; intuition discriminate.
  - apply Nat.leb_le. reflexivity.
  - exact Hi.
  - apply (conf_object _ (c name)); [exact Hi|]. repeat constructor; (eexists; split; [reflexivity|constructor]).
  - reflexivity.
  - cbn. repeat constructor.
  - exists cf. cbv zeta. etransitivity; [exact E|]. refine (f_equal (fun x => Ok x _) _). cbn. now rewrite ?app_assoc_s.
Qed.
