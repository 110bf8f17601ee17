(** Proofs about SpecToolJson.v. *)
From Coq Require Import Lia Decimal DecimalZ DecimalString.
From Verif Require Import Base Proton TypeNames SpecTypes TypeNamesProofs SpecJson SpecAvro JsonProofs AvroJsonProofs Schema Descriptors Factory Readers Blob SpecReaders ReadersProofs SpecToolJson.
Import List ListNotations.
Open Scope string_scope.

(** ** Decimal numerals *)
Lemma uint_digits d : Forall (fun c => In c (list_ascii_of_string "0123456789")) (list_ascii_of_string (NilEmpty.string_of_uint d)).
Proof. induction d; cbn [NilEmpty.string_of_uint list_ascii_of_string]; constructor; try assumption; cbn; tauto. Qed.
Lemma nzhead_head d r : NilEmpty.string_of_uint (nzhead d) <> String "0" r.
Proof. induction d; cbn [nzhead NilEmpty.string_of_uint]; try discriminate. exact IHd. Qed.
Lemma unorm_whole d : whole (NilZero.string_of_uint (unorm d)).
Proof.
  unfold unorm. destruct (nzhead d) eqn:E; [left; reflexivity|..]; right; rewrite <- E;
    (assert (X : NilZero.string_of_uint (nzhead d) = NilEmpty.string_of_uint (nzhead d)) by (rewrite E; reflexivity)); rewrite X;
    (split; [split; [rewrite E; discriminate|apply uint_digits]|apply nzhead_head]).
Qed.
Lemma dec_number z : number (dec z).
Proof.
  assert (E : Z.to_int z = norm (Z.to_int z)) by (rewrite <- DecimalZ.to_of, DecimalZ.of_to; reflexivity).
  unfold dec. rewrite E. destruct (Z.to_int z) as [d|d]; cbn [norm].
  - exists "", (NilZero.string_of_uint (unorm d)), "", "". cbn [NilZero.string_of_int]. rewrite !app_nil_r_s. repeat split; auto. apply unorm_whole.
  - destruct (nzhead d) eqn:N; [exists "", "0", "", ""; repeat split; auto; now left|..];
      (exists "-", (NilZero.string_of_uint (unorm d)), "", ""; rewrite !app_nil_r_s; unfold unorm; rewrite N; repeat split; auto;
       match goal with |- whole ?s => assert (Q : s = NilZero.string_of_uint (unorm d)) by (unfold unorm; now rewrite N); rewrite Q; apply unorm_whole end).
Qed.

(** ** A colon comes after a string *)
Inductive place : Type := Outside (after_string : bool) | Inside | Escaped.
Definition turn (p : place) (c : ascii) : option place :=
  match p with
  | Outside f => if Ascii.eqb c "034" then Some Inside
                 else if mem c (String "009" (String "010" (String "013" " "))) then Some (Outside f)
                 else if Ascii.eqb c ":" then (if f then Some (Outside false) else None)
                 else Some (Outside false)
  | Inside => if Ascii.eqb c "034" then Some (Outside true) else if Ascii.eqb c "\" then Some Escaped else Some Inside
  | Escaped => Some Inside
  end.
Fixpoint walk (p : place) (s : string) : option place :=
  match s with
  | EmptyString => Some p
  | String c s' => match turn p c with Some p' => walk p' s' | None => None end
  end.
Lemma walk_app s1 s2 : forall p, walk p (s1 ++ s2) = match walk p s1 with Some p' => walk p' s2 | None => None end.
Proof. induction s1 as [|c s1 IH]; intros p; simpl; [reflexivity|]. destruct (turn p c); auto. Qed.
Lemma walk_then p s1 p' s2 : walk p s1 = Some p' -> walk p (s1 ++ s2) = walk p' s2.
Proof. intros H. now rewrite walk_app, H. Qed.
Lemma walk_stuck p s1 s2 : walk p s1 = None -> walk p (s1 ++ s2) = None.
Proof. intros H. now rewrite walk_app, H. Qed.
Lemma walk_space f w : space w -> walk (Outside f) w = Some (Outside f).
Proof.
  unfold space. induction w as [|c w IH]; cbn [list_ascii_of_string walk]; intros H; [reflexivity|]. inversion H as [|? ? Hc Hw]; subst.
  destruct Hc as [->|[->|[->| ->]]]; cbn [turn]; now apply IH.
Qed.
Lemma turn_plain c : unescaped c -> turn Inside c = Some Inside.
Proof.
  intros (_ & Hq & Hb). simpl. destruct (Ascii.eqb_spec c "034"); [contradiction|]. destruct (Ascii.eqb_spec c "\"); [contradiction|reflexivity].
Qed.
Lemma walk_chars v t : chars_text v t -> walk Inside t = Some Inside.
Proof.
  induction 1 as [|c v t Hc _ IH|c e v t Hi _ IH|u a b c d v t Ha Hb Hc Hd _ IH].
  - reflexivity.
  - cbn [walk]. now rewrite turn_plain.
  - exact IH.
  - cbn [walk]. change (turn Inside "\") with (Some Escaped). cbn iota. change (turn Escaped "u") with (Some Inside). cbn iota. now rewrite !turn_plain.
Qed.
Lemma walk_string f v t : string_text v t -> walk (Outside f) t = Some (Outside true).
Proof.
  intros (b & -> & H). cbn [walk]. change (turn (Outside f) "034") with (Some Inside). cbn iota. now rewrite walk_app, (walk_chars v b H).
Qed.
Definition dull (c : ascii) : bool := negb (mem c (String "034" (String "009" (String "010" (String "013" " :"))))).
Lemma walk_dull f s : s <> "" -> Forall (fun c => dull c = true) (list_ascii_of_string s) -> walk (Outside f) s = Some (Outside false).
Proof.
  assert (T : forall c g, dull c = true -> turn (Outside g) c = Some (Outside false)).
  { intros c g H. cbn [turn]. unfold dull in H. apply Bool.negb_true_iff in H. unfold mem in H. cbn [list_ascii_of_string existsb] in H.
    repeat (apply Bool.orb_false_iff in H as [? H]). unfold mem. cbn [list_ascii_of_string existsb].
    repeat match goal with K : (c =? _)%char = false |- _ => rewrite K; clear K end. reflexivity. }
  revert f. induction s as [|c s IH]; intros f Hn H; [congruence|]. inversion H; subst. cbn [walk]. rewrite T; [|assumption].
  destruct s as [|c' s]; [reflexivity|]. apply IH; [discriminate|assumption].
Qed.
Lemma dull_app s1 s2 : Forall (fun c => dull c = true) (list_ascii_of_string s1) -> Forall (fun c => dull c = true) (list_ascii_of_string s2) ->
  Forall (fun c => dull c = true) (list_ascii_of_string (s1 ++ s2)).
Proof. rewrite list_ascii_app. intros. now apply Forall_app. Qed.
Lemma digits_dull s : digits s -> Forall (fun c => dull c = true) (list_ascii_of_string s).
Proof.
  intros [_ H]. eapply Forall_impl; [|exact H]. intros c Hc. cbn in Hc. repeat destruct Hc as [<-|Hc]; try reflexivity; contradiction.
Qed.
Lemma number_dull s : number s -> Forall (fun c => dull c = true) (list_ascii_of_string s).
Proof.
  intros (m & i & f & e & -> & Hm & Hi & Hf & He). repeat apply dull_app.
  - destruct Hm as [->| ->]; repeat constructor.
  - destruct Hi as [->|[Hi _]]; [repeat constructor|now apply digits_dull].
  - destruct Hf as [->|(d & -> & Hd)]; [constructor|]. constructor; [reflexivity|now apply digits_dull].
  - destruct He as [->|(c & g & d & -> & Hc & Hg & Hd)]; [constructor|]. constructor; [destruct Hc as [->| ->]; reflexivity|].
    apply dull_app; [destruct Hg as [->|[->| ->]]; repeat constructor|now apply digits_dull].
Qed.
Lemma walk_number f s : number s -> walk (Outside f) s = Some (Outside false).
Proof. intros H. apply walk_dull; [intros ->; now apply number_not_empty|now apply number_dull]. Qed.

Lemma walk_json :
  (forall v t, value_text v t -> forall f, exists g, walk (Outside f) t = Some (Outside g)) /\
  (forall l t, elements_text l t -> forall f, exists g, walk (Outside f) t = Some (Outside g)) /\
  (forall l t, members_text l t -> forall f, exists g, walk (Outside f) t = Some (Outside g)).
Proof.
  apply json_ind3.
  - intros f. now exists false.
  - intros f. now exists false.
  - intros f. now exists false.
  - intros s H f. exists false. now apply walk_number.
  - intros s t H f. exists true. now apply (walk_string f s).
  - intros w Hw f. exists false. change (walk (Outside false) (w ++ "]") = Some (Outside false)). now rewrite (walk_then _ _ _ _ (walk_space false w Hw)).
  - intros l t _ IH f. exists false. change (walk (Outside false) (t ++ "]") = Some (Outside false)). destruct (IH false) as [g E].
    now rewrite (walk_then _ _ _ _ E).
  - intros w Hw f. exists false. change (walk (Outside false) (w ++ "}") = Some (Outside false)). now rewrite (walk_then _ _ _ _ (walk_space false w Hw)).
  - intros l t _ IH f. exists false. change (walk (Outside false) (t ++ "}") = Some (Outside false)). destruct (IH false) as [g E].
    now rewrite (walk_then _ _ _ _ E).
  - intros v w1 t w2 H1 _ IH H2 f. destruct (IH f) as [g E]. exists g. rewrite (walk_then _ _ _ _ (walk_space f w1 H1)), (walk_then _ _ _ _ E). now apply walk_space.
  - intros v w1 t w2 l ts H1 _ IH H2 _ IHl f. destruct (IH f) as [g E]. rewrite (walk_then _ _ _ _ (walk_space f w1 H1)), (walk_then _ _ _ _ E), (walk_then _ _ _ _ (walk_space g w2 H2)).
    change (exists g0, walk (Outside false) ts = Some (Outside g0)). apply IHl.
  - intros k v w1 kt w2 w3 t w4 H1 Hk H2 H3 _ IH H4 f. destruct (IH false) as [g E]. exists g.
    rewrite (walk_then _ _ _ _ (walk_space f w1 H1)), (walk_then _ _ _ _ (walk_string f k kt Hk)), (walk_then _ _ _ _ (walk_space true w2 H2)).
    change (walk (Outside false) (w3 ++ t ++ w4) = Some (Outside g)). rewrite (walk_then _ _ _ _ (walk_space false w3 H3)), (walk_then _ _ _ _ E). now apply walk_space.
  - intros k v w1 kt w2 w3 t w4 l ts H1 Hk H2 H3 _ IH H4 _ IHl f. destruct (IH false) as [g E].
    rewrite (walk_then _ _ _ _ (walk_space f w1 H1)), (walk_then _ _ _ _ (walk_string f k kt Hk)), (walk_then _ _ _ _ (walk_space true w2 H2)).
    change (exists g0, walk (Outside false) (w3 ++ t ++ w4 ++ "," ++ ts) = Some (Outside g0)).
    rewrite (walk_then _ _ _ _ (walk_space false w3 H3)), (walk_then _ _ _ _ E), (walk_then _ _ _ _ (walk_space g w4 H4)). apply IHl.
Qed.
Lemma json_walks j s : json_text j s -> forall f, exists g, walk (Outside f) s = Some (Outside g).
Proof.
  intros (w1 & t & w2 & -> & H1 & H & H2) f. destruct (proj1 walk_json j t H f) as [g E]. exists g.
  rewrite (walk_then _ _ _ _ (walk_space f w1 H1)), (walk_then _ _ _ _ E). now apply walk_space.
Qed.

(** ** Texts that no JSON text contains, and texts that may be in an array or object *)
Definition spoilt (s : string) : Prop := (forall k, scan (Out k) s = None) \/ (forall f, walk (Outside f) s = None).
Definition marred (s : string) : Prop := (forall k, scan (Out (S k)) s = None) \/ (forall f, walk (Outside f) s = None).
Definition sound (s : string) : Prop := (forall k, scan (Out (S k)) s = Some (Out (S k))) /\ (forall f, exists g, walk (Outside f) s = Some (Outside g)).
Lemma json_sound j s : value_text j s -> sound s.
Proof. intros H. split; [intros k; exact (proj1 scan_json j s H (S k))|exact (proj1 walk_json j s H)]. Qed.
Lemma spoilt_marred s : spoilt s -> marred s.
Proof. intros [H|H]; [left; intros k; apply H|now right]. Qed.
Lemma sound_app s1 s2 : sound s1 -> sound s2 -> sound (s1 ++ s2).
Proof.
  intros [A B] [C D]. split; [intros k; now rewrite (scan_then _ _ _ _ (A k))|]. intros f. destruct (B f) as [g E]. rewrite (walk_then _ _ _ _ E). apply D.
Qed.
Lemma marred_after s1 s2 : sound s1 -> marred s2 -> marred (s1 ++ s2).
Proof.
  intros [A B] [H|H]; [left|right].
  - intros k. now rewrite (scan_then _ _ _ _ (A k)).
  - intros f. destruct (B f) as [g E]. now rewrite (walk_then _ _ _ _ E).
Qed.
Lemma marred_before s1 s2 : marred s1 -> marred (s1 ++ s2).
Proof. intros [H|H]; [left|right]; intros x; [apply scan_stuck|apply walk_stuck]; apply H. Qed.
Lemma spoilt_not_json s : spoilt s -> forall j, ~ json_text j s.
Proof.
  intros [H|H] j J; [apply json_scans in J; congruence|]. destruct (json_walks _ _ J true) as [g E]. congruence.
Qed.
Lemma marred_braces s : marred s -> spoilt ("{ " ++ s ++ " }").
Proof.
  intros H. apply (marred_before _ " }") in H. destruct H as [H|H]; [left|right]; intros x; [exact (H x)|exact (H false)].
Qed.
Lemma marred_brackets s : marred s -> spoilt ("[ " ++ s ++ " ]").
Proof.
  intros H. apply (marred_before _ " ]") in H. destruct H as [H|H]; [left|right]; intros x; [exact (H x)|exact (H false)].
Qed.
Lemma comma_sound : sound ", ".
Proof. split; [reflexivity|intros f; now exists false]. Qed.
Lemma concat_cons s l : l <> [] -> String.concat ", " (s :: l) = s ++ ", " ++ String.concat ", " l.
Proof. destruct l; [congruence|reflexivity]. Qed.
(** The first that is not sound mars the rest. *)
Lemma concat_marred l : Forall (fun s => sound s \/ marred s) l -> Exists marred l -> marred (String.concat ", " l).
Proof.
  induction l as [|s l IH]; intros H E; [inversion E|]. pose proof (Forall_inv H) as Hs. pose proof (Forall_inv_tail H) as Hl.
  destruct Hs as [Hs|Hs].
  - destruct l as [|s' l].
    + inversion E as [? ? X|? ? X]; subst; [exact X|inversion X].
    + inversion E as [? ? X|? ? X]; subst.
      * rewrite concat_cons by discriminate. now apply marred_before.
      * rewrite concat_cons by discriminate. apply marred_after; [exact Hs|]. apply marred_after; [apply comma_sound|]. now apply IH.
  - destruct l as [|s' l]; [exact Hs|]. rewrite concat_cons by discriminate. now apply marred_before.
Qed.

(** ** Lists of JSON texts *)
Lemma elements_concat l ts : l <> [] -> Forall2 value_text l ts -> elements_text l (" " ++ String.concat ", " ts ++ " ").
Proof.
  intros Hn H. induction H as [|j t l ts H F IH]; [congruence|]. destruct F as [|j' t' l ts H' F].
  - apply ELast; [apply space_blank|exact H|apply space_blank].
  - rewrite concat_cons by discriminate. eapply conv; [apply (EMore j " " t "" (j' :: l) (" " ++ String.concat ", " (t' :: ts) ++ " ")); [apply space_blank|exact H|apply space_nil|apply IH; discriminate]|].
    rewrite !app_assoc_s. reflexivity.
Qed.
Lemma array_text l ts : Forall2 value_text l ts -> value_text (JArray l) ("[ " ++ String.concat ", " ts ++ " ]").
Proof.
  intros H. destruct H as [|j t l ts H F]; [apply (VEmptyArray "  "); repeat constructor|].
  eapply conv; [apply VArray, (elements_concat (j :: l) (t :: ts)); [discriminate|now constructor]|]. rewrite !app_assoc_s. reflexivity.
Qed.
Lemma members_concat l ts : l <> [] -> Forall2 (fun kv t => exists k x, string_text (fst kv) k /\ value_text (snd kv) x /\ t = k ++ " : " ++ x) l ts ->
  members_text l (" " ++ String.concat ", " ts ++ " ").
Proof.
  intros Hn H. induction H as [|[k j] t l ts (kt & x & Hk & Hx & ->) F IH]; [congruence|]. destruct F as [|j' t' l ts H' F].
  - eapply conv; [apply (MLast k j " " kt " " " " x " "); auto using space_blank|]. cbn [String.concat]. rewrite !app_assoc_s. reflexivity.
  - rewrite concat_cons by discriminate. eapply conv; [apply (MMore k j " " kt " " " " x "" (j' :: l) (" " ++ String.concat ", " (t' :: ts) ++ " ")); auto using space_blank, space_nil; apply IH; discriminate|].
    rewrite !app_assoc_s. reflexivity.
Qed.
Lemma object_text l ts : Forall2 (fun kv t => exists k x, string_text (fst kv) k /\ value_text (snd kv) x /\ t = k ++ " : " ++ x) l ts ->
  value_text (JObject l) ("{ " ++ String.concat ", " ts ++ " }").
Proof.
  intros H. destruct H as [|j t l ts H F]; [apply (VEmptyObject "  "); repeat constructor|].
  eapply conv; [apply SpecJson.VObject, (members_concat (j :: l) (t :: ts)); [discriminate|now constructor]|]. rewrite !app_assoc_s. reflexivity.
Qed.

(** ** Values *)
Lemma fold_Forall {A} (P : A -> Prop) l : fold_right (fun a Q => P a /\ Q) True l <-> Forall P l.
Proof. induction l as [|a l IH]; cbn; split; intros H; [constructor|exact I|constructor; tauto|inversion H; tauto]. Qed.
Lemma walk_quote_free n : ~ has """" n -> walk (Outside false) n = None \/ walk (Outside false) n = Some (Outside false).
Proof.
  induction n as [|c n IH]; intros H; [now right|]. cbn [walk]. assert (Hc : c <> "034"%char) by (intros ->; apply H; now left).
  assert (Hn : ~ has """" n) by (intros K; apply H; now right). cbn [turn]. destruct (Ascii.eqb_spec c "034"); [contradiction|].
  destruct (mem c _); [now apply IH|]. destruct (c =? ":")%char; [now left|now apply IH].
Qed.
Section Values.
Context (double : N -> string).
Notation text v := (printed double dec v).

Theorem nameless_json v : ordinary double v -> nameless v -> value_text (as_json double dec v) (text v).
Proof.
  induction v as [z|z|b|b|s|s| |fp ps IH|fp es IH|fp kvs IH|fp c o] using ReadersProofs.value_ind'; intros O N; cbn [as_json printed].
  - apply VNumber, dec_number.
  - apply VNumber, dec_number.
  - apply VNumber, O.
  - apply VNumber. destruct b; [exists "", "1", "", ""|exists "", "0", "", ""]; repeat split; auto; [right|now left].
    split; [split; [discriminate|repeat constructor; cbn; tauto]|discriminate].
  - apply tame_value, O.
  - destruct N.
  - destruct N.
  - cbn [nameless] in N. subst ps. apply (object_text [] []). constructor.
  - cbn [ordinary nameless] in O, N. apply fold_Forall in O. apply fold_Forall in N. apply array_text.
    clear fp. induction es as [|v es IHes]; cbn [map]; constructor; inversion IH; inversion O; inversion N; subst; auto.
  - cbn [ordinary nameless] in O, N. apply (fold_Forall (fun kv => ordinary double (fst kv) /\ ordinary double (snd kv))) in O.
    apply (fold_Forall (fun kv => is_text (fst kv) /\ nameless (snd kv))) in N. apply object_text.
    clear fp. induction kvs as [|[k v] kvs IHk]; cbn [map]; constructor.
    + pose proof (Forall_inv IH) as [_ Hv]. pose proof (Forall_inv O) as [Ok Ov]. pose proof (Forall_inv N) as [Nk Nv].
      cbn [fst snd] in *. destruct k as [ | | | |s| | | | | | ]; try contradiction. exists ("""" ++ s ++ """"), (text v). repeat split; auto. now apply tame_text.
    + apply IHk; [exact (Forall_inv_tail IH)|exact (Forall_inv_tail O)|exact (Forall_inv_tail N)].
  - destruct N.
Qed.

Lemma scan_lt s k : scan (Out k) ("<" ++ s) = None.
Proof. reflexivity. Qed.

(** A key that is not a string. *)
Lemma not_text_walk v f : ordinary double v -> nameless v -> ~ is_text v -> walk (Outside f) (text v) = Some (Outside false).
Proof.
  intros O N T. destruct (proj1 walk_json _ _ (nameless_json v O N) f) as [g E].
  destruct v as [z|z|b|b|s|s| |fp ps|fp es|fp kvs|fp c o]; try contradiction; try (cbn [printed]; apply walk_number; auto using dec_number; fail).
  - cbn [printed]. destruct b; reflexivity.
  - cbn [nameless] in N. now subst.
  - cbn [printed] in E |- *. revert E. change ("[ " ++ String.concat ", " (map (printed double dec) es) ++ " ]") with ("[ " ++ (String.concat ", " (map (printed double dec) es) ++ " ]")).
    rewrite <- !app_assoc_s, !walk_app. destruct (walk (Outside f) "[ ") as [p|]; [|discriminate]. destruct (walk p _) as [[b| |]|]; try discriminate. reflexivity.
  - cbn [printed] in E |- *. revert E. rewrite <- !app_assoc_s, !walk_app. destruct (walk (Outside f) "{ ") as [p|]; [|discriminate]. destruct (walk p _) as [[b| |]|]; try discriminate. reflexivity.
Qed.

Theorem named_spoilt v : ordinary double v -> nameless v \/ spoilt (text v).
Proof.
  induction v as [z|z|b|b|s|s| |fp ps IH|fp es IH|fp kvs IH|fp c o] using ReadersProofs.value_ind'; intros O; try (now left); try (right; left; intros k; reflexivity).
  - destruct ps as [|[n v] ps]; [now left|right]. right. intros f. cbn [ordinary fold_right fst snd] in O. destruct O as [[On _] _]. cbn [printed map fst snd].
    change (walk (Outside false) (String.concat ", " ((n ++ " : " ++ text v) :: map (fun p => fst p ++ " : " ++ text (snd p)) ps) ++ " }") = None).
    apply walk_stuck. assert (X : forall s, walk (Outside false) ((n ++ " : " ++ text v) ++ s) = None).
    { intros s. rewrite !app_assoc_s, walk_app. destruct (walk_quote_free n On) as [->| ->]; reflexivity. }
    destruct ps; [cbn [map String.concat]; specialize (X ""); now rewrite app_nil_r_s in X|cbn [map]; rewrite concat_cons by discriminate; apply X].
  - cbn [ordinary] in O. apply fold_Forall in O. assert (F : Forall (fun v => nameless v \/ spoilt (text v)) es).
    { apply Forall_forall. intros v Hv. rewrite Forall_forall in IH, O. auto. }
    assert (D : Forall nameless es \/ Exists (fun v => spoilt (text v)) es).
    { clear - F. induction F as [|v es [H|H] _ IH]; [left; constructor| |right; now constructor]. destruct IH; [left; now constructor|right; now constructor 2]. }
    destruct D as [D|D]; [left; cbn [nameless]; now apply fold_Forall|]. right. cbn [printed]. apply marred_brackets, concat_marred.
    + apply Forall_map, Forall_forall. intros v Hv. rewrite Forall_forall in F, O. destruct (F v Hv) as [H|H]; [left|right; now apply spoilt_marred].
      eapply json_sound, nameless_json; [apply O|]; assumption.
    + apply Exists_exists in D as (v & Hv & D). apply Exists_exists. exists (text v). split; [now apply in_map|now apply spoilt_marred].
  - cbn [ordinary] in O. apply (fold_Forall (fun kv => ordinary double (fst kv) /\ ordinary double (snd kv))) in O.
    set (entry kv := text (fst kv) ++ " : " ++ text (snd kv)).
    assert (F : Forall (fun kv => (is_text (fst kv) /\ nameless (snd kv) /\ sound (entry kv)) \/ marred (entry kv)) kvs).
    { apply Forall_forall. intros [k v] Hkv. rewrite Forall_forall in IH, O. destruct (IH _ Hkv) as [Hk Hv]. destruct (O _ Hkv) as [Ok Ov]. cbn [fst snd] in *.
      unfold entry. cbn [fst snd]. destruct (Hk Ok) as [Nk|Sk]; [|right; now apply marred_before, spoilt_marred].
      assert (T : is_text k \/ ~ is_text k) by (destruct k; cbn; tauto). destruct T as [T|T].
      - assert (S : sound (text k ++ " : ")).
        { destruct k as [ | | | |s| | | | | | ]; try contradiction. cbn [ordinary] in Ok. split.
          - intros d. now rewrite (scan_then _ _ _ _ (scan_string (S d) s _ (tame_text s Ok))).
          - intros f. exists false. now rewrite (walk_then _ _ _ _ (walk_string f s _ (tame_text s Ok))). }
        rewrite <- app_assoc_s. destruct (Hv Ov) as [Nv|Sv]; [left|right; now apply marred_after, spoilt_marred].
        repeat split; [exact T|exact Nv| |]; apply (sound_app _ _ S (json_sound _ _ (nameless_json v Ov Nv))).
      - right. right. intros f. now rewrite (walk_then _ _ _ _ (not_text_walk k f Ok Nk T)). }
    assert (D : Forall (fun kv => is_text (fst kv) /\ nameless (snd kv)) kvs \/ Exists (fun kv => marred (entry kv)) kvs).
    { clear - F. induction F as [|v es [H|H] _ IH]; [left; constructor| |right; now constructor]. destruct IH; [left; constructor; tauto|right; now constructor 2]. }
    destruct D as [D|D]; [left; cbn [nameless]; now apply fold_Forall|]. right. cbn [printed]. apply marred_braces. change (marred (String.concat ", " (map entry kvs))). apply concat_marred.
    + apply Forall_map. eapply Forall_impl; [|exact F]. cbv beta. tauto.
    + apply Exists_exists in D as (kv & Hv & D). apply Exists_exists. exists (entry kv). split; [now apply in_map|assumption].
  - right. left. intros k. cbn [printed]. now apply scan_bare.
Qed.

Theorem value_json_exactly v : ordinary double v -> (nameless v <-> exists j, json_text j (text v)).
Proof.
  intros O. split.
  - intros N. eexists. apply value_json, nameless_json; assumption.
  - intros (j & J). destruct (named_spoilt v O) as [N|S]; [exact N|]. destruct (spoilt_not_json _ S _ J).
Qed.
End Values.

(** ** What the inspector shows has a name *)
Definition yields {S A} (P : A -> Prop) (m : S -> outcome S A) : Prop := forall d v d', m d = Ok v d' -> P v.
Lemma yields_bind {S A B} (P : B -> Prop) (m : S -> outcome S A) k : (forall a, yields P (k a)) -> yields P (bind m k).
Proof. intros H d v d'. unfold bind. destruct (m d) as [a s'| | | |]; try discriminate. apply H. Qed.
Lemma yields_ret {S A} (P : A -> Prop) (a : A) : P a -> @yields S A P (ret a).
Proof. intros H d v d' [= <- _]. exact H. Qed.
Lemma yields_next {A} (P : A -> Prop) (m : PM A) : yields P m -> yields P (auto_next m).
Proof. intros H d v d'. unfold auto_next, finally. destruct (m d) eqn:E; try discriminate. intros [= <- _]. eauto. Qed.
Lemma yields_enter {A} (P : A -> Prop) b (m : PM A) : yields P m -> yields P (auto_enter b m).
Proof. intros H d v d'. unfold auto_enter, finally. destruct (m _) eqn:E; try discriminate. intros [= <- _]. eauto. Qed.
Definition under (n : string) (v : ivalue) : Prop := exists s, show v = n ++ " : " ++ s.
Lemma dump_labelled double custom kf cf s : labels custom -> forall fuel r n, yields (under n) (dump double custom kf cf s fuel r (Some n)).
Proof.
  intros L fuel r n. destruct fuel as [|fuel]; [intros d v d' H; discriminate|]. destruct r as [p|ty ks|ty cs|ty k|ty k|ty k v| |ty which]; cbn [dump].
  - destruct p; cbn [dump_property]; apply yields_bind; intros a; apply yields_ret; eexists; reflexivity.
  - apply yields_next. intros d v d'. destruct (is_null d); [intros [= <- _]; eexists; reflexivity|]. apply yields_bind. intros a. apply yields_ret. eexists. reflexivity.
  - apply yields_next, yields_bind. intros a. apply yields_bind. intros x. apply yields_ret. eexists. reflexivity.
  - apply yields_next, yields_bind. intros a. apply yields_ret. eexists. reflexivity.
  - apply yields_next, yields_bind. intros a. apply yields_ret. eexists. reflexivity.
  - apply yields_next, yields_bind. intros a. apply yields_ret. eexists. reflexivity.
  - cbn [dump_public_key]. apply yields_next, yields_bind. intros a. apply yields_enter. do 3 (apply yields_bind; intros ?). apply yields_ret. eexists. reflexivity.
  - exact (L which n).
Qed.
Lemma shown_parsed double custom mo kf fuel st x st' : labels custom ->
  dumpContents double custom mo kf fuel st = Ok x st' -> exists s, x = "{ Parsed : " ++ s ++ " }".
Proof.
  intros L. revert st x st'. change (yields (fun x => exists s, x = "{ Parsed : " ++ s ++ " }") (dumpContents double custom mo kf fuel)).
  unfold dumpContents. apply yields_bind. intros e. apply yields_bind. intros _ [d cf] x st'. cbn [snd].
  destruct (byDescriptor _ _); [|discriminate]. destruct (reader_at _ _); [|discriminate]. unfold on_data.
  destruct (dump_payload _ _ _ _ _ _ _ _) as [y d'| | | |] eqn:E; try discriminate. intros [= <- _].
  enough (Y : yields (fun x => exists s, x = "{ Parsed : " ++ s ++ " }") (dump_payload double custom kf fuel cf (e_schema e) r)) by exact (Y _ _ _ E).
  clear - L. apply yields_enter, yields_bind. intros _. apply yields_bind. intros _. apply yields_enter. intros d1 v d1'. unfold bind.
  destruct (dump _ _ _ _ _ _ _ _ _) as [w d2| | | |] eqn:E; try discriminate. intros [= <- _]. destruct (dump_labelled _ _ _ _ _ L _ _ _ _ _ _ E) as [z ->].
  exists z. now rewrite !app_assoc_s.
Qed.
Lemma parsed_spoilt s : spoilt ("{ Parsed : " ++ s).
Proof. left. intros k. reflexivity. Qed.

(** ** The raw dump *)
Lemma value_last j t : value_text j t -> forall s, t = s ++ "]" -> exists r, t = "[" ++ r.
Proof.
  assert (L : forall a b c d, a ++ String c "" = b ++ String d "" -> c = d).
  { induction a as [|x a IH]; intros [|y b] c d E; try (injection E; intros; subst; auto; fail).
    - injection E as _ E. destruct b; discriminate.
    - injection E as _ E. destruct a; discriminate.
    - injection E as _ E. eauto. }
  intros H s E. destruct H; eauto.
  - exfalso. apply (L "nul" s "l"%char "]"%char) in E. discriminate.
  - exfalso. apply (L "tru" s "e"%char "]"%char) in E. discriminate.
  - exfalso. apply (L "fals" s "e"%char "]"%char) in E. discriminate.
  - exfalso. apply number_loose in H. rewrite E, list_ascii_app in H. apply Forall_app in H as [_ H]. inversion H; subst. discriminate.
  - exfalso. destruct H as (b & -> & _). apply (L (String "034" b) s "034"%char "]"%char) in E. discriminate.
  - exfalso. apply (L ("{" ++ w) s "}"%char "]"%char) in E. discriminate.
  - exfalso. apply (L ("{" ++ t) s "}"%char "]"%char) in E. discriminate.
Qed.
Lemma space_last w s t : space w -> w <> "" -> t ++ w <> s ++ "]".
Proof.
  intros H Hn E. destruct (exists_last (l := list_ascii_of_string w)) as (l & c & El); [destruct w; [congruence|discriminate]|].
  apply (f_equal list_ascii_of_string) in E. rewrite !list_ascii_app, El in E. cbn [list_ascii_of_string] in E.
  rewrite app_assoc in E. apply app_inj_tail in E as [_ Ec]. subst c. unfold space in H. rewrite El in H. apply Forall_app in H as [_ H]. inversion H as [|? ? Hc _]; subst.
  destruct Hc as [|[|[|]]]; discriminate.
Qed.
Lemma json_ends_array j x s : json_text j x -> x = s ++ "]" -> like_an_array x.
Proof.
  intros (w1 & t & w2 & -> & H1 & H & H2) E. destruct w2 as [|c w2].
  - rewrite app_nil_r_s in *. assert (T : t <> "") by (intros ->; exact (value_not_empty j H)).
    destruct (exists_last (l := list_ascii_of_string t)) as (l & c & El); [destruct t; [congruence|discriminate]|].
    assert (Ec : c = "]"%char).
    { apply (f_equal list_ascii_of_string) in E. rewrite !list_ascii_app, El in E. cbn [list_ascii_of_string] in E. rewrite app_assoc in E. now apply app_inj_tail in E as [_ ->]. }
    destruct (value_last j t H (string_of_list_ascii l)) as [r ->].
    { apply (f_equal string_of_list_ascii) in El. rewrite string_of_list_ascii_of_string in El. subst c. rewrite El.
      clear. induction l as [|a l IH]; [reflexivity|]. cbn. now rewrite IH. }
    exists w1, r. now split.
  - exfalso. apply (space_last (String c w2) s (w1 ++ t)); [assumption|discriminate|]. now rewrite app_assoc_s.
Qed.
Lemma array_prefix fp r : like_an_array (fp ++ " : " ++ r) -> like_an_array fp.
Proof.
  intros (w & r' & Hw & E). revert w Hw E. induction fp as [|c fp IH]; intros w Hw E.
  - exfalso. destruct w as [|a w]; [discriminate|]. injection E as _ E. destruct w as [|b w]; [discriminate|]. injection E as <- _.
    pose proof (Forall_inv (Forall_inv_tail Hw)) as X. destruct X as [X|[X|[X|X]]]; discriminate X.
  - destruct w as [|a w].
    + injection E as -> E. exists "", fp. split; [constructor|reflexivity].
    + injection E as -> E. inversion Hw; subst. destruct (IH w) as (w' & r2 & Hw' & ->); [assumption|exact E|]. exists (String a w'), r2. split; [now constructor|reflexivity].
Qed.
Lemma raw_not_json fp y j : ~ like_an_array fp -> ~ json_text j (fp ++ " : " ++ y ++ " ]").
Proof.
  intros H J. apply H, (array_prefix fp (y ++ " ]")), (json_ends_array j _ (fp ++ " : " ++ y ++ " ") J). now rewrite !app_assoc_s.
Qed.
Lemma numbers_json double float r : numbers double float r -> value_text (raw_json double float dec r) (raw_text double float dec r).
Proof.
  revert r. fix rec 1. intros [a|es|fp es] H; [| |destruct H].
  - destruct a; cbn [numbers] in H; try contradiction; cbn [raw_json raw_text raw_value]; try (apply VNumber; auto using dec_number; fail); [constructor|].
    destruct b; constructor.
  - cbn [numbers] in H. destruct H as [Hn H]. cbn [raw_json raw_text]. unfold in_brackets.
    assert (F : Forall2 value_text (map (raw_json double float dec) es) (map (raw_text double float dec) es)).
    { clear Hn. induction es as [|e es IH]; cbn [map]; constructor; [apply rec, H|apply IH, H]. }
    destruct es; [congruence|]. exact (array_text _ _ F).
Qed.
