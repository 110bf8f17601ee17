From Coq Require Import Lia DecimalString DecimalZ.
From Verif Require Import Base Proton ProtonProofs TypeNames SpecTypes TypeNamesProofs MakePrimProofs Schema SpecSchema SchemaProofs Descriptors SpecDescriptors
  DescriptorsProofs Factory SpecFactory FactoryProofs Readers SpecReaders Blob ReadersProofs.
From Verif Require Export SpecSamples.
Import List ListNotations.
Open Scope string_scope.

(** ** Numerals *)

Theorem numerals_read_back : forall z, exists i, NilZero.int_of_string (dec z) = Some i /\ Z.of_int i = z.
Proof.
  intros z. exists (Z.to_int z). split; [|apply DecimalZ.of_to]. unfold dec. apply NilZero.isi.
  - destruct z as [|p|p]; try discriminate. cbn. intros H. injection H as H. revert H. apply DecimalPos.Unsigned.to_uint_nonnil.
  - destruct z as [|p|p]; try discriminate. cbn. intros H. injection H as H. revert H. apply DecimalPos.Unsigned.to_uint_nonnil.
Qed.

(** ** Brackets *)

Lemma balanced_app s t : balanced s -> balanced t -> balanced (s ++ t).
Proof.
  intros H Ht. induction H as [|c s Hc _ IH|s s' H1 _ _ IH|s s' H1 _ _ IH]; cbn [append].
  - exact Ht.
  - now constructor.
  - change (String "{" ((s ++ String "}" s') ++ t)) with ("{" ++ (s ++ String "}" s') ++ t).
    rewrite app_assoc_s. change (String "}" s' ++ t) with ("}" ++ (s' ++ t)). now constructor.
  - change (String "[" ((s ++ String "]" s') ++ t)) with ("[" ++ (s ++ String "]" s') ++ t).
    rewrite app_assoc_s. change (String "]" s' ++ t) with ("]" ++ (s' ++ t)). now constructor.
Qed.
Lemma no_bracket_balanced s : no_bracket s -> balanced s.
Proof. induction s as [|c s IH]; [constructor|]. intros [H1 H2]. constructor; auto. Qed.
Lemma no_bracket_app s t : no_bracket s -> no_bracket t -> no_bracket (s ++ t).
Proof. induction s as [|c s IH]; cbn; [auto|]. intros [H1 H2] H3. auto. Qed.
Ltac clean := apply no_bracket_balanced; cbn; repeat split.
Lemma balanced_braces s : balanced s -> balanced ("{ " ++ s ++ " }").
Proof.
  intros H. change ("{ " ++ s ++ " }") with ("{" ++ (" " ++ (s ++ " }"))).
  replace (" " ++ s ++ " }") with ((" " ++ s ++ " ") ++ "}" ++ "").
  - apply bal_braces; [|constructor]. apply balanced_app; [clean|]. apply balanced_app; [assumption|clean].
  - rewrite !app_assoc_s. reflexivity.
Qed.
Lemma balanced_brackets s : balanced s -> balanced ("[ " ++ s ++ " ]").
Proof.
  intros H. change ("[ " ++ s ++ " ]") with ("[" ++ (" " ++ (s ++ " ]"))).
  replace (" " ++ s ++ " ]") with ((" " ++ s ++ " ") ++ "]" ++ "").
  - apply bal_brackets; [|constructor]. apply balanced_app; [clean|]. apply balanced_app; [assumption|clean].
  - rewrite !app_assoc_s. reflexivity.
Qed.
Lemma balanced_commas l : Forall balanced l -> balanced (commas l).
Proof.
  induction 1 as [|s l Hs Hl IH]; [constructor|]. destruct l as [|s' l]; [exact Hs|].
  change (balanced (s ++ ", " ++ commas (s' :: l))). apply balanced_app; [assumption|]. apply balanced_app; [clean|assumption].
Qed.
Lemma digits_clean u : no_bracket (NilZero.string_of_uint u).
Proof.
  assert (H : forall u, no_bracket (NilEmpty.string_of_uint u)) by (induction u0; cbn; auto).
  unfold NilZero.string_of_uint. destruct u; [cbn; auto|apply H..].
Qed.
Lemma dec_clean z : no_bracket (dec z).
Proof. unfold dec. destruct (Z.to_int z); cbn; [apply digits_clean|split; [reflexivity|apply digits_clean]]. Qed.

(** What is printed after the label is balanced. *)
Definition tidy (name : option string) (v : ivalue) : Prop := exists b, show v = labelled name b /\ balanced b.
Lemma tidy_balanced name v : match name with Some n => no_bracket n | None => True end -> tidy name v -> balanced (show v).
Proof.
  intros Hn (b & -> & H). destruct name as [n|]; [|exact H]. cbn [labelled].
  apply balanced_app; [now apply no_bracket_balanced|]. apply balanced_app; [clean|assumption].
Qed.

Definition clean_level (d : data) : Prop := Forall strings_clean (siblings (here d)).
Definition clean_cur (d : data) : Prop := match here d with At _ t _ => strings_clean t | Before _ => True end.
Lemma clean_children a cs : strings_clean (Node a cs) -> Forall strings_clean cs.
Proof. cbn. intros [_ H]. induction cs as [|t cs IH]; constructor; [apply H|]. apply IH. apply H. Qed.
Lemma clean_level_cur d : clean_level d -> clean_cur d.
Proof.
  destruct d as [[cs|l t r] u]; unfold clean_level, clean_cur; cbn [here siblings]; [auto|].
  rewrite rev_append_rev, Forall_app. intros [_ H]. now apply Forall_inv in H.
Qed.
Lemma clean_level_same d d' : same_level d d' -> clean_level d -> clean_level d'.
Proof. unfold clean_level. now intros [_ ->]. Qed.
Lemma clean_enter d : isAt d -> clean_cur d -> clean_level (pn_enter d).
Proof. destruct d as [[cs|l [a cs] r] u]; [intros []|]. intros _ H. exact (clean_children _ _ H). Qed.
Lemma clean_w_enter d : isAt d -> clean_cur d -> clean_level (w_enter d).
Proof. intros H1 H2. eapply clean_level_same; [apply next_same|]. now apply clean_enter. Qed.
Lemma below_w_enter n d : isAt d -> belowc n d -> n <> 0 /\ below (n - 1) (w_enter d).
Proof. intros H1 H2. destruct (enter_below n d H1 H2). split; [assumption|]. eapply same_level_below; [apply next_same|assumption]. Qed.

Lemma cur_string d s : clean_cur d -> cur_atom d = Some (AString s) \/ cur_atom d = Some (ASymbol s) -> no_bracket s.
Proof. destruct d as [[cs|l [a cs] r] u]; cbn; intros H [E|E]; try discriminate; injection E as ->; apply H. Qed.
Lemma read_string_clean b d x d' : clean_cur d -> readAndNext_string b d = Ok x d' -> no_bracket x.
Proof.
  intros H. unfold readAndNext_string, auto_next, finally. pose proof (cur_string d) as C.
  destruct (cur_atom d) as [[]|]; try discriminate; try (destruct b; [|discriminate]); intros E; injection E as <- _; auto.
  exact I.
Qed.
Lemma quoted_balanced s : no_bracket s -> balanced (quoted s).
Proof. intros H. unfold quoted. constructor; [reflexivity|]. apply balanced_app; [now apply no_bracket_balanced|clean]. Qed.

(** [m] tells something about its result, on any level of clean strings. *)
Definition tells {A} (n : nat) (P : A -> Prop) (m : PM A) : Prop := forall d, below n d -> clean_level d ->
  match m d with Ok a _ => P a | _ => True end.
Definition tellsc {A} (n : nat) (P : A -> Prop) (m : PM A) : Prop := forall d, belowc n d -> clean_cur d ->
  match m d with Ok a _ => P a | _ => True end.
Lemma tellsc_tells {A} n P (m : PM A) : tellsc n P m -> tells n P m.
Proof. intros H d Hb Hc. apply H; [now apply below_belowc|now apply clean_level_cur]. Qed.
Lemma tells_bind {A B} n P Q (m : PM A) (k : A -> PM B) : loose n m -> tells n P m -> (forall a, P a -> tells n Q (k a)) ->
  tells n Q (bind m k).
Proof.
  intros Hl Hm Hk d Hb Hc. unfold bind. specialize (Hl d Hb). specialize (Hm d Hb Hc).
  destruct (m d) as [a d1|e d1| | |]; auto. apply Hk; eauto using same_level_below, clean_level_same.
Qed.
Lemma tells_ret {A} n (P : A -> Prop) a : P a -> tells n P (ret a).
Proof. intros H d _ _. exact H. Qed.
Lemma tellsc_ret {A} n (P : A -> Prop) a : P a -> tellsc n P (ret a).
Proof. intros H d _ _. exact H. Qed.
Lemma tells_any {A} n (m : PM A) : tells n (fun _ => True) m.
Proof. intros d _ _. destruct (m d); auto. Qed.
(** The check that precedes a scope leaves the cursor where it is. *)
Lemma tellsc_require {A} n P ty (m : PM A) : ty <> TInvalid ->
  (forall d, isAt d -> belowc n d -> clean_cur d -> match m d with Ok a _ => P a | _ => True end) -> tellsc n P (require ty ;; m).
Proof.
  intros Hty Hm d Hb Hc. unfold bind. pose proof (require_probing n ty Hty) as R.
  unfold require in *. destruct (is_type ty d) eqn:E; [|exact I]. apply Hm; auto.
  unfold is_type, pn_dtype in E. destruct d as [[cs|l t r] u]; [|exact I]. cbn in E. destruct ty; discriminate || congruence.
Qed.
Lemma tellsc_bind_ret {A B} n (P : A -> Prop) (Q : B -> Prop) (m : PM A) (g : A -> B) : tellsc n P m -> (forall a, P a -> Q (g a)) ->
  tellsc n Q (let! a := m in ret (g a)).
Proof. intros Hm Hg d Hb Hc. unfold bind. specialize (Hm d Hb Hc). destruct (m d); cbn; auto. Qed.
Lemma tellsc_next {A} n (P : A -> Prop) (m : PM A) : tellsc n P m -> tellsc n P (auto_next m).
Proof. intros Hm d Hb Hc. unfold auto_next, finally. specialize (Hm d Hb Hc). destruct (m d); auto. Qed.
Lemma enter_tells {A} n (P : A -> Prop) (m : PM A) : (n <> 0 -> tells (n - 1) P m) ->
  forall d, isAt d -> belowc n d -> clean_cur d -> match auto_enter false m d with Ok a _ => P a | _ => True end.
Proof.
  intros Hm d Ha Hb Hc. unfold auto_enter, finally. destruct (below_w_enter n d Ha Hb) as [Hn Hb'].
  specialize (Hm Hn (w_enter d) Hb' (clean_w_enter d Ha Hc)). destruct (m (w_enter d)); auto.
Qed.
Lemma list_enter_tells {A} n (P : A -> Prop) (m : nat -> PM A) : (forall k, n <> 0 -> tells (n - 1) P (m k)) ->
  forall d, isAt d -> belowc n d -> clean_cur d -> match auto_list_enter true m d with Ok a _ => P a | _ => True end.
Proof.
  intros Hm d Ha Hb Hc. unfold auto_list_enter, finally. destruct (below_w_enter n d Ha Hb) as [Hn Hb'].
  specialize (Hm (pn_get_list d) Hn (w_enter d) Hb' (clean_w_enter d Ha Hc)). unfold w_enter in Hm.
  destruct (m (pn_get_list d) (pn_next (pn_enter d))); auto.
Qed.
Lemma map_enter_tells {A} n (P : A -> Prop) (m : nat -> PM A) : (forall k, n <> 0 -> tells (n - 1) P (m k)) ->
  forall d, isAt d -> belowc n d -> clean_cur d -> match auto_map_enter true m d with Ok a _ => P a | _ => True end.
Proof.
  intros Hm d Ha Hb Hc. unfold auto_map_enter, finally. destruct (below_w_enter n d Ha Hb) as [Hn Hb'].
  specialize (Hm (pn_get_map d) Hn (w_enter d) Hb' (clean_w_enter d Ha Hc)). unfold w_enter in Hm.
  destruct (m (pn_get_map d) (pn_next (pn_enter d))); auto.
Qed.
(** Reading a string, then going on where there is a node. *)
Lemma string_then_tells {A} n (P : A -> Prop) (m : string -> PM A) : 
  (forall x d, isAt d -> below n d -> clean_level d -> match m x d with Ok a _ => P a | _ => True end) ->
  tells n P (let! x := readAndNext_string false in m x).
Proof.
  intros Hm d Hb Hc. unfold bind. pose proof (readAndNext_string_probing n false d Hb) as R.
  destruct (readAndNext_string false d) as [x d1|e d1| | |]; auto. destruct R as [R1 R2].
  apply Hm; eauto using same_level_below, clean_level_same.
Qed.

Section Tidy.
Context (fmt : N -> string) (custom : nat -> option string -> PM ivalue) (kf : bool) (f : factory) (s : schema).
Hypothesis custom_stays : forall which name, stays_put (custom which name).
Hypothesis custom_tidy : forall which name d v d', custom which name d = Ok v d' -> tidy name v.
Hypothesis fmt_clean : forall b, no_bracket (fmt b).
Hypothesis names_ok : names_clean (List.concat (s_types s)).

Section Step.
Context (F : nat) (rec : reader -> option string -> PM ivalue).
Hypothesis rec_loose : forall k r name, k < F -> loose k (rec r name).
Hypothesis rec_tidy : forall k r name, k < F -> tellsc k (tidy name) (rec r name).

Lemma property_tidy p name k : tellsc k (tidy name) (dump_property fmt p name).
Proof.
  assert (T : forall x, no_bracket x -> tidy name (IText name x)).
  { intros x Hx. exists x. split; [reflexivity|now apply no_bracket_balanced]. }
  destruct p; cbn [dump_property]; intros d Hb Hc; unfold bind.
  - apply T, dec_clean.
  - apply T, dec_clean.
  - apply T, fmt_clean.
  - apply T. cbn. now destruct (pn_get_bool d).
  - destruct (readAndNext_string false d) eqn:E; cbn; auto. exists (quoted a). split; [reflexivity|].
    apply quoted_balanced. eapply read_string_clean; eauto.
  - cbn. exact I.
  - apply T. apply no_bracket_app; [cbn; repeat split|]. apply no_bracket_app; [apply dec_clean|cbn; repeat split].
Qed.
Lemma enum_tidy name k : tellsc k (tidy name) (dump_enum name).
Proof.
  apply tellsc_next. apply tellsc_require; [discriminate|]. intros d Ha Hb Hc. revert d Hb Hc Ha.
  assert (E : tellsc k no_bracket enum_value).
  { apply tellsc_require; [discriminate|]. apply enter_tells. intros Hn.
    apply tells_bind with (P := fun _ => True).
    - intros d _. destruct (is_type TULong d && _); apply same_level_refl.
    - apply tells_any.
    - intros _ _. apply string_then_tells. intros _ d Ha Hb Hc.
      apply (list_enter_tells (k - 1)); [|assumption|now apply below_belowc|now apply clean_level_cur].
      intros _ Hn2 d0 Hb0 Hc0. destruct (readAndNext_string false d0) eqn:E; auto.
      eapply read_string_clean; [|exact E]. now apply clean_level_cur. }
  intros d Hb Hc _. apply (tellsc_bind_ret k no_bracket (tidy name) enum_value (fun v => IText name v) E); auto.
  intros v Hv. exists v. split; [reflexivity|now apply no_bracket_balanced].
Qed.
Lemma public_key_tidy name k : tellsc k (tidy name) (dump_public_key name).
Proof.
  unfold dump_public_key. destruct name as [name|]; [|intros d _ _; exact I].
  apply tellsc_next. apply tellsc_require; [discriminate|]. apply enter_tells. intros _ d _ _.
  unfold bind. destruct (next_ d); auto. destruct (attest_is_binary s0); auto. destruct (readAndNext_binary s1); cbn; auto.
  exists "<<<Public Key>>>". split; [reflexivity|clean].
Qed.
Lemma fields_tidy k : k < F -> forall fields ks, (forall fd, In fd fields -> no_bracket (f_name fd)) ->
  tells k (Forall (fun v => balanced (show v))) (dump_fields f rec fields ks).
Proof.
  intros Hk. induction fields as [|fd fields IH]; intros [|i ks] Hn; cbn [dump_fields]; try (apply tells_ret; constructor).
  destruct (lock f i); [|intros d _ _; exact I].
  apply tells_bind with (P := tidy (Some (f_name fd))); [now apply rec_loose|now apply tellsc_tells, rec_tidy|].
  intros v Hv. apply tells_bind with (P := Forall (fun v => balanced (show v))).
  - now apply fields_loose with (F := F).
  - apply IH. intros fd' H. apply Hn. now right.
  - intros vs Hvs. apply tells_ret. constructor; [|assumption]. eapply tidy_balanced; [|exact Hv]. cbn. apply Hn. now left.
Qed.
Lemma braces_tidy name vs : Forall (fun v => balanced (show v)) vs -> tidy name (IBraces name vs).
Proof.
  intros H. exists ("{ " ++ commas (map show vs) ++ " }"). split; [reflexivity|]. apply balanced_braces, balanced_commas.
  now apply Forall_map.
Qed.
Lemma brackets_tidy name vs : Forall (fun v => balanced (show v)) vs -> tidy name (IBrackets name vs).
Proof.
  intros H. exists ("[ " ++ commas (map show vs) ++ " ]"). split; [reflexivity|]. apply balanced_brackets, balanced_commas.
  now apply Forall_map.
Qed.
Lemma composite_tidy k ks name : k <= F -> tellsc k (tidy name) (dump_composite f s rec ks name).
Proof.
  intros Hk. apply tellsc_next. intros d Hb Hc. destruct (is_null d).
  { exists "<<NULL>>". split; [reflexivity|clean]. }
  revert d Hb Hc. apply (tellsc_bind_ret k (Forall (fun v => balanced (show v)))); [|apply braces_tidy].
  apply tellsc_require; [discriminate|]. apply enter_tells. intros Hn.
  apply tells_bind with (P := fun _ => True); [apply probing_loose, get_symbol_probing|apply tells_any|]. intros sym _.
  apply tells_bind with (P := fun t => In t (List.concat (s_types s))).
  - apply loose_lift, fromDescriptor_fuel.
  - intros d _ _. unfold fromDescriptor, first_with. destruct (find _ _) eqn:E; cbn; auto. eapply find_some; eauto.
  - intros [c|r] Hin; [|intros d _ _; exact I]. destruct (Nat.eqb _ _); [|intros d _ _; exact I].
    apply tells_bind with (P := fun _ => True); [apply loose_next|apply tells_any|]. intros _ _.
    apply tellsc_tells, tellsc_require; [discriminate|]. apply enter_tells. intros Hn2. apply fields_tidy; [lia|].
    intros fd Hfd. eapply names_ok; eauto.
Qed.
Lemma elements_tidy k : k < F -> forall n r, tells k (Forall (fun v => balanced (show v))) (dump_elements rec n r).
Proof.
  intros Hk. induction n as [|n IH]; intros r; cbn [dump_elements]; [apply tells_ret; constructor|].
  destruct r as [r|]; [|intros d _ _; exact I].
  apply tells_bind with (P := tidy None); [now apply rec_loose|now apply tellsc_tells, rec_tidy|]. intros v Hv.
  apply tells_bind with (P := Forall (fun v => balanced (show v))); [now apply elements_loose with (F := F)|apply IH|].
  intros vs Hvs. apply tells_ret. constructor; [|assumption]. exact (tidy_balanced None v I Hv).
Qed.
Lemma list_tidy k i name : k <= F -> tellsc k (tidy name) (dump_list f s rec i name).
Proof.
  intros Hk. apply tellsc_next. apply (tellsc_bind_ret k (Forall (fun v => balanced (show v)))); [|apply brackets_tidy].
  apply tellsc_require; [discriminate|]. apply enter_tells. intros Hn. apply string_then_tells. intros fp d Ha Hb Hc.
  unfold bind, lift. destruct (fromDescriptor s fp); auto.
  apply (list_enter_tells (k - 1)); [|assumption|now apply below_belowc|now apply clean_level_cur].
  intros n Hn2. apply elements_tidy. lia.
Qed.
Lemma entries_tidy k : k < F -> forall c n a b, n <= c -> tells k (Forall (fun v => balanced (show v))) (dump_entries kf rec n a b).
Proof.
  intros Hk. induction c as [|c IH]; intros n a b Hn.
  { replace n with 0 by lia. apply tells_ret. constructor. }
  destruct n as [|n]; cbn [dump_entries]; [apply tells_ret; constructor|]. 
  assert (Hl : forall r, loose k (dump_through rec r)) by (intros [r|]; [now apply rec_loose|apply loose_ub]).
  assert (Ht : forall r, tells k (tidy None) (dump_through rec r)) by (intros [r|]; [now apply tellsc_tells, rec_tidy|intros d _ _; exact I]).
  assert (Hent : forall x y, tidy None x -> tidy None y -> balanced (show (IEntry x y))).
  { intros x y Hx Hy. cbn [show]. apply balanced_app; [exact (tidy_balanced None x I Hx)|].
    apply balanced_app; [clean|exact (tidy_balanced None y I Hy)]. }
  apply tells_bind with (P := fun v => balanced (show v)).
  - unfold dump_entry. destruct kf; (apply loose_seq; [apply Hl|]); intros x;
      (apply loose_seq; [apply Hl|]); intros y; apply loose_ret.
  - unfold dump_entry. destruct kf;
      (apply tells_bind with (P := tidy None); [apply Hl|apply Ht|]); intros x Hx;
      (apply tells_bind with (P := tidy None); [apply Hl|apply Ht|]); intros y Hy;
      apply tells_ret; auto.
  - intros e He. apply tells_bind with (P := Forall (fun v => balanced (show v))).
    + apply entries_loose with (F := F) (c := n); auto. lia.
    + apply IH. lia.
    + intros es Hes. apply tells_ret. now constructor.
Qed.
Lemma map_tidy k i j name : k <= F -> tellsc k (tidy name) (dump_map kf f s rec i j name).
Proof.
  intros Hk. apply tellsc_next. apply (tellsc_bind_ret k (Forall (fun v => balanced (show v)))); [|apply braces_tidy].
  apply tellsc_require; [discriminate|]. apply enter_tells. intros Hn. apply string_then_tells. intros fp d Ha Hb Hc.
  unfold bind, lift. destruct (fromDescriptor s fp); auto.
  apply (map_enter_tells (k - 1)); [|assumption|now apply below_belowc|now apply clean_level_cur].
  intros n Hn2. apply entries_tidy with (c := n); [lia|apply le_n].
Qed.
End Step.

Lemma dump_tidy : forall F k r name, k < F -> tellsc k (tidy name) (dump fmt custom kf f s F r name).
Proof.
  induction F as [|F IH]; intros k r name Hk; [lia|]. cbn [dump].
  pose proof (dump_loose fmt custom kf f s custom_stays F) as L.
  destruct r; eauto using property_tidy, enum_tidy, public_key_tidy.
  - apply composite_tidy with (F := F); [auto|auto|lia].
  - apply list_tidy with (F := F); [auto|auto|lia].
  - apply list_tidy with (F := F); [auto|auto|lia].
  - apply map_tidy with (F := F); [auto|auto|lia].
  - intros d _ _. destruct (custom which name d) eqn:E; auto. eapply custom_tidy; eauto.
Qed.
End Tidy.

Theorem contents_balanced : forall fmt custom mo kf,
  (forall which name, stays_put (custom which name)) ->
  (forall which name d v d', custom which name d = Ok v d' -> exists b, show v = labelled name b /\ balanced b) ->
  (forall b, no_bracket (fmt b)) ->
  forall fuel blob cf text st, payload_clean blob -> height blob < fuel ->
  (forall e, read_envelope fuel (decoded blob) = Ok e (decoded blob) -> names_clean (List.concat (s_types (e_schema e)))) ->
  dumpContents fmt custom mo kf fuel (decoded blob, cf) = Ok text st -> balanced text.
Proof.
  intros fmt custom mo kf Hs Ht Hf fuel blob cf text st Hp Hh Hn. unfold dumpContents. unfold bind at 1. unfold on_data at 1.
  pose proof (read_envelope_restores fuel (decoded blob) I ltac:(unfold belowc; cbn; lia)) as E.
  destruct (read_envelope fuel (decoded blob)) as [e d1|e d1| | |] eqn:RE; try discriminate. subst d1. specialize (Hn e eq_refl).
  unfold bind at 1. unfold on_factory at 1.
  destruct (process mo (e_schema e) cf) as [[] cf1|x cf1| | |]; try discriminate. cbn [snd].
  destruct (byDescriptor cf1 (e_descriptor e)) as [i|]; [|discriminate].
  destruct (reader_at i cf1) as [r|]; [|discriminate].
  unfold on_data. destruct (dump_payload fmt custom kf fuel cf1 (e_schema e) r (decoded blob)) as [x d1| | | |] eqn:D; try discriminate.
  intros H. injection H as <- _. destruct blob as [a cs].
  (* the first child names a descriptor, so it is no list *)
  destruct cs as [|c1 cs]; [discriminate D|].
  assert (Hc1 : forall d, here d = At [] c1 cs -> is_type TList d = false).
  { intros d Hd. destruct c1 as [a1 cs1]. destruct a1; try (unfold is_type, pn_dtype, cur_atom; rewrite Hd; reflexivity); exfalso;
      clear - RE; unfold read_envelope in RE; destruct (is_described _); try discriminate;
      unfold bind, auto_enter, finally, build_id in RE; cbn in RE;
      (change (pn_get_ulong _) with 0%N in RE || idtac); rewrite registered_zero in RE; discriminate RE. }
  unfold dump_payload, auto_enter at 1, finally in D.
  destruct cs as [|[a2 cs2] cs].
  { match type of D with match (bind ?m ?k) ?d0 with _ => _ end = _ => change (bind m k d0) with (bind m k (Data (At [] c1 []) [Frame [] a []])) in D end.
    unfold bind at 1, attest_is_list, require in D. rewrite (Hc1 (Data (At [] c1 []) [Frame [] a []]) eq_refl) in D. discriminate D. }
  clear Hc1 RE.
  match type of D with match (bind ?m ?k) ?d0 with _ => _ end = _ =>
    change (bind m k d0) with (bind m k (Data (At [c1] (Node a2 cs2) cs) [Frame [] a []])) in D end.
  unfold bind at 1, attest_is_list, require in D. destruct (is_type TList _); [|discriminate D].
  unfold bind at 1 in D. destruct (Nat.eqb _ 3) eqn:L in D; [|discriminate D].
  destruct cs2 as [|p cs2].
  { exfalso. destruct a2; discriminate L. }
  unfold auto_enter, finally in D. cbn [w_enter pn_enter here ups pn_next] in D.
  match type of D with context [bind ?m ?k ?d0] =>
    change (bind m k d0) with (bind m k (Data (At [] p cs2) [Frame [c1] a2 cs; Frame [] a []])) in D end.
  unfold bind in D.
  assert (Hh' : height p < fuel).
  { rewrite height_node, !heights_cons, height_node, heights_cons in Hh. lia. }
  pose proof (dump_tidy fmt custom kf cf1 (e_schema e) Hs Ht Hf Hn fuel (height p) r (Some "{ Parsed") Hh'
    (Data (At [] p cs2) [Frame [c1] a2 cs; Frame [] a []]) ltac:(unfold belowc; cbn; lia) Hp) as T.
  destruct (dump _ _ _ _ _ _ _ _ _) as [v d2| | | |]; try discriminate D. cbn in D. injection D as <- _.
  destruct T as (b & -> & Hb). cbn [labelled].
  change (balanced ("{ " ++ (("Parsed : " ++ b) ++ " }"))). apply balanced_braces.
  apply balanced_app; [clean|assumption].
Qed.

(** ** C33 - C35: one property of a primitive type *)

Section Sample.
Context (fmt : N -> string) (custom : nat -> option string -> PM ivalue) (mo kf : bool).
Local Notation prints_as := (prints_as fmt custom mo kf).
Local Notation refuses := (refuses fmt custom mo kf).
Ltac run_sample := unfold SpecSamples.prints_as, SpecSamples.refuses; eexists; unfold text_with; cbv -[append dec Z.of_nat String.length text_with];
  refine (f_equal (fun x => Ok x _) _); cbn [append]; rewrite ?app_assoc_s; reflexivity.
Ltac enough_fuel fuel H := do 6 (destruct fuel as [|fuel]; [lia|]); clear H.
Lemma sample_int fuel a cs : 6 <= fuel -> prints_as fuel "int" (Node a cs) (dec match a with AInt z => z | _ => 0%Z end).
Proof. intros H. enough_fuel fuel H. run_sample. Qed.
Lemma sample_long fuel a cs : 6 <= fuel -> prints_as fuel "long" (Node a cs) (dec match a with ALong z => z | _ => 0%Z end).
Proof. intros H. enough_fuel fuel H. run_sample. Qed.
Lemma sample_double fuel a cs : 6 <= fuel -> prints_as fuel "double" (Node a cs) (fmt match a with ADouble b => b | _ => 0%N end).
Proof. intros H. enough_fuel fuel H. run_sample. Qed.
Lemma sample_boolean fuel a cs : 6 <= fuel -> prints_as fuel "boolean" (Node a cs) (if match a with ABool b => b | _ => false end then "1" else "0").
Proof. intros H. enough_fuel fuel H. run_sample. Qed.
Lemma sample_binary fuel a cs : 6 <= fuel -> prints_as fuel "binary" (Node a cs)
  ("<<<binary: " ++ dec (Z.of_nat (String.length match a with ABinary s => s | _ => "" end)) ++ " bytes>>>").
Proof. intros H. enough_fuel fuel H. destruct a; run_sample. Qed.
Lemma sample_string fuel a cs : 6 <= fuel ->
  match a with
  | AString s | ASymbol s => prints_as fuel "string" (Node a cs) ("""" ++ s ++ """")
  | _ => refuses fuel "string" (Node a cs)
  end.
Proof. intros H. enough_fuel fuel H. destruct a; match goal with |- prints_as _ _ _ _ => run_sample | |- refuses _ _ _ => eexists _, _; vm_compute; reflexivity end. Qed.
Lemma sample_float fuel t : 6 <= fuel -> refuses fuel "float" t.
Proof. intros H. enough_fuel fuel H. eexists _, _. vm_compute. reflexivity. Qed.
Lemma sample_char fuel t : 6 <= fuel -> refuses fuel "char" t.
Proof. intros H. enough_fuel fuel H. eexists _, _. vm_compute. reflexivity. Qed.
Lemma sample_bool fuel t : 6 <= fuel -> refuses fuel "bool" t.
Proof. intros H. enough_fuel fuel H. eexists _, _. vm_compute. reflexivity. Qed.

Lemma sample_good fuel ty v : 6 <= fuel -> In ty ["int"; "long"; "double"; "boolean"; "string"; "binary"] -> conforms [] ty v ->
  prints_as fuel ty (encode v) (printed fmt dec v).
Proof.
  intros H Hty Hv. destruct Hv; try match goal with Hn : In _ [] |- _ => destruct Hn end.
  - exact (sample_int fuel (AInt z) [] H).
  - exact (sample_long fuel (ALong z) [] H).
  - exact (sample_double fuel (ADouble b) [] H).
  - exact (sample_boolean fuel (ABool b) [] H).
  - exact (sample_string fuel (AString s) [] H).
  - exact (sample_binary fuel (ABinary s) [] H).
Qed.

(** Null values. *)
Lemma null_class f s fuel ty ks name d : is_null d = true ->
  exists v, dump fmt custom kf f s (S fuel) (RComposite ty ks) name d = Ok v (pn_next d) /\ show v = labelled name "<<NULL>>".
Proof. intros H. exists (INull name). split; [|reflexivity]. cbn [dump]. unfold dump_composite, auto_next, finally. now rewrite H. Qed.
Lemma null_not ty d : is_null d = true -> ty <> TNull -> is_type ty d = false.
Proof. unfold is_null, is_type. destruct (pn_dtype d); try discriminate. intros _ H. destruct ty; try reflexivity. now elim H. Qed.
Lemma null_container f s fuel r name d : is_null d = true ->
  match r with REnum _ _ | RList _ _ | RArray _ _ | RMap _ _ _ => True | _ => False end ->
  dump fmt custom kf f s (S fuel) r name d = Throw RuntimeError (pn_next d).
Proof.
  intros H Hr. pose proof (null_not TDescribed d H ltac:(discriminate)) as N.
  destruct r; try destruct Hr; cbn [dump]; unfold dump_enum, dump_list, list_dump_, dump_map, map_dump_, auto_next, finally, bind,
    attest_is_described, require; rewrite N; reflexivity.
Qed.
End Sample.

(** ** C37 *)

(** Two factories whose readers have the same shape. *)
Section Alike.
Context (fmt : N -> string) (custom : nat -> option string -> PM ivalue) (kf : bool) (f f' : factory) (s : schema).
Context (Rel : nat -> nat -> Prop).
Definition alike (r r' : reader) : Prop :=
  match r, r' with
  | RProperty p, RProperty q => p = q
  | REnum _ _, REnum _ _ => True
  | RComposite _ ks, RComposite _ ks' => Forall2 Rel ks ks'
  | RList _ i, RList _ j | RList _ i, RArray _ j | RArray _ i, RList _ j | RArray _ i, RArray _ j => Rel i j
  | RMap _ i j, RMap _ i' j' => Rel i i' /\ Rel j j'
  | RPublicKey, RPublicKey => True
  | RCustom _ w, RCustom _ w' => w = w'
  | _, _ => False
  end.
Hypothesis Rel_alike : forall i j, Rel i j -> exists r r', lock f i = Some r /\ lock f' j = Some r' /\ alike r r'.

Lemma bind_same {A B} (m m' : PM A) (k k' : A -> PM B) d : m d = m' d -> (forall a d1, k a d1 = k' a d1) -> bind m k d = bind m' k' d.
Proof. intros H K. unfold bind. rewrite H. destruct (m' d); auto. Qed.
Lemma next_same_run {A} (m m' : PM A) d : m d = m' d -> auto_next m d = auto_next m' d.
Proof. intros H. unfold auto_next, finally. now rewrite H. Qed.
Lemma enter_same_run {A} b (m m' : PM A) d : (forall d1, m d1 = m' d1) -> auto_enter b m d = auto_enter b m' d.
Proof. intros H. unfold auto_enter, finally. now rewrite H. Qed.
Lemma list_enter_same_run {A} b (m m' : nat -> PM A) d : (forall n d1, m n d1 = m' n d1) -> auto_list_enter b m d = auto_list_enter b m' d.
Proof. intros H. unfold auto_list_enter, finally. now rewrite H. Qed.
Lemma map_enter_same_run {A} b (m m' : nat -> PM A) d : (forall n d1, m n d1 = m' n d1) -> auto_map_enter b m d = auto_map_enter b m' d.
Proof. intros H. unfold auto_map_enter, finally. now rewrite H. Qed.

Section Step.
Context (rec rec' : reader -> option string -> PM ivalue).
Hypothesis rec_same : forall r r' name d, alike r r' -> rec r name d = rec' r' name d.
Lemma fields_same : forall fields ks ks', Forall2 Rel ks ks' -> forall d, dump_fields f rec fields ks d = dump_fields f' rec' fields ks' d.
Proof.
  intros fields ks ks' H. revert fields. induction H as [|i j ks ks' Hij H IH]; intros [|fd fields] d; cbn [dump_fields]; auto.
  destruct (Rel_alike i j Hij) as (r & r' & -> & -> & Hr). apply bind_same; [auto|]. intros v d1. apply bind_same; auto.
Qed.
Lemma composite_same ks ks' name d : Forall2 Rel ks ks' -> dump_composite f s rec ks name d = dump_composite f' s rec' ks' name d.
Proof.
  intros H. apply next_same_run. destruct (is_null d); [reflexivity|]. apply bind_same; [|auto].
  apply bind_same; [reflexivity|]. intros _ d1. apply enter_same_run. intros d2. apply bind_same; [reflexivity|].
  intros sym d3. apply bind_same; [reflexivity|]. intros [c|r] d4; [|reflexivity]. rewrite <- (Forall2_len _ _ _ H).
  destruct (Nat.eqb _ _); [|reflexivity]. apply bind_same; [reflexivity|]. intros _ d5. apply bind_same; [reflexivity|].
  intros _ d6. apply enter_same_run. intros d7. now apply fields_same.
Qed.
Lemma elements_same r r' : alike r r' -> forall n d, dump_elements rec n (Some r) d = dump_elements rec' n (Some r') d.
Proof.
  intros H n. induction n as [|n IH]; intros d; cbn [dump_elements]; [reflexivity|]. apply bind_same; [auto|]. intros v d1.
  apply bind_same; auto.
Qed.
Lemma list_same i j name d : Rel i j -> dump_list f s rec i name d = dump_list f' s rec' j name d.
Proof.
  intros H. destruct (Rel_alike i j H) as (r & r' & E & E' & Hr). apply next_same_run. apply bind_same; [|auto].
  apply bind_same; [reflexivity|]. intros _ d1. apply enter_same_run. intros d2. apply bind_same; [reflexivity|]. intros fp d3.
  apply bind_same; [reflexivity|]. intros t d4. apply list_enter_same_run. intros n d5. rewrite E, E'. now apply elements_same.
Qed.
Lemma entries_same a a' b b' : alike a a' -> alike b b' -> forall c n d, n <= c ->
  dump_entries kf rec n (Some a) (Some b) d = dump_entries kf rec' n (Some a') (Some b') d.
Proof.
  intros Ha Hb. induction c as [|c IH]; intros [|n] d Hn; cbn [dump_entries]; try reflexivity; [lia|]. apply bind_same.
  - unfold dump_entry, dump_through. destruct kf; (apply bind_same; [auto|]); intros x d1; (apply bind_same; [auto|]); reflexivity.
  - intros e d1. apply bind_same; [|reflexivity]. apply IH. lia.
Qed.
Lemma map_same i i' j j' name d : Rel i i' -> Rel j j' -> dump_map kf f s rec i j name d = dump_map kf f' s rec' i' j' name d.
Proof.
  intros H K. destruct (Rel_alike i i' H) as (r & r' & E & E' & Hr). destruct (Rel_alike j j' K) as (q & q' & F & F' & Hq).
  apply next_same_run. apply bind_same; [|auto].
  apply bind_same; [reflexivity|]. intros _ d1. apply enter_same_run. intros d2. apply bind_same; [reflexivity|]. intros fp d3.
  apply bind_same; [reflexivity|]. intros t d4. apply map_enter_same_run. intros n d5. rewrite E, E', F, F'. now apply entries_same with (c := n).
Qed.
End Step.

Lemma dump_same : forall fuel r r' name d, alike r r' -> dump fmt custom kf f s fuel r name d = dump fmt custom kf f' s fuel r' name d.
Proof.
  induction fuel as [|fuel IH]; intros r r' name d H; [reflexivity|].
  destruct r, r'; cbn [alike] in H; try (exfalso; exact H); cbn [dump].
  - now subst.
  - now apply composite_same.
  - reflexivity.
  - now apply list_same.
  - now apply list_same.
  - now apply list_same.
  - now apply list_same.
  - destruct H. now apply map_same.
  - reflexivity.
  - now subst.
Qed.
Lemma payload_same fuel r r' d : alike r r' -> dump_payload fmt custom kf fuel f s r d = dump_payload fmt custom kf fuel f' s r' d.
Proof.
  intros H. apply enter_same_run. intros d1. apply bind_same; [reflexivity|]. intros _ d2. apply bind_same; [reflexivity|]. intros _ d3.
  apply enter_same_run. intros d4. apply bind_same; [now apply dump_same|reflexivity].
Qed.
End Alike.

(** The same factory again, whatever has happened to it in between. *)
Theorem inspect_again : forall fmt custom mo kf, (forall which name, stays_put (custom which name)) ->
  forall fuel blob h0 cf text st cf1 h cf2, height blob < fuel ->
  run mo h0 new_factory cf -> dumpContents fmt custom mo kf fuel (decoded blob, cf) = Ok text (st, cf1) -> run mo h cf1 cf2 ->
  (forall e, read_envelope fuel (decoded blob) = Ok e (decoded blob) ->
     Forall proper (List.concat (s_types (e_schema e))) /\
     one_name_per_fingerprint (entries_of h0 ++ List.concat (s_types (e_schema e)) ++ entries_of h)) ->
  exists cf3, dumpContents fmt custom mo kf fuel (decoded blob, cf2) = Ok text (decoded blob, cf3).
Proof.
  intros fmt custom mo kf Hs fuel blob h0 cf text st cf1 h cf2 Hh R0 H1 R HE.
  pose proof (contents_restored fmt custom mo kf Hs fuel (decoded blob) cf I ltac:(unfold belowc; cbn; lia)) as S1. rewrite H1 in S1. subst st.
  unfold dumpContents in *. unfold bind at 1 in H1. unfold bind at 1. unfold on_data at 1 in H1. unfold on_data at 1.
  pose proof (read_envelope_restores fuel (decoded blob) I ltac:(unfold belowc; cbn; lia)) as E.
  destruct (read_envelope fuel (decoded blob)) as [e d1|e d1| | |] eqn:RE; try discriminate. subst d1. destruct (HE e eq_refl) as [Hp Hu].
  unfold bind at 1 in H1. unfold bind at 1. unfold on_factory at 1 in H1. unfold on_factory at 1.
  destruct (process mo (e_schema e) cf) as [[] cf1'|x cf1'| | |] eqn:P; try discriminate. cbn [snd] in H1.
  destruct (byDescriptor cf1' (e_descriptor e)) as [i|] eqn:D; [|discriminate].
  destruct (reader_at i cf1') as [r|] eqn:A; [|discriminate].
  assert (cf1' = cf1) as ->.
  { unfold on_data in H1. destruct (dump_payload _ _ _ _ _ _ _ _); try discriminate. now injection H1. }
  destruct (process_again mo h0 cf (e_schema e) cf1 h cf2 R0 Hp P R) as (cf3 & P3 & Hheap & HbT & HbD). specialize (HbD Hu).
  assert (R1 : run mo (h0 ++ [Process (e_schema e)]) new_factory cf1).
  { clear -R0 Hp P. induction R0 as [f|o h' f g g' Hc Hs R' IH]; cbn [app].
    - eapply run_cons; [exact Hp|left; exact P|constructor].
    - eapply run_cons; eauto. }
  destruct (readers_stable mo _ cf1 h cf2 R1 R) as (S1 & S2 & S3).
  assert (Hu' : one_name_per_fingerprint (entries_of (h0 ++ [Process (e_schema e)]) ++ entries_of h)).
  { unfold entries_of in *. rewrite map_app, concat_app. cbn [map List.concat]. rewrite app_nil_r, <- app_assoc. exact Hu. }
  exists cf3. rewrite P3. cbn [snd]. rewrite HbD, (S3 Hu' _ _ D).
  pose proof (reachable_inv mo cf1 (ex_intro _ _ R1)) as [I1 I2].
  destruct (I2 _ _ D) as (k & Hk). destruct (I1 _ _ Hk) as (r' & Hr' & _ & Hl).
  unfold reader_at in *. rewrite A in Hr'. injection Hr' as <-.
  assert (L : forall j q, byType cf1 q = Some j -> exists x, lock cf1 j = Some x /\ lock cf3 j = Some x /\ linked cf1 x).
  { intros j q Hq. destruct (I1 _ _ Hq) as (x & Hx & _ & Hlx). exists x.
    pose proof (byType_lock _ _ _ _ Hq Hx) as Lx. split; [exact Lx|]. split; [|exact Hlx].
    pose proof (S2 q j j x Hq (refers_self _ _) Lx) as L2. eapply byType_lock.
    - rewrite HbT. apply S1. exact Hq.
    - rewrite Hheap. now apply lock_heap. }
  destruct (L _ _ Hk) as (x & Lx & Lx3 & _). apply lock_heap in Lx. rewrite A in Lx. injection Lx as <-.
  rewrite (lock_heap _ _ _ Lx3). unfold on_data in *.
  assert (Al : forall x, linked cf1 x -> alike (fun i j => i = j /\ exists q, byType cf1 q = Some i) x x).
  { intros x Hx. unfold linked in Hx. destruct x; cbn [alike Factory.kids] in *; auto.
    - induction Hx; constructor; auto.
    - inversion Hx; auto.
    - inversion Hx; auto.
    - inversion Hx as [|? ? ? Hx']; inversion Hx'; auto. }
  rewrite <- (payload_same fmt custom kf cf1 cf3 (e_schema e) (fun i j => i = j /\ exists q, byType cf1 q = Some i)) with (r := r).
  - destruct (dump_payload _ _ _ _ _ _ _ _); try discriminate. injection H1 as -> ->. reflexivity.
  - intros i' j' [<- (q & Hq)]. destruct (L _ _ Hq) as (y & L1 & L3 & Ly). eauto 10.
  - now apply Al.
Qed.

(** Any two factories that know no other types under the same names. *)
Theorem inspect_elsewhere : forall fmt custom mo kf fuel d e h cf h' cf' cf1 cf1',
  read_envelope fuel d = Ok e d -> 
  let ts := List.concat (s_types (e_schema e)) in
  Forall proper ts -> closed new_factory ts -> one_name_per_fingerprint ts -> (exists t, In t ts /\ n_descriptor t = e_descriptor e) ->
  run mo h new_factory cf -> run mo h' new_factory cf' -> consistent h ts -> consistent h' ts ->
  process mo (e_schema e) cf = Ok tt cf1 -> process mo (e_schema e) cf' = Ok tt cf1' ->
  same_outcome (dumpContents fmt custom mo kf fuel (d, cf)) (dumpContents fmt custom mo kf fuel (d, cf')).
Proof.
  intros fmt custom mo kf fuel d e h cf h' cf' cf1 cf1' HE ts Hp Hc Hu (t & Ht & Hd) R R' C C' P P'.
  pose proof (history_ready _ _ _ _ _ R Hp P C) as [Y1 Y2]. pose proof (history_ready _ _ _ _ _ R' Hp P' C') as [Z1 Z2].
  destruct (processed_resolves mo cf (e_schema e) cf1 ltac:(eexists; eauto) Hp Hu P t Ht) as (i & r & A1 & A2 & A3 & _).
  destruct (processed_resolves mo cf' (e_schema e) cf1' ltac:(eexists; eauto) Hp Hu P' t Ht) as (j & q & B1 & B2 & B3 & _).
  unfold dumpContents. unfold bind, on_data at 1, on_factory. rewrite HE, P. unfold on_data at 2. rewrite HE, P'. cbn [snd].
  rewrite <- Hd, A2, B2. unfold reader_at. rewrite (lock_heap _ _ _ A3), (lock_heap _ _ _ B3).
  set (known := fun ty => (exists p, ty = prim_name p) \/ exists u, In u ts /\ n_name u = ty).
  assert (Hk : forall u k, In u ts -> named_by u k -> known k).
  { intros u k H1 H2. destruct (Hc u k H1 H2) as [H|[H|H]]; [now left|now elim H|now right]. }
  set (Rel := fun i j => exists ty, known ty /\ byType cf1 ty = Some i /\ byType cf1' ty = Some j).
  assert (Al : forall u x y, In u ts -> reads cf1 u x -> reads cf1' u y -> alike Rel x y).
  { intros u x y Hin Hx Hy. pose proof (fun k => Hk u k Hin) as K. destruct u as [c|c]; cbn [reads named_by] in *.
    - destruct Hx as (ks & -> & F), Hy as (ks' & -> & F'). cbn [alike].
      assert (K' : forall fd k, In fd (c_fields c) -> property_type fd = Some k -> known k) by eauto. clear K.
      revert ks' F'. induction F as [|fd a fds ks (ty & E1 & E2) F IH]; intros ks' F'; inversion F' as [|? b ? ks2 (ty' & E3 & E4) F2]; subst; constructor.
      + exists ty. split; [eapply K'; [now left|eassumption]|]. split; congruence.
      + apply IH; [|assumption]. intros fd' k H. apply K'. now right.
    - destruct (r_kind c).
      + destruct Hx as (e1 & i1 & -> & Q & W), Hy as (e2 & i2 & -> & Q' & W'). cbn. rewrite Q in Q', K. injection Q' as <-.
        exists e1. split; [apply K; now left|auto].
      + destruct Hx as (k1 & v1 & i1 & j1 & -> & Q & W & V), Hy as (k2 & v2 & i2 & j2 & -> & Q' & W' & V'). cbn.
        rewrite Q in Q', K. injection Q' as <- <-. split.
        * exists k1. split; [apply K; now left|auto].
        * exists v1. split; [apply K; right; now left|auto].
      + subst. exact I.
      + destruct Hx as (e1 & i1 & -> & Q & W), Hy as (e2 & i2 & -> & Q' & W'). cbn. rewrite Q in Q', K. injection Q' as <-.
        exists e1. split; [apply K; now left|auto]. }
  unfold on_data.
  rewrite (payload_same fmt custom kf cf1 cf1' (e_schema e) Rel) with (r' := q).
  - destruct (dump_payload _ _ _ _ _ _ _ _); cbn; auto.
  - intros a b (ty & [(p & ->)|(u & Hin & <-)] & Ha & Hb).
    + exists (RProperty p), (RProperty p). split; [auto|]. split; [auto|]. reflexivity.
    + destruct (Y2 u Hin) as (a' & x & Ha' & Hx & Rx). destruct (Z2 u Hin) as (b' & y & Hb' & Hy & Ry).
      exists x, y. rewrite Ha in Ha'. injection Ha' as <-. rewrite Hb in Hb'. injection Hb' as <-. eauto.
  - destruct (Y2 t Ht) as (a' & x & Ha' & Hx & Rx). destruct (Z2 t Ht) as (b' & y & Hb' & Hy & Ry).
    rewrite A1 in Ha'. injection Ha' as <-. rewrite B1 in Hb'. injection Hb' as <-.
    rewrite A3 in Hx. injection Hx as <-. rewrite B3 in Hy. injection Hy as <-. eauto.
Qed.

(** ** C32 *)

Lemma contents_steps fmt custom mo kf fuel d cf e cf' i r x : read_envelope fuel d = Ok e d -> process mo (e_schema e) cf = Ok tt cf' ->
  byDescriptor cf' (e_descriptor e) = Some i -> reader_at i cf' = Some r ->
  dump_payload fmt custom kf fuel cf' (e_schema e) r d = Ok x d -> dumpContents fmt custom mo kf fuel (d, cf) = Ok x (d, cf').
Proof.
  intros H1 H2 H3 H4 H5. unfold dumpContents. unfold bind, on_data at 1, on_factory. rewrite H1, H2. cbn [snd]. rewrite H3, H4.
  unfold on_data. now rewrite H5.
Qed.
(** A blob that is a map from strings to strings with one entry. *)
Lemma map_swapped fmt custom mo fuel a b : 6 <= fuel -> exists cf,
  let blob := decoded (envelope_tree (encode (string_map a b)) [[string_map_type]] [leaf ANull]) in
  dumpContents fmt custom mo false fuel (blob, new_factory) = Ok ("{ Parsed : " ++ printed fmt dec (string_map b a) ++ " }") (blob, cf).
Proof.
  intros H. do 6 (destruct fuel as [|fuel]; [lia|]). clear H. eexists. cbn zeta.
  eapply contents_steps; [vm_compute; reflexivity|destruct mo; vm_compute; reflexivity|vm_compute; reflexivity|vm_compute; reflexivity|].
  destruct mo; cbv -[append dec]; (refine (f_equal (fun x => Ok x _) _)); cbn [append]; rewrite ?app_assoc_s; cbn [append];
    rewrite ?app_assoc_s; reflexivity.
Qed.

(** ** A blob of the schema ts_mixed *)

Definition plain_field (name type : string) (requires : list string) : wire_field :=
  {| w_name := name; w_type := type; w_requires := requires; w_default := None; w_label := None; w_mandatory := true; w_multiple := false |}.
Definition wire_class_of (name : string) (fields : list wire_field) : wire_type :=
  WClass {| wc_name := name; wc_label := None; wc_provides := []; wc_fingerprint := "net.corda:" ++ name; wc_fields := fields |}.
Definition wire_container_of (name source : string) (choices : list string) : wire_type :=
  WContainer {| wr_name := name; wr_label := None; wr_provides := []; wr_source := source; wr_fingerprint := "net.corda:" ++ name;
                wr_choices := choices |}.
Definition wires_mixed : list wire_type :=
  [ wire_class_of "net.B" [plain_field "n" "int" []];
    wire_container_of "net.E" "list" ["A"; "B"];
    wire_container_of "java.util.List<net.B>" "list" [];
    wire_container_of "java.util.Map<string, java.util.List<net.B>>" "map" [];
    wire_class_of "net.A" [plain_field "m" "*" ["java.util.Map<string, java.util.List<net.B>>"];
                           plain_field "e" "net.E" []] ].

Ltac not_boxed := right; apply unrelated_dec; try reflexivity; unfold has; simpl; intros c Hc;
  repeat (destruct Hc as [<-|Hc]; [split; discriminate|]); contradiction.
Lemma mixed_readable : Forall readable_type wires_mixed.
Proof.
  repeat apply Forall_cons; try apply Forall_nil.
  - split; [|reflexivity]. constructor; [|constructor]. split; [left; reflexivity|discriminate].
  - right; left. split; [reflexivity|discriminate].
  - left. exists "", (TListOf (TName "net.B")). repeat split; try discriminate; [constructor|].
    constructor; [|constructor]. split; [apply plainb_spec; vm_compute; reflexivity|not_boxed].
  - left. exists " ", (TMapOf (TName "string") (TListOf (TName "net.B"))). repeat split; try discriminate; [repeat constructor|].
    constructor; [|constructor; [|constructor]]; (split; [apply plainb_spec; vm_compute; reflexivity|not_boxed]).
  - split; [|reflexivity]. constructor; [|constructor; [|constructor]].
    + split; [|discriminate]. apply acceptable_iff. right; right; right; left. split; [reflexivity|]. split; [eexists; eexists; split; reflexivity|].
      repeat constructor. eexists. vm_compute. reflexivity.
    + split; [|discriminate]. apply acceptable_iff. right; left. split; [reflexivity|discriminate].
Qed.
Lemma mixed_means : Forall2 type_means wires_mixed ts_mixed.
Proof.
  repeat apply Forall2_cons; try apply Forall2_nil.
  - repeat split. constructor; [|constructor]. repeat split. exists "n", "int", [], "", "", true, false. vm_compute. reflexivity.
  - right; left. split; [discriminate|]. repeat split.
  - left. exists "", (TListOf (TName "net.B")). split; [constructor|]. split; [|repeat split].
    constructor; [|constructor]. split; [apply plainb_spec; vm_compute; reflexivity|not_boxed].
  - left. exists " ", (TMapOf (TName "string") (TListOf (TName "net.B"))). split; [repeat constructor|]. split; [|repeat split].
    constructor; [|constructor; [|constructor]]; (split; [apply plainb_spec; vm_compute; reflexivity|not_boxed]).
  - repeat split. constructor; [|constructor; [|constructor]]; repeat split.
    + exists "m", "*", ["java.util.Map<string, java.util.List<net.B>>"], "", "", true, false. vm_compute. reflexivity.
    + exists "e", "net.E", [], "", "", true, false. vm_compute. reflexivity.
Qed.
Lemma distinct_nodup ts : NoDup (map n_descriptor ts) -> distinct_fingerprints ts.
Proof.
  induction ts as [|a ts IH]; intros N t u Ht Hu E; [destruct Ht|]. cbn [map] in N. inversion N as [|? ? N1 N2]; subst.
  destruct Ht as [<- |Ht], Hu as [<- |Hu]; auto; [| |now apply IH]; exfalso; apply N1, in_map_iff; eauto.
Qed.
Lemma mixed_distinct : distinct_fingerprints ts_mixed.
Proof.
  apply distinct_nodup. let x := eval vm_compute in (map n_descriptor ts_mixed) in change (NoDup x).
  repeat constructor; simpl; intuition discriminate.
Qed.
Definition b_value (z : Z) : value := VObject "net.corda:net.B" [("n", VInt z)].
Definition v_mixed : value := VObject "net.corda:net.A"
  [("m", VMap "net.corda:java.util.Map<string, java.util.List<net.B>>"
     [(VString "k", VList "net.corda:java.util.List<net.B>" [b_value 7; VNull; b_value (-12)]);
      (VString "l", VList "net.corda:java.util.List<net.B>" [])]);
   ("e", VEnum "net.corda:net.E" "B" 1)].
Lemma b_conforms z : conforms ts_mixed "net.B" (b_value z).
Proof.
  eapply (conf_object ts_mixed {| c_name := "net.B"; c_label := ""; c_provides := []; c_descriptor := "net.corda:net.B"; c_fields := [field_of "n" "int" []] |}).
  - now left.
  - constructor; [|constructor]. split; [reflexivity|]. eexists. split; [reflexivity|]. constructor.
Qed.
Lemma mixed_conforms : conforms ts_mixed "net.A" v_mixed.
Proof.
  set (m := match restricted_of "java.util.Map<string, java.util.List<net.B>>" "map" [] with TRestricted r => r | _ => 
    {| r_descriptor := ""; r_name := ""; r_label := ""; r_provides := []; r_source := ""; r_kind := list_t; r_of := []; r_choices := [] |} end).
  vm_compute in m.
  set (l := match restricted_of "java.util.List<net.B>" "list" [] with TRestricted r => r | _ => m end). vm_compute in l.
  set (e := match restricted_of "net.E" "list" ["A"; "B"] with TRestricted r => r | _ => m end). vm_compute in e.
  assert (HL : forall vs, Forall (conforms ts_mixed "net.B") vs -> conforms ts_mixed "java.util.List<net.B>" (VList "net.corda:java.util.List<net.B>" vs)).
  { intros vs H. apply (conf_list ts_mixed l "net.B"); auto. right; right; now left. }
  assert (HN : conforms ts_mixed "net.B" VNull).
  { apply (conf_null ts_mixed {| c_name := "net.B"; c_label := ""; c_provides := []; c_descriptor := "net.corda:net.B"; c_fields := [field_of "n" "int" []] |}).
    now left. }
  eapply (conf_object ts_mixed {| c_name := "net.A"; c_label := ""; c_provides := []; c_descriptor := "net.corda:net.A"; c_fields :=
    [field_of "m" "*" ["java.util.Map<string, java.util.List<net.B>>"]; field_of "e" "net.E" []] |}).
  - do 4 right. now left.
  - constructor; [|constructor; [|constructor]].
    + split; [reflexivity|]. eexists. split; [reflexivity|]. cbn [snd].
      apply (conf_map ts_mixed m "string" "java.util.List<net.B>"); auto.
      * do 3 right. now left.
      * constructor; [|constructor; [|constructor]]; (split; [constructor|]); apply HL; repeat constructor; auto using b_conforms.
    + split; [reflexivity|]. eexists. split; [reflexivity|]. cbn [snd].
      apply (conf_enum ts_mixed e); auto; [right; now left|right; now left].
Qed.

(** Brackets are counted; what is balanced has as many of each. *)
Fixpoint count (c : ascii) (s : string) : nat :=
  match s with "" => 0 | String d s' => (if Ascii.eqb c d then 1 else 0) + count c s' end.
Lemma count_app c s t : count c (s ++ t) = count c s + count c t.
Proof. induction s as [|d s IH]; cbn [append count]; [reflexivity|]. rewrite IH. lia. Qed.
Lemma balanced_count s : balanced s -> count "[" s = count "]" s.
Proof.
  induction 1 as [|c s Hc H IH|s t H1 IH1 H2 IH2|s t H1 IH1 H2 IH2]; [reflexivity| | |].
  - cbn [count]. rewrite IH. unfold bracket in Hc. cbn in Hc.
    destruct (Ascii.eqb_spec "[" c) as [<- |_]; [discriminate|]. destruct (Ascii.eqb_spec "]" c) as [<- |_]; [discriminate|]. reflexivity.
  - rewrite !count_app. cbn [count]. cbn. lia.
  - rewrite !count_app. cbn [count]. cbn. lia.
Qed.
Lemma not_balanced_ex : ~ balanced "{ [ }".
Proof. intros H. apply balanced_count in H. discriminate H. Qed.

Lemma elsewhere_ex : forall mo, exists e f1 f2 f3,
  read_envelope 20 (decoded (envelope_tree (encode v_mixed) [wires_mixed] [leaf ANull])) =
    Ok e (decoded (envelope_tree (encode v_mixed) [wires_mixed] [leaf ANull])) /\
  (exists t, In t (List.concat (s_types (e_schema e))) /\ n_descriptor t = e_descriptor e) /\
  Forall (fun t => In t ts_mixed) (List.concat (s_types (e_schema e))) /\
  run mo [Install RPublicKey; Process (schema_of [[class_of "net.C" [field_of "d" "int" []]]])] new_factory f1 /\
  consistent [Install RPublicKey; Process (schema_of [[class_of "net.C" [field_of "d" "int" []]]])] ts_mixed /\
  process mo (e_schema e) new_factory = Ok tt f2 /\ process mo (e_schema e) f1 = Ok tt f3.
Proof.
  intros mo. eexists _, _, _, _. split; [vm_compute; reflexivity|]. split.
  { exists (nth 4 ts_mixed (class_of "" [])). split; [|vm_compute; reflexivity].
    vm_compute. tauto. }
  split.
  { repeat (apply Forall_cons; [vm_compute; tauto|]). apply Forall_nil. }
  split.
  { eapply run_cons; [split; [exact I|vm_compute; reflexivity]|left; vm_compute; reflexivity|].
    eapply run_cons; [|left; vm_compute; reflexivity|apply run_nil].
    change (Forall proper [class_of "net.C" [field_of "d" "int" []]]). entries_proper. }
  split.
  { split.
    - assert (N : NoDup (map n_name (entries_of [Install RPublicKey; Process (schema_of [[class_of "net.C" [field_of "d" "int" []]]])] ++ ts_mixed))).
      { match goal with |- NoDup ?y => let x := eval vm_compute in y in change (NoDup x) end. repeat constructor; simpl; intuition discriminate. }
      intros t u Ht Hu E. revert N. generalize dependent u. intros u Hu E N.
      assert (Ht' : In t (entries_of [Install RPublicKey; Process (schema_of [[class_of "net.C" [field_of "d" "int" []]]])] ++ ts_mixed)) by (apply in_or_app; auto).
      revert N Hu Ht'. generalize (entries_of [Install RPublicKey; Process (schema_of [[class_of "net.C" [field_of "d" "int" []]]])] ++ ts_mixed)%list.
      intros l N Hu Ht'. clear Ht. induction l as [|a l IH]; [destruct Hu|]. cbn [map] in N. inversion N as [|? ? N1 N2]; subst.
      destruct Ht' as [<- |Ht], Hu as [<- |Hu]; auto; exfalso; apply N1, in_map_iff; eauto.
    - intros r [E|[E|[]]]; [|discriminate E]. injection E as <-. split; [reflexivity|]. intros t Ht E.
      assert (X : In (reader_type RPublicKey) (map n_name ts_mixed)) by (rewrite E; apply in_map; exact Ht).
      vm_compute in X. intuition discriminate. }
  split; destruct mo; vm_compute; reflexivity.
Qed.
