(** What showing the payload of a blob writes on the way is what SpecOutputShow.v says. *)
From Coq Require Import Lia.
From Verif Require Import Base OutputWriter SpecOutputWriter Proton ProtonProofs TypeNames Schema SpecSchema SchemaProofs Descriptors SpecDescriptors Factory SpecFactory FactoryProofs
  Readers SpecReaders Blob ReadersProofs SpecAccept AcceptProofs SpecDisplay SpecInstalled DisplayProofs ContentsProofs SpecReadScript SpecParse ParseProofs
  SpecSupply SupplyProofs SpecFate FateProofs PrepareProofs FateBlobProofs Output SpecOutput OutputProofs OutputReader SpecOutputReader OutputReaderProofs OutputShow SpecOutputShow.
Import List ListNotations.
Open Scope string_scope.

(** ** Somewhere among the parts of a node *)
Definition roams {A B} (p : tree) (u : list frame) (R : A -> B -> Prop) (out : string) (o : outcome (data * string) A) (h : heard B) : Prop :=
  match snd h with
  | Gives b => exists a d, o = Ok a (d, out ++ fst h) /\ among p u d /\ R a b
  | Raises e => exists d, o = Throw e (d, out ++ fst h) /\ among p u d
  | Stops => o = Abort
  | Wild => o = UB
  end.
Lemma tells_roams {A B} p k u (R : A -> B -> Prop) out o h : tells p k u R out o h -> roams p u R out o h.
Proof.
  unfold tells, roams. destruct (snd h); auto. intros (a' & d & E & H & K). exists a', d. split; [exact E|]. split; [|exact K]. eapply upon_among; eauto.
Qed.
Lemma keeps_roams {A B} p u d (R : A -> B -> Prop) out o h : among p u d -> keeps d R out o h -> roams p u R out o h.
Proof. unfold keeps, roams. intros H. destruct (snd h); auto; [intros (x & -> & K)|intros ->]; eauto. Qed.
Lemma tells_roams_bind {A B A' B'} p k u (R : A -> B -> Prop) (R' : A' -> B' -> Prop) (m : OM A) f d out h g : tells p k u R out (m (d, out)) h ->
  (forall a b d' out', upon p k u d' -> R a b -> roams p u R' out' (f a (d', out')) (g b)) -> roams p u R' out (bind m f (d, out)) (and_then h g).
Proof.
  intros H K. unfold bind, tells, roams, and_then in *. destruct h as [s [b|e| |]]; cbn [fst snd] in *.
  - destruct H as (a & d' & -> & H & HR). specialize (K a b d' (out ++ s) H HR). unfold roams in K. rewrite append_assoc3 in K. exact K.
  - destruct H as (d' & -> & H). eauto.
  - now rewrite H.
  - now rewrite H.
Qed.
Lemma keeps_roams_bind {A B A' B'} p u (R : A -> B -> Prop) (R' : A' -> B' -> Prop) (m : OM A) f d out h g : among p u d -> keeps d R out (m (d, out)) h ->
  (forall a b out', R a b -> roams p u R' out' (f a (d, out')) (g b)) -> roams p u R' out (bind m f (d, out)) (and_then h g).
Proof.
  intros O H K. unfold bind, keeps, roams, and_then in *. destruct h as [s [b|e| |]]; cbn [fst snd] in *.
  - destruct H as (a & -> & HR). specialize (K a b (out ++ s) HR). unfold roams in K. rewrite append_assoc3 in K. exact K.
  - rewrite H. eauto.
  - now rewrite H.
  - now rewrite H.
Qed.
Lemma roams_map {A B A' B'} p u (R : A -> B -> Prop) (R' : A' -> B' -> Prop) (m : OM A) g g' d out h : roams p u R out (m (d, out)) h ->
  (forall a b, R a b -> R' (g a) (g' b)) -> roams p u R' out (bind m (fun a => ret (g a)) (d, out)) (let^ b := h in silent (Gives (g' b))).
Proof.
  intros H K. unfold bind, roams, and_then in *. destruct h as [s [b|e| |]]; cbn [fst snd] in *.
  - destruct H as (a & d' & -> & H & HR). exists (g a), d'. cbn. rewrite append_nil. auto.
  - destruct H as (d' & -> & H). eauto.
  - now rewrite H.
  - now rewrite H.
Qed.
Lemma enter_roams {A B} (R : A -> B -> Prop) (m : OM A) l t r u out h :
  (forall d0, upon t 0 (Frame l (tree_atom t) r :: u) d0 -> roams t (Frame l (tree_atom t) r :: u) R out (m (d0, out)) h) ->
  keeps (Data (At l t r) u) R out (auto_enter_said false m (Data (At l t r) u, out)) h.
Proof.
  intros H. destruct t as [a cs]. specialize (H _ (upon_enter l a cs r u)). unfold auto_enter_said, finally, roams, keeps in *.
  destruct (snd h) as [b|e| |].
  - destruct H as (y & d & -> & O & HR). exists y. split; [|exact HR]. unfold moving. do 2 f_equal. now apply (exit_among l a cs r u).
  - destruct H as (d & -> & O). unfold moving. do 2 f_equal. now apply (exit_among l a cs r u).
  - now rewrite H.
  - now rewrite H.
Qed.
Lemma enter_next_roams {A B} (R : A -> B -> Prop) (m : OM A) l t r u out h :
  (forall d0, upon t 1 (Frame l (tree_atom t) r :: u) d0 -> roams t (Frame l (tree_atom t) r :: u) R out (m (d0, out)) h) ->
  keeps (Data (At l t r) u) R out (auto_enter_said true m (Data (At l t r) u, out)) h.
Proof.
  intros H. destruct t as [a cs]. specialize (H _ (upon_next _ _ _ _ (upon_enter l a cs r u))). unfold auto_enter_said, finally, roams, keeps in *.
  destruct (snd h) as [b|e| |].
  - destruct H as (y & d & -> & O & HR). exists y. split; [|exact HR]. unfold moving. do 2 f_equal. now apply (exit_among l a cs r u).
  - destruct H as (d & -> & O). unfold moving. do 2 f_equal. now apply (exit_among l a cs r u).
  - now rewrite H.
  - now rewrite H.
Qed.
Lemma list_enter_roams {A B} (R : A -> B -> Prop) (m : nat -> OM A) l t r u out h :
  (forall d0, upon t 0 (Frame l (tree_atom t) r :: u) d0 -> roams t (Frame l (tree_atom t) r :: u) R out (m (length (elements t)) (d0, out)) h) ->
  keeps (Data (At l t r) u) R out (auto_list_enter_said true m (Data (At l t r) u, out)) h.
Proof.
  intros H. pose proof (enter_roams R (m (length (elements t))) l t r u out h H) as E. unfold auto_enter_said in E. unfold auto_list_enter_said.
  replace (pn_get_list (Data (At l t r) u)) with (length (elements t)) by (destruct t as [[] cs]; reflexivity). exact E.
Qed.
Lemma map_enter_roams {A B} (R : A -> B -> Prop) (m : nat -> OM A) l t r u out h :
  (forall d0, upon t 0 (Frame l (tree_atom t) r :: u) d0 -> roams t (Frame l (tree_atom t) r :: u) R out (m (pieces t) (d0, out)) h) ->
  keeps (Data (At l t r) u) R out (auto_map_enter_said true m (Data (At l t r) u, out)) h.
Proof.
  intros H. pose proof (enter_roams R (m (pieces t)) l t r u out h H) as E. unfold auto_enter_said in E. unfold auto_map_enter_said.
  replace (pn_get_map (Data (At l t r) u)) with (pieces t) by (destruct t as [[] cs]; reflexivity). exact E.
Qed.
Lemma next_keeps {A B} p k u d (R : A -> B -> Prop) (m : OM A) out h : upon p k u d -> keeps d R out (m (d, out)) h -> tells p (S k) u R out (auto_next_said m (d, out)) h.
Proof.
  intros H L. pose proof (upon_next _ _ _ _ H) as N. unfold auto_next_said, finally, tells, keeps, moving in *. destruct (snd h) as [b|e| |].
  - destruct L as (a & -> & HR). eauto 6.
  - rewrite L. eauto using upon_among.
  - now rewrite L.
  - now rewrite L.
Qed.
Lemma keeps_map {A A' B B'} d (R : A -> B -> Prop) (R' : A' -> B' -> Prop) (m : OM A) (g : A -> A') (g' : B -> B') out h : keeps d R out (m (d, out)) h ->
  (forall a b, R a b -> R' (g a) (g' b)) -> keeps d R' out (bind m (fun a => ret (g a)) (d, out)) (let^ b := h in silent (Gives (g' b))).
Proof.
  intros H K. unfold bind, keeps, and_then in *. destruct h as [s [b|e| |]]; cbn [fst snd] in *; try (now rewrite H).
  destruct H as (a & -> & HR). exists (g a). cbn. rewrite append_nil. auto.
Qed.
Lemma keeps_same {A A' B} d (R : A -> B -> Prop) (R' : A' -> B -> Prop) (m : OM A) (g : A -> A') out h : keeps d R out (m (d, out)) h ->
  (forall a b, R a b -> R' (g a) b) -> keeps d R' out (bind m (fun a => ret (g a)) (d, out)) h.
Proof.
  intros H K. unfold bind, keeps in *. destruct (snd h) as [b|e| |]; try (now rewrite H). destruct H as (a & -> & HR). exists (g a). auto.
Qed.
Lemma keeps_weak {A B B'} d (R : A -> B -> Prop) (R' : A -> B' -> Prop) out o h (g : B -> B') : keeps d R out o h ->
  (forall a b, R a b -> R' a (g b)) -> keeps d R' out o (let^ b := h in silent (Gives (g b))).
Proof. intros H K. unfold keeps, and_then in *. destruct h as [s [b|e| |]]; cbn [fst snd] in *; auto. destruct H as (a & -> & HR). exists a. cbn. rewrite append_nil. auto. Qed.
Lemma tells_map {A A' B B'} p k u (R : A -> B -> Prop) (R' : A' -> B' -> Prop) (m : OM A) (g : A -> A') (g' : B -> B') d out h : tells p k u R out (m (d, out)) h ->
  (forall a b, R a b -> R' (g a) (g' b)) -> tells p k u R' out (bind m (fun a => ret (g a)) (d, out)) (let^ b := h in silent (Gives (g' b))).
Proof.
  intros H K. unfold bind, tells, and_then in *. destruct h as [s [b|e| |]]; cbn [fst snd] in *; try (now rewrite H).
  - destruct H as (a & d' & -> & O & HR). exists (g a), d'. cbn. rewrite append_nil. auto.
  - destruct H as (d' & -> & O). eauto.
Qed.

Section Value.
Context (env : platform) (fmt : N -> string) (custom : nat -> option string -> OM ivalue) (kf : bool) (f : factory) (s : schema).
Context (answers : nat -> option string -> option tree -> heard string) (rs : list reader) (known : list notation).
Notation ts := (List.concat (s_types s)).
Hypothesis Hanswers : answers_aloud rs custom answers.
Notation installed := (serialiser_aloud env answers rs).
Notation aloud := (value_aloud env fmt kf known ts installed).
Hypothesis Hfound : forall ty i, byType f ty = Some i -> exists r, lock f i = Some r /\ found_as f rs known ty r.

Lemma note_keeps source n text d out : keeps d eq out (trace env source n text (d, out)) (note env source n text).
Proof. pose proof (trace_goes env source n text d out) as (a & d' & E & ->). unfold keeps. cbn [snd note]. exists a. split; [exact E|now destruct a]. Qed.
Lemma note_tells {A B} p k u (R : A -> B -> Prop) source n text (m : OM A) h d out : among p u d -> (forall out', tells p k u R out' (m (d, out')) h) ->
  tells p k u R out ((trace env source n text ;; m) (d, out)) (let^ _ := note env source n text in h).
Proof. intros O H. eapply keeps_tells_bind; [exact O|apply note_keeps|]. intros a b out' _. apply H. Qed.
Lemma word_tells p k u d out : upon p k u d -> tells p (S k) u eq out (readAndNext_string_said false (d, out)) (word (part k p)).
Proof.
  intros H. unfold readAndNext_string_said, word. eapply keeps_tells_bind; [eapply upon_among; eauto|apply cout_keeps|].
  intros a b out' _. apply silent_tells, name_comes, H.
Qed.
Lemma list_keeps' l t r u out : keeps (Data (At l t r) u) (fun (_ : unit) x => x = t /\ tree_atom t = AList) out (list_attested env (Data (At l t r) u, out)) (must_be_list env (Some t)).
Proof.
  pose proof (attested_goes env (Data (At l t r) u) out I) as G. unfold goes, keeps in *. cbn [view here] in G.
  destruct (snd (must_be_list env (Some t))) as [b|e| |] eqn:E; auto.
  - destruct G as (a & d & -> & -> & V & Hb). injection V as <-. eauto.
  - destruct G as (d & G). rewrite G. destruct t as [[] es]; try discriminate E;
    unfold list_attested, attest_is_list_said, bind, silently in G; cbn in G; try (injection G as <- <-; reflexivity); inversion G; reflexivity.
Qed.
Lemma described_keeps' l t r u out : keeps (Data (At l t r) u) (fun (_ : unit) x => x = t /\ tree_atom t = ADescribed) out (silently attest_is_described (Data (At l t r) u, out)) (must_be_described (Some t)).
Proof. apply silent_keeps. destruct t as [[] cs]; cbn; eauto. Qed.
Lemma from_keeps fp d out : keeps d eq out (silently (lift (fromDescriptor s fp)) (d, out)) (match type_printed ts fp with Some t => silent (Gives t) | None => silent (Raises RuntimeError) end).
Proof.
  assert (E : (match type_printed ts fp with Some t => silent (Gives t) | None => silent (Raises RuntimeError) end) =
              silent (match type_printed ts fp with Some t => Gives t | None => Raises RuntimeError end)) by now destruct (type_printed ts fp).
  rewrite E. apply silent_keeps, from_printed.
Qed.

Definition right_aloud (n : nat) (rec : reader -> option string -> OM ivalue) : Prop := forall ty i r, byType f ty = Some i -> lock f i = Some r ->
  forall name p k u d out, upon p k u d -> depth (part k p) < n ->
  tells p (S k) u (FateProofs.told name) out (rec r name (d, out)) (aloud n name ty (part k p)).

Lemma integer_same p k u d : upon p k u d -> pn_get_int d = integer (part k p).
Proof. intros H. destruct (upon_cases _ _ _ _ H) as [(l & [a cs] & r & -> & ->)|[-> ->]]; [destruct a; reflexivity|reflexivity]. Qed.
Lemma int_tells p k u d out : upon p k u d -> tells p (S k) u (fun z w => z = w /\ w = integer (part k p)) out (silently readAndNext_int (d, out)) (silent (Gives (integer (part k p)))).
Proof.
  intros H. apply silent_tells. cbn [comes]. eexists _, _. split; [reflexivity|]. split; [apply upon_next; exact H|]. split; [|reflexivity]. now rewrite (integer_same _ _ _ _ H).
Qed.
Lemma ret_tells {A B} p k u d (R : A -> B -> Prop) a b out : upon p k u d -> R a b -> tells p k u R out (ret a (d, out)) (silent (Gives b)).
Proof. intros O H. eapply tells_keeps; [exact O|]. now apply ret_keeps. Qed.
Lemma and_then_assoc {A B C} (h : heard A) (g : A -> heard B) (g' : B -> heard C) : and_then (and_then h g) g' = and_then h (fun a => and_then (g a) g').
Proof.
  unfold and_then. destruct h as [x [a|e| |]]; cbn [fst snd]; try reflexivity. destruct (g a) as [y [b|e| |]]; cbn [fst snd]; try reflexivity. now rewrite append_assoc3.
Qed.
Lemma property_aloud_right p name q k u d out : upon q k u d ->
  tells q (S k) u (FateProofs.told name) out (dump_property_said env fmt p name (d, out)) (match primitive_aloud env fmt name (prim_name p) (part k q) with Some h => h | None => silent Wild end).
Proof.
  intros H. pose proof (upon_among _ _ _ _ H) as O.
  assert (Q : match p with PInt | PString => True | _ => tells q (S k) u (FateProofs.told name) out (silently (dump_property fmt p name) (d, out))
      (match primitive fmt dec (prim_name p) (part k q) with Some r => silent r | None => silent Wild end) end).
  { pose proof (property_right fmt p name q k u d _ H eq_refl) as C. destruct p; try exact I; apply silent_tells with (out := out) in C; exact C. }
  destruct p; try (destruct name; exact Q).
  - (* int *)
    clear Q. cbn [prim_name primitive_aloud String.eqb Ascii.eqb Bool.eqb dump_property_said integer_aloud].
    destruct name as [x|]; unfold integer_aloud; rewrite ?and_then_assoc.
    + apply note_tells; [exact O|]. clear out. intros out. apply note_tells; [exact O|]. clear out. intros out.
      rewrite <- (silent_then (integer (part k q)) (fun z => let^ _ := note env "IntPropertyReader.cxx" 43 ("    -> " ++ number z) in silent (Gives (number z)))).
      eapply tells_bind; [apply int_tells, H|]. cbv beta. intros z w d1 out1 O1 [-> _]. apply note_tells; [eapply upon_among; eauto|]. intros out2. unfold text_dumped. apply ret_tells; [exact O1|]. reflexivity.
    + apply note_tells; [exact O|]. clear out. intros out.
      rewrite <- (silent_then (integer (part k q)) (fun z => silent (Gives (number z)))).
      eapply tells_bind; [apply int_tells, H|]. cbv beta. intros z w d1 out1 O1 [-> _]. apply ret_tells; [exact O1|]. reflexivity.
  - (* string *)
    clear Q. cbn [prim_name primitive_aloud String.eqb Ascii.eqb Bool.eqb dump_property_said]. unfold text_aloud. destruct name as [x|];
    (apply note_tells; [exact O|]; clear out; intros out; eapply tells_bind; [apply word_tells, H|]; intros v w d1 out1 O1 <-; apply ret_tells; [exact O1|reflexivity]).
Qed.

Section Rec.
Context (n : nat) (rec : reader -> option string -> OM ivalue).
Hypothesis Hrec : right_aloud n rec.

Lemma in_turn_map {A B C} (g : A -> B) (h : B -> heard C) l : in_turn h (map g l) = in_turn (fun a => h (g a)) l.
Proof. induction l as [|a l IH]; [reflexivity|]. cbn [map in_turn]. now rewrite IH. Qed.
Lemma fields_aloud body u fs' : forall fs ks k d out, upon body k u d -> height body <= n ->
  Forall2 (fun fd i => exists ty, property_type fd = Some ty /\ byType f ty = Some i) fs ks -> length fs' = length fs ->
  roams body u (fun vs xs => map show vs = xs) out (dump_fields_said env f rec fs' ks (d, out))
    (in_turn (fun p => property_aloud env (aloud n) body (k + fst p, snd p)) (numbered (combine fs' fs))).
Proof.
  induction fs' as [|fd' fs' IH]; intros fs ks k d out Ho Hh Hks Hl.
  - destruct fs; [|discriminate]. inversion Hks; subst. exists [], d. cbn. rewrite append_nil. split; [reflexivity|]. split; [eapply upon_among; eauto|reflexivity].
  - destruct fs as [|fd fs]; [discriminate|]. inversion Hks as [|? i ? ks' (ty & Hty & Hi) Hks']; subst. cbn [dump_fields_said combine].
    destruct (Hfound ty i Hi) as (r & Hr & _). rewrite Hr, numbered_cons. cbn [in_turn fst snd]. rewrite Nat.add_0_r. unfold property_aloud at 1. rewrite Hty.
    rewrite and_then_assoc. eapply keeps_roams_bind; [eapply upon_among; eauto|apply note_keeps|]. intros a b out1 _. clear a b out. rewrite and_then_assoc.
    eapply tells_roams_bind; [apply (Hrec ty i r Hi Hr (Some (f_name fd')) body k u d out1 Ho); pose proof (part_depth k body); lia|].
    intros v x d1 out2 O1 Hv. rewrite silent_then. rewrite in_turn_map. cbn [fst snd].
    assert (E : in_turn (fun a : nat * (field * field) => property_aloud env (aloud n) body (k + S (fst a), snd a)) (numbered (combine fs' fs)) =
      in_turn (fun p => property_aloud env (aloud n) body (S k + fst p, snd p)) (numbered (combine fs' fs))).
    { apply in_turn_ext. intros [j q] _. cbn [fst snd]. now replace (k + S j) with (S k + j) by lia. }
    rewrite E. eapply roams_map; [apply (IH fs ks' (S k) d1 out2 O1 Hh Hks'); cbn in Hl; congruence|].
    intros vs xs <-. cbn [map]. unfold FateProofs.told in Hv. now rewrite Hv.
Qed.
Lemma elements_aloud e i r body u : byType f e = Some i -> lock f i = Some r -> height body <= n -> forall m k d out, upon body k u d ->
  roams body u (fun vs xs => map show vs = xs) out (dump_elements_said rec m (Some r) (d, out)) (in_turn (fun j => aloud n None e (part j body)) (seq k m)).
Proof.
  intros Hi Hr Hh. induction m as [|m IH]; intros k d out Ho.
  - exists [], d. cbn. rewrite append_nil. split; [reflexivity|]. split; [eapply upon_among; eauto|reflexivity].
  - cbn [dump_elements_said seq in_turn].
    eapply tells_roams_bind; [apply (Hrec e i r Hi Hr None body k u d out Ho); pose proof (part_depth k body); lia|].
    intros v x d1 out1 O1 Hv. eapply roams_map; [apply (IH (S k) d1 out1 O1)|]. intros vs xs <-. cbn [map]. unfold FateProofs.told in Hv. cbn in Hv. now rewrite Hv.
Qed.
Lemma entry_aloud_right k v i j r q body u b d out : byType f k = Some i -> lock f i = Some r -> byType f v = Some j -> lock f j = Some q ->
  upon body (2 * b) u d -> height body <= n ->
  tells body (2 * S b) u (fun e x => show e = x) out (dump_entry_said kf rec (Some r) (Some q) (d, out)) (entry_aloud kf (aloud n) k v (Some body) b).
Proof.
  intros Hi Hr Hj Hq Ho Hh. unfold dump_entry_said, dump_through_said, entry_aloud, inside. replace (2 * S b) with (S (S (2 * b))) by lia. replace (2 * b + 1) with (S (2 * b)) by lia.
  pose proof (part_depth (2 * b) body) as D1. pose proof (part_depth (S (2 * b)) body) as D2.
  assert (K : forall b : bool, b = true \/ b = false) by (intros []; auto). set (V := aloud n).
  destruct (K kf) as [E|E]; rewrite E.
  - eapply tells_bind; [apply (Hrec k i r Hi Hr None _ _ _ _ _ Ho); lia|]. intros x a d1 out1 O1 Ha.
    eapply tells_bind; [apply (Hrec v j q Hj Hq None _ _ _ _ _ O1); lia|]. intros y c d2 out2 O2 Hc.
    apply ret_tells; [exact O2|]. cbn [show]. unfold FateProofs.told in *. cbn in Ha, Hc. now rewrite Ha, Hc.
  - eapply tells_bind; [apply (Hrec v j q Hj Hq None _ _ _ _ _ Ho); lia|]. intros x a d1 out1 O1 Ha.
    eapply tells_bind; [apply (Hrec k i r Hi Hr None _ _ _ _ _ O1); lia|]. intros y c d2 out2 O2 Hc.
    apply ret_tells; [exact O2|]. cbn [show]. unfold FateProofs.told in *. cbn in Ha, Hc. now rewrite Ha, Hc.
Qed.
Lemma entries_aloud k v i j r q body u : byType f k = Some i -> lock f i = Some r -> byType f v = Some j -> lock f j = Some q -> height body <= n ->
  forall c m, c = Nat.div2 (S m) -> forall b d out, upon body (2 * b) u d ->
  roams body u (fun es xs => map show es = xs) out (dump_entries_said kf rec m (Some r) (Some q) (d, out)) (in_turn (entry_aloud kf (aloud n) k v (Some body)) (seq b c)).
Proof.
  intros Hi Hr Hj Hq Hh. induction c as [|c IH]; intros m Hm b d out Ho.
  - destruct m as [|[|m]]; [|discriminate|discriminate]. exists [], d. cbn. rewrite append_nil. split; [reflexivity|]. split; [eapply upon_among; eauto|reflexivity].
  - destruct m as [|m]; [discriminate|]. cbn [dump_entries_said seq in_turn].
    assert (Hm' : c = Nat.div2 (S (pred m))) by (destruct m as [|m]; cbn in Hm |- *; congruence).
    eapply tells_roams_bind; [apply (entry_aloud_right k v i j r q body u b d out); auto|]. intros e x d1 out1 O1 He.
    eapply roams_map; [apply (IH (pred m) Hm' (S b) d1 out1 O1)|]. intros vs xs <-. cbn [map]. now rewrite He.
Qed.
Lemma composite_aloud c ks name p k u d out : upon p k u d -> depth (part k p) <= n ->
  Forall2 (fun fd i => exists ty, property_type fd = Some ty /\ byType f ty = Some i) (c_fields c) ks ->
  tells p (S k) u (FateProofs.told name) out (dump_composite_said env f s rec ks name (d, out)) (object_aloud env ts (aloud n) c (part k p)).
Proof.
  intros Ho Hh Hks. unfold dump_composite_said. apply next_keeps; [exact Ho|]. cbn [fst].
  destruct (upon_cases _ _ _ _ Ho) as [(l & [a cs] & r & -> & E)|[-> ->]].
  2:{ cbn [is_null is_type pn_dtype here pn_type_eqb]. unfold object_aloud. apply (keeps_same _ braced).
      - unfold composite_dump_said_. eapply keeps_bind; [apply note_keeps|]. intros _ _ out1 _. unfold bind. cbn. unfold keeps. cbn. now rewrite append_nil.
      - intros vs x <-. unfold FateProofs.told. cbn [show]. now rewrite commas_concat. }
  rewrite E in Hh |- *. cbn [depth] in Hh.
  assert (a = ANull \/ a <> ANull) as [->|Hn] by (destruct a; auto; right; discriminate).
  { cbn. unfold keeps. cbn. rewrite append_nil. eexists. split; reflexivity. }
  replace (is_null (Data (At l (Node a cs) r) u)) with false by (destruct a; try reflexivity; contradiction).
  apply (keeps_same _ braced).
  2:{ intros vs x <-. unfold FateProofs.told. cbn [show]. now rewrite commas_concat. }
  set (t := Node a cs) in *.
  replace (object_aloud env ts (aloud n) c (Some t)) with
    (let^ _ := note env "CompositeReader.cxx" 46 "Read Composite: " in
     let^ t := must_be_described (Some t) in
     let^ fp := silent (of_ending (symbol_of (part 0 t))) in
     match type_printed ts fp with
     | None => silent (Raises RuntimeError)
     | Some (TRestricted _) => silent (Raises BadCast)
     | Some (TComposite c') =>
         if Nat.eqb (length (c_fields c')) (length (c_fields c)) then
           let^ body := must_be_list env (part 1 t) in
           let^ xs := in_turn (property_aloud env (aloud n) body) (numbered (combine (c_fields c') (c_fields c))) in
           silent (Gives (braces xs))
         else silent Stops
     end) by (unfold t; destruct a; try reflexivity; contradiction).
  unfold composite_dump_said_. eapply keeps_bind; [apply note_keeps|]. intros _ _ out1 _. clear out.
  eapply keeps_bind; [apply described_keeps'|]. cbv beta. intros _ t' out [-> Ht]. clear out1.
  apply enter_roams. intros d0 O0. eapply tells_roams_bind; [apply silent_tells, symbol_comes, O0|]. intros fp fp' d1 out1 O1 <-.
  assert (A1 : among t (Frame l (tree_atom t) r :: u) d1) by (eapply upon_among; eauto).
  assert (Elen : length ks = length (c_fields c)) by (symmetry; clear -Hks; induction Hks; cbn; congruence). rewrite Elen.
  pose proof (from_keeps fp d1 out1) as F. unfold bind at 1. destruct (type_printed ts fp) as [nt|]; unfold keeps in F; cbn [silent fst snd] in F.
  2:{ rewrite F. unfold roams. cbn. eauto. }
  destruct F as (nt' & -> & ->). rewrite append_nil. destruct nt as [c'|q].
  2:{ unfold roams, throw. cbn. rewrite append_nil. eauto. }
  destruct (Nat.eqb_spec (length (c_fields c')) (length (c_fields c))) as [El|]; [|reflexivity].
  apply upon_next in O1. unfold bind at 1. cbn [silently next_]. revert O1. generalize (pn_next d1). clear d1 A1. intros d1 O1.
  destruct (upon_cases _ _ _ _ O1) as [(l1 & body & r1 & E1 & P1)|[E1 P1]]; rewrite E1 in O1 |- *; rewrite P1.
  2:{ unfold roams, bind, list_attested, attest_is_list_said. cbn. eexists. rewrite append_nil. split; [reflexivity|]. eapply upon_among; eauto. }
  apply (keeps_roams _ _ (Data (At l1 body r1) (Frame l (tree_atom t) r :: u))); [eapply upon_among; eauto|].
  eapply keeps_bind; [apply list_keeps'|]. cbv beta. intros _ body' out2 [-> Hb].
  eapply keeps_weak.
  - apply enter_roams. intros d2 O2.
    rewrite (in_turn_ext (property_aloud env (aloud n) body) (fun p => property_aloud env (aloud n) body (0 + fst p, snd p))) by (intros [j q] _; reflexivity).
    apply (fields_aloud body _ (c_fields c') (c_fields c) ks 0 d2 out2 O2); auto. apply part_height in P1. lia.
  - intros vs xs <-. reflexivity.
Qed.
Lemma typed_aloud {B B'} (R : B -> B' -> Prop) t u d out (m : OM B) h : upon t 0 u d ->
  (forall d' out', part 1 t <> None -> upon t 1 u d' -> roams t u R out' (m (d', out')) h) ->
  roams t u R out ((let! fp := readAndNext_string_said false in let! _ := silently (lift (fromDescriptor s fp)) in m) (d, out)) (let^ _ := type_aloud ts t in h).
Proof.
  intros O H. unfold type_aloud. rewrite and_then_assoc.
  assert (P1 : part 0 t <> None -> part 1 t <> None) by (destruct (part 0 t) as [p0|] eqn:E0; [|congruence]; intros _; destruct (part_one _ _ E0) as (p1 & ->); discriminate).
  assert (W : tells t 1 u (fun x y => x = y /\ part 0 t <> None) out (readAndNext_string_said false (d, out)) (word (part 0 t))).
  { pose proof (word_tells t 0 u d out O) as W. unfold tells in *. destruct (snd (word (part 0 t))) as [b|e| |] eqn:E; auto.
    destruct W as (x & d1 & -> & O1 & HR). exists x, d1. repeat split; auto. destruct (part 0 t); [discriminate|]. discriminate E. }
  eapply tells_roams_bind; [exact W|]. cbv beta. intros fp fp' d1 out1 O1 [<- P0].
  pose proof (from_keeps fp d1 out1) as F. unfold bind at 1. destruct (type_printed ts fp) as [nt|]; unfold keeps in F; cbn [silent fst snd] in F.
  - destruct F as (nt' & -> & _). rewrite append_nil. change (silent (Gives tt)) with (@silent unit (Gives tt)). rewrite silent_then. apply H; auto.
  - rewrite F. unfold roams. cbn. eexists. split; [reflexivity|]. eapply upon_among; eauto.
Qed.
Lemma described_enter' {A B} (R : A -> B -> Prop) (m : OM A) g l t r u out :
  (forall d0 out', tree_atom t = ADescribed -> upon t 0 (Frame l (tree_atom t) r :: u) d0 -> roams t (Frame l (tree_atom t) r :: u) R out' (m (d0, out')) (g t)) ->
  keeps (Data (At l t r) u) R out ((silently attest_is_described ;; auto_enter_said false m) (Data (At l t r) u, out)) (let^ t := must_be_described (Some t) in g t).
Proof. intros H. eapply keeps_bind; [apply described_keeps'|]. cbv beta. intros _ t' out' [-> Ht]. apply enter_roams. auto. Qed.
Lemma in_turn_parts (g : option tree -> heard string) body : in_turn (fun p => g (Some p)) (elements body) = in_turn (fun j => g (part j body)) (seq 0 (length (elements body))).
Proof.
  assert (H : forall cs pre, elements body = (pre ++ cs)%list -> in_turn (fun p => g (Some p)) cs = in_turn (fun j => g (part j body)) (seq (length pre) (length cs))).
  { induction cs as [|c cs IH]; intros pre E; [reflexivity|]. cbn [in_turn length seq].
    replace (part (length pre) body) with (Some c).
    - rewrite (IH (pre ++ [c])%list) by now rewrite <- app_assoc. rewrite app_length. cbn [length]. now rewrite Nat.add_1_r.
    - destruct body as [a bs]. unfold elements in E. destruct a; try (destruct pre; discriminate).
      unfold part. cbn [tree_children]. rewrite E, app_length. cbn [length]. rewrite Nat.min_l by lia. rewrite nth_error_app2, Nat.sub_diag by lia. reflexivity. }
  apply (H (elements body) [] eq_refl).
Qed.
Lemma list_aloud e i name p k u d out : upon p k u d -> depth (part k p) <= n -> byType f e = Some i ->
  tells p (S k) u (FateProofs.told name) out (dump_list_said f s rec i name (d, out)) (sequence_aloud ts (aloud n) e (part k p)).
Proof.
  intros Ho Hh Hi. unfold dump_list_said. apply next_keeps; [exact Ho|].
  apply (keeps_same _ bracketed).
  2:{ intros vs x <-. unfold FateProofs.told. cbn [show]. now rewrite commas_concat. }
  destruct (upon_cases _ _ _ _ Ho) as [(l & t & r & -> & E)|[-> ->]]; [|unfold keeps; cbn; now rewrite append_nil]. rewrite E in Hh |- *. cbn [depth] in Hh.
  unfold list_dump_said_, sequence_aloud. apply described_enter'. intros d0 out0 Ht O0. apply typed_aloud; [exact O0|]. intros d1 out1 Some1 O1.
  destruct (upon_cases _ _ _ _ O1) as [(l1 & body & r1 & -> & P1)|[-> P1]]; rewrite P1.
  2:{ contradiction. }
  apply (keeps_roams _ _ _ _ _ _ _ (upon_among _ _ _ _ O1)). cbn [parts_of_list]. eapply keeps_weak.
  - apply list_enter_roams. intros d2 O2. rewrite (in_turn_parts (aloud n None e)).
    destruct (Hfound e i Hi) as (q & Hq & _). rewrite Hq. apply (elements_aloud e i q body); auto. apply part_height in P1. lia.
  - intros vs xs <-. reflexivity.
Qed.
Lemma map_aloud k0 v0 i j name p k u d out : upon p k u d -> depth (part k p) <= n -> byType f k0 = Some i -> byType f v0 = Some j ->
  tells p (S k) u (FateProofs.told name) out (dump_map_said env kf f s rec i j name (d, out)) (mapping_aloud env kf ts (aloud n) name k0 v0 (part k p)).
Proof.
  intros Ho Hh Hi Hj. unfold dump_map_said, mapping_aloud.
  assert (N : forall out, keeps d eq out (match name with
    | Some x => trace env "MapReader.cxx" 78 ("MapReader::dump " ++ x) | None => trace env "MapReader.cxx" 94 "MapReader::dump no-name" end (d, out))
    (match name with Some x => note env "MapReader.cxx" 78 ("MapReader::dump " ++ x) | None => note env "MapReader.cxx" 94 "MapReader::dump no-name" end)).
  { intros out'. destruct name; apply note_keeps. }
  eapply keeps_tells_bind; [eapply upon_among; eauto|apply N|]. clear out. intros _ _ out _.
  apply next_keeps; [exact Ho|].
  apply (keeps_same _ braced).
  2:{ intros vs x <-. unfold FateProofs.told. cbn [show]. now rewrite commas_concat. }
  destruct (upon_cases _ _ _ _ Ho) as [(l & t & r & -> & E)|[-> ->]]; [|unfold keeps; cbn; now rewrite append_nil]. rewrite E in Hh |- *. cbn [depth] in Hh.
  unfold map_dump_said_. apply described_enter'. intros d0 out0 Ht O0. apply typed_aloud; [exact O0|]. intros d1 out1 Some1 O1.
  destruct (upon_cases _ _ _ _ O1) as [(l1 & body & r1 & -> & P1)|[-> P1]]; rewrite P1.
  2:{ contradiction. }
  apply (keeps_roams _ _ _ _ _ _ _ (upon_among _ _ _ _ O1)). cbn [pairs_of_map].
  assert (K : keeps (Data (At l1 body r1) (Frame l (tree_atom t) r :: u)) (fun es xs => map show es = xs) out1
    (auto_map_enter_said true (fun n => trace env "MapReader.cxx" 44 ("  " ++ dec (Z.of_nat n)) ;; dump_entries_said kf rec n (lock f i) (lock f j)) (Data (At l1 body r1) (Frame l (tree_atom t) r :: u), out1))
    (let^ _ := note env "MapReader.cxx" 44 ("  " ++ number (Z.of_nat (parts_of_map (Some body)))) in in_turn (entry_aloud kf (aloud n) k0 v0 (Some body)) (seq 0 (entries body)))).
  { apply map_enter_roams. intros d2 O2. replace (parts_of_map (Some body)) with (pieces body) by (destruct body as [[] ?]; reflexivity).
    eapply keeps_roams_bind; [eapply upon_among; eauto|apply note_keeps|]. intros _ _ out2 _.
    destruct (Hfound k0 i Hi) as (q & Hq & _), (Hfound v0 j Hj) as (q' & Hq' & _). rewrite Hq, Hq'.
    apply (entries_aloud k0 v0 i j q q' body); auto; [apply part_height in P1; lia|destruct body as [[] ?]; reflexivity]. }
  pose proof (keeps_weak _ _ braced _ _ _ braces K) as W. rewrite and_then_assoc in W. apply W. intros vs xs <-. reflexivity.
Qed.
End Rec.

Lemma enum_aloud name p k u d out : upon p k u d -> tells p (S k) u (FateProofs.told name) out (dump_enum_said name (d, out)) (constant_aloud (part k p)).
Proof.
  intros Ho. unfold dump_enum_said. apply next_keeps; [exact Ho|].
  destruct (upon_cases _ _ _ _ Ho) as [(l & t & r & -> & E)|[-> ->]]; [|unfold keeps; cbn; now rewrite append_nil]. rewrite E.
  assert (a_described : tree_atom t = ADescribed \/ tree_atom t <> ADescribed) by (destruct t as [[] ?]; auto; right; discriminate).
  destruct a_described as [Ht|Ht].
  2:{ destruct t as [[] ?]; try contradiction; unfold keeps; cbn; now rewrite append_nil. }
  assert (L : keeps (Data (At l t r) u) eq out (enum_value_said (Data (At l t r) u, out)) (constant_aloud (Some t))).
  { unfold enum_value_said, constant_aloud. apply described_enter'. intros d0 out0 _ O0.
    assert (A0 : among t (Frame l (tree_atom t) r :: u) d0) by (eapply upon_among; eauto).
    set (first := match part 0 t with Some (Node (AULong n) _) => if (n mod 2 ^ 32 =? 8)%N then silent (Raises RuntimeError) else word (part 0 t) | p => word p end).
    assert (C : is_type TULong d0 && N.eqb (stripCorda (pn_get_ulong d0)) REFERENCED_OBJECT = true /\ first = silent (Raises RuntimeError) \/
                is_type TULong d0 && N.eqb (stripCorda (pn_get_ulong d0)) REFERENCED_OBJECT = false /\ first = word (part 0 t)).
    { unfold first. destruct (upon_cases _ _ _ _ O0) as [(l0 & [a0 cs0] & r0 & -> & ->)|[-> ->]]; [|right; split; reflexivity].
      destruct a0; try (right; split; reflexivity). cbn [is_type pn_dtype here atom_type pn_type_eqb andb pn_get_ulong tree_atom]. rewrite strip_mod.
      change REFERENCED_OBJECT with 8%N. destruct (_ =? 8)%N; auto. }
    unfold bind at 1. unfold silently at 1. destruct C as [[-> ->]|[-> ->]].
    - unfold roams. cbn. rewrite append_nil. eauto.
    - assert (W : tells t 1 (Frame l (tree_atom t) r :: u) (fun x y => x = y /\ part 0 t <> None) out0 (readAndNext_string_said false (d0, out0)) (word (part 0 t))).
      { pose proof (word_tells t 0 _ d0 out0 O0) as W. unfold tells in *. destruct (snd (word (part 0 t))) as [b|e| |] eqn:Ew; auto.
        destruct W as (x & d1 & -> & O1 & HR). exists x, d1. repeat split; auto. destruct (part 0 t); [discriminate|]. discriminate Ew. }
      eapply tells_roams_bind; [exact W|]. cbv beta. intros fp fp' d1 out1 O1 [_ P0].
      destruct (upon_cases _ _ _ _ O1) as [(l1 & body & r1 & -> & P1)|[-> P1]]; rewrite P1.
      + apply (keeps_roams _ _ _ _ _ _ _ (upon_among _ _ _ _ O1)). cbn [inside]. apply list_enter_roams. intros d2 O2. eapply tells_roams. now apply word_tells.
      + destruct (part 0 t) as [p0|] eqn:E0; [|congruence]. destruct (part_one _ _ E0) as (p1 & E1). congruence. }
  assert (Hd : keeps (Data (At l t r) u) (FateProofs.told name) out (bind enum_value_said (fun v => text_dumped name v) (Data (At l t r) u, out)) (constant_aloud (Some t))).
  { apply (keeps_same _ eq); [exact L|]. intros v x <-. reflexivity. }
  destruct t as [a cs]. cbn in Ht. subst a. exact Hd.
Qed.
Lemma key_aloud_right name p k u d out : upon p k u d -> tells p (S k) u (FateProofs.told name) out (dump_public_key_said env name (d, out)) (key_aloud env name (part k p)).
Proof.
  intros Ho. unfold dump_public_key_said, key_aloud. destruct name as [n|].
  - eapply keeps_tells_bind; [eapply upon_among; eauto|apply note_keeps|]. intros [] [] out' _. apply silent_tells. now apply key_right.
  - apply (silent_tells _ _ _ _ _ _ _ (key_of (is_named None) (part k p))). now apply key_right.
Qed.
Lemma primitive_quiet name ty o : typeIsPrimitive ty = false -> primitive_aloud env fmt name ty o = None.
Proof.
  intros H. unfold primitive_aloud. destruct (String.eqb_spec ty "int") as [->|]; [discriminate|]. destruct (String.eqb_spec ty "string") as [->|]; [discriminate|].
  change (primitive fmt number ty o) with (primitive fmt dec ty o). now rewrite (primitive_none fmt ty o H).
Qed.
Lemma dump_aloud fuel : right_aloud fuel (dump_said env fmt custom kf f s fuel).
Proof.
  induction fuel as [|fuel IH]; intros ty i r Hi Hr name p k u d out Ho Hh; [lia|]. cbn [dump_said value_aloud].
  destruct (Hfound ty i Hi) as (r' & Hr' & F). rewrite Hr in Hr'. injection Hr' as <-. destruct F as [(q & -> & ->)|(Hp & F)].
  - pose proof (property_aloud_right q name p k u d out Ho) as C. destruct q; exact C.
  - rewrite (primitive_quiet name ty _ Hp). unfold serialiser_aloud at 1. destruct (find _ rs) as [q|] eqn:Eq.
    + destruct F as [Hq ->]. destruct q; try destruct Hq.
      * now apply key_aloud_right.
      * apply find_some in Eq as [Eq _]. pose proof (Hanswers _ which Eq name d out (upon_level _ _ _ _ Ho)) as A. cbv zeta in A. rewrite (upon_view _ _ _ _ Ho) in A.
        unfold tells. destruct (snd (answers which name (part k p))).
        -- destruct A as (v & -> & Ev). eexists _, _. split; [reflexivity|]. split; [now apply upon_next|exact Ev].
        -- destruct A as (d' & -> & B). eexists. split; [reflexivity|]. eapply beside_among; [|exact B]. eapply upon_among; eauto.
        -- exact A.
        -- exact A.
    + destruct F as (t & -> & R). destruct t as [c|x]; cbn [reads] in R.
      * destruct R as (ks & -> & Hks). apply composite_aloud; auto. lia.
      * destruct (r_kind x) eqn:K.
        -- destruct R as (e & j & -> & -> & Hj). apply list_aloud; auto. lia.
        -- destruct R as (k0 & v0 & i0 & j0 & -> & -> & Hi0 & Hj0). apply map_aloud; auto; lia.
        -- subst r. apply enum_aloud. exact Ho.
        -- destruct R as (e & j & -> & -> & Hj). apply list_aloud; auto. lia.
Qed.
End Value.
