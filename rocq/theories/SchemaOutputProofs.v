(** What dumping the schema of a blob writes on the way is what SpecSchemaOutput.v
    says. *)
From Coq Require Import Lia.
From Verif Require Import Base Proton ProtonProofs TypeNames SpecTypes TypeNamesProofs Schema Descriptors SpecDescriptors DescriptorsProofs Readers
  SchemaDump SpecSchemaDump SchemaDumpProofs RawSchemaProofs SpecAccept AcceptProofs SpecDisplay DisplayProofs SpecReadScript SpecParse ParseProofs SpecFate FateProofs
  SpecJson JsonProofs CordaFile Blob Tools Output SpecOutput OutputProofs OutputSchema SpecSchemaFate SchemaFateProofs SpecSchemaOutput.
Import List ListNotations.
Open Scope string_scope.

Definition anything {A B} (_ : A) (_ : B) : Prop := True.
Lemma fst_done {A} (h : heard A) (g : A -> heard unit) : (forall a, g a = silent (Gives tt)) -> forall B (k : heard B), and_then h g = and_then h (fun _ => silent (Gives tt)).
Proof. intros H B k. unfold and_then. destruct (snd h) as [a|e| |]; auto. now rewrite H. Qed.
Lemma then_then {A B C} (h : heard A) (f : A -> heard B) (g : B -> heard C) : and_then (and_then h f) g = and_then h (fun a => and_then (f a) g).
Proof.
  unfold and_then. destruct h as [s [a|e| |]]; cbn [fst snd]; try reflexivity. destruct (f a) as [s' [b|e| |]]; cbn [fst snd]; try reflexivity. now rewrite append_assoc3.
Qed.
Lemma done_keeps {A B} d (R : A -> B -> Prop) (m : PM A) r out : leaves d R (m d) r -> keeps d anything out (silently m (d, out)) (done r).
Proof.
  intros H. apply (silent_keeps _ _ _ out) in H. unfold keeps, done, silent, and_then in *. cbn [fst snd] in *. destruct r as [b|e| |]; cbn [fst snd] in *; auto.
  destruct H as (a & -> & _). eexists. split; [reflexivity|exact I].
Qed.
Lemma tells_weaken {A B} p k u (R R' : A -> B -> Prop) out o h : (forall a b, R a b -> R' a b) -> tells p k u R out o h -> tells p k u R' out o h.
Proof. intros H. unfold tells. destruct (snd h); auto. intros (a' & d & ? & ? & ?). eauto 6. Qed.
Lemma keeps_weaken {A B} d (R R' : A -> B -> Prop) out o h : (forall a b, R a b -> R' a b) -> keeps d R out o h -> keeps d R' out o h.
Proof. intros H. unfold keeps. destruct (snd h); auto. intros (a' & ? & ?). eauto. Qed.
Lemma end_tells {A B} p k u (R : A -> B -> Prop) d a b out : upon p k u d -> R a b -> tells p k u R out (Ok a (d, out)) (silent (Gives b)).
Proof. intros H HR. unfold tells, silent. cbn [fst snd]. rewrite append_nil. eauto 6. Qed.
Lemma next_tells {A B} p k u d (R : A -> B -> Prop) (m : OM A) out h : upon p k u d -> keeps d R out (m (d, out)) h -> tells p (S k) u R out (auto_next_said m (d, out)) h.
Proof.
  intros H K. unfold keeps, tells, auto_next_said, finally, moving in *. destruct (snd h) as [b|e| |].
  - destruct K as (a & -> & HR). exists a, (pn_next d). split; [reflexivity|]. split; [now apply upon_next|exact HR].
  - rewrite K. exists (pn_next d). split; [reflexivity|]. apply upon_among with (k := S k). now apply upon_next.
  - now rewrite K.
  - now rewrite K.
Qed.
Lemma skip_tells {A B} p k k' u (R : A -> B -> Prop) (f : unit -> OM A) d out h : upon p k u d ->
  (forall d', upon p (S k) u d' -> tells p k' u R out (f tt (d', out)) h) -> tells p k' u R out (bind (silently next_) f (d, out)) h.
Proof. intros H K. apply K. now apply upon_next. Qed.

(** ** Loops *)
Lemma while_keeps {A B} (f : tree -> heard B) (body : A -> OM A) : forall n acc d out,
  (forall a l t r u out, In t (ahead d) -> keeps (Data (At l t r) u) anything out (body a (Data (At l t r) u, out)) (f t)) -> length (ahead d) <= n ->
  match snd (SpecOutput.in_turn f (ahead d)) with
  | Gives _ => exists a d', while_loop_said n body acc (d, out) = Ok a (d', out ++ fst (SpecOutput.in_turn f (ahead d))) /\ siblings (here d') = siblings (here d) /\ ups d' = ups d
  | Raises e => exists d', while_loop_said n body acc (d, out) = Throw e (d', out ++ fst (SpecOutput.in_turn f (ahead d))) /\ siblings (here d') = siblings (here d) /\ ups d' = ups d
  | Stops => while_loop_said n body acc (d, out) = Abort
  | Wild => while_loop_said n body acc (d, out) = UB
  end.
Proof.
  induction n as [|n IH]; intros acc d out Hb Hn.
  - destruct d as [[[|c cs]|l t [|t' r]] u]; cbn [ahead here length] in *; try lia; cbn; rewrite append_nil; eauto.
  - assert (Hstep : forall c d', ahead d = c :: ahead d' -> (exists l r u, d' = Data (At l c r) u) -> pn_next_ok d = true -> pn_next d = d' ->
        siblings (here d') = siblings (here d) -> ups d' = ups d ->
        match snd (SpecOutput.in_turn f (ahead d)) with
        | Gives _ => exists a d', while_loop_said (S n) body acc (d, out) = Ok a (d', out ++ fst (SpecOutput.in_turn f (ahead d))) /\ siblings (here d') = siblings (here d) /\ ups d' = ups d
        | Raises e => exists d', while_loop_said (S n) body acc (d, out) = Throw e (d', out ++ fst (SpecOutput.in_turn f (ahead d))) /\ siblings (here d') = siblings (here d) /\ ups d' = ups d
        | Stops => while_loop_said (S n) body acc (d, out) = Abort
        | Wild => while_loop_said (S n) body acc (d, out) = UB
        end).
    { intros c d' Ha (l & r & u & Hd) Hok Hnext Hs Hu. rewrite Ha in Hb, Hn |- *. cbn [SpecOutput.in_turn length] in *. cbn [while_loop_said fst]. rewrite Hok. unfold moving. rewrite Hnext. unfold bind.
      pose proof (Hb acc l c r u out (or_introl eq_refl)) as Hc. rewrite <- Hd in Hc. unfold keeps in Hc.
      destruct (f c) as [s [b|e| |]]; unfold and_then at 1; cbn [fst snd] in Hc |- *.
      - destruct Hc as (a' & Hc & _). unfold and_then at 2. cbn [fst snd]. rewrite Hc.
        specialize (IH a' d' (out ++ s) ltac:(intros; apply Hb; cbn; auto) ltac:(lia)). rewrite Hs, Hu in IH. unfold and_then. cbn [fst snd].
        destruct (SpecOutput.in_turn f (ahead d')) as [s' [bs|e| |]]; cbn [fst snd silent] in *; rewrite ?append_nil; rewrite ?append_assoc3 in IH; exact IH.
      - unfold and_then. cbn [fst snd]. rewrite Hc. eauto.
      - now rewrite Hc.
      - now rewrite Hc. }
    destruct d as [[[|c cs]|l t [|t' r]] u].
    + cbn. rewrite append_nil. eauto.
    + apply (Hstep c (Data (At [] c cs) u)); eauto.
    + cbn. rewrite append_nil. eauto.
    + apply (Hstep t' (Data (At (t :: l) t' r) u)); eauto.
Qed.
Lemma loop_tells {A B C} (f : tree -> heard B) (body : nat -> A -> OM A) (k : nat -> A -> OM C) (m : nat -> OM C) acc l t r u out :
  let n := length (elements t) in
  (forall a l t' r u out, In t' (tree_children t) -> keeps (Data (At l t' r) u) anything out (body n a (Data (At l t' r) u, out)) (f t')) ->
  (forall a s, exists c, k n a s = Ok c s) ->
  (forall s, m n s = bind (while_next_said (body n) acc) (k n) s) ->
  keeps (Data (At l t r) u) anything out (auto_list_enter_said false m (Data (At l t r) u, out))
    (let^ _ := SpecOutput.in_turn f (tree_children t) in silent (Gives tt)).
Proof.
  intros n Hb Hk Hm. unfold auto_list_enter_said. replace (pn_get_list (Data (At l t r) u)) with n by (destruct t as [[] cs]; reflexivity).
  clearbody n. destruct t as [a cs]. unfold finally. rewrite Hm. unfold while_next_said, bind. cbn [pn_enter here ups fst].
  pose proof (while_keeps f (body n) (length cs) acc (Data (Before cs) (Frame l a r :: u)) out Hb (le_n _)) as H. cbn [ahead here siblings tree_children ups] in H |- *.
  unfold keeps, and_then. destruct (SpecOutput.in_turn f cs) as [s [x|e| |]]; cbn [fst snd silent] in *; rewrite ?append_nil.
  - destruct H as (b & d' & -> & H1 & H2). destruct (Hk b (d', out ++ s)) as (c & ->). exists c. split; [|exact I]. cbn [moving]. do 2 f_equal. unfold pn_exit. now rewrite H2, H1.
  - destruct H as (d' & -> & H1 & H2). cbn [moving]. do 2 f_equal. unfold pn_exit. now rewrite H2, H1.
  - now rewrite H.
  - now rewrite H.
Qed.
Lemma bind_ret_r {A} (m : OM A) s : m s = bind m (fun a => ret a) s.
Proof. unfold bind. now destruct (m s). Qed.

(** An indentation. *)
Definition blank (ai : string) : Prop := exists n, ai = ind n.
Lemma blank_deeper ai : blank ai -> blank (deeper ai).
Proof. intros [n ->]. now exists (S n). Qed.
Local Hint Resolve blank_deeper : core.
(** Results that differ in the text alone. *)
Lemma same_done {A B} (r : fate A) (r' : fate B) : same_end r r' -> done r = done r'.
Proof. destruct r, r'; try contradiction; try reflexivity. now intros ->. Qed.
Lemma same_refl {A} (r : fate A) : same_end r r.
Proof. destruct r; cbn; auto. Qed.
Lemma same_onward {A B C} (r : fate A) (f : A -> fate B) (g : A -> fate C) : (forall a, same_end (f a) (g a)) -> same_end (onward r f) (onward r g).
Proof. destruct r; cbn; auto. Qed.
Lemma raw_property_same n m body : same_end (raw_property n body) (raw_property m body).
Proof. unfold raw_property. repeat (apply same_onward; intros ?). exact I. Qed.
Lemma avro_property_same n m body : same_end (avro_property n body) (avro_property m body).
Proof.
  unfold avro_property. do 3 (apply same_onward; intros ?). unfold type_of.
  match goal with |- same_end (onward (type_text ?b _ ?ty) _) _ => pose proof (type_text_same b (S n) (S m) ty) as H; destruct (type_text b (S n) ty), (type_text b (S m) ty) end; try contradiction; cbn; auto.
Qed.
Lemma raw_fingerprint_same tn n body : same_end (raw_fingerprint tn n body) (symbol_at (part 0 body)).
Proof.
  unfold raw_fingerprint. destruct (part 1 body) as [t|] eqn:E; [destruct (symbol_at _); exact I || reflexivity|].
  destruct (part 0 body) as [t|] eqn:E0; [destruct (OutputProofs.part_more 0 1 body t E0) as (? & ?); congruence|reflexivity].
Qed.
Lemma avro_fingerprint_same n body : same_end (avro_fingerprint n body) (symbol_at (part 0 body)).
Proof. unfold avro_fingerprint. destruct (symbol_at _); exact I || reflexivity. Qed.

Section Files.
Context (file : string -> string).
Notation wf := (file "proton_wrapper.cxx").

Lemma list_said_keeps p k u d out : upon p k u d ->
  keeps d (fun _ t => part k p = Some t /\ tree_atom t = AList) out (attest_is_list_said wf (d, out)) (list_said file (part k p)).
Proof.
  intros H. unfold attest_is_list_said, list_said. eapply keeps_bind; [apply silent_keeps; eapply list_leaves; eassumption|].
  intros a b out' Hb. rewrite (bind_ret_r _ _). eapply keeps_bind; [now apply DBG_keeps|]. intros x y out'' _. now apply ret_keeps.
Qed.
Lemma list_line_keeps l cs r u out : let d := Data (At l (Node AList cs) r) u in keeps d eq out (attest_is_list_said wf (d, out)) (list_line wf).
Proof. intros d. unfold attest_is_list_said, bind, silently, attest_is_list, require, is_type. cbn [pn_dtype cur_atom here atom_type pn_type_eqb d]. now apply DBG_keeps. Qed.
Lemma name_said_tells p k u d out : upon p k u d -> tells p (S k) u eq out (readAndNext_string_said false (d, out)) (name_said (part k p)).
Proof.
  intros H. unfold readAndNext_string_said, name_said. eapply keeps_tells_bind; [eapply upon_among; eassumption|apply cout_keeps|].
  intros _ _ out' _. apply silent_tells. now apply name_comes.
Qed.
Lemma name_or_null_said_tells p k u d out : upon p k u d -> tells p (S k) u eq out (readAndNext_string_said true (d, out)) (name_or_null_said (part k p)).
Proof.
  intros H. unfold readAndNext_string_said, name_or_null_said. eapply keeps_tells_bind; [eapply upon_among; eassumption|apply cout_keeps|].
  intros _ _ out' _. apply silent_tells. now apply name_or_null_comes.
Qed.

Lemma obind_bind {A B C} (a : OM A) (m : OM B) (f : B -> OM C) d : bind a (fun _ => bind m f) d = bind (bind a (fun _ => m)) f d.
Proof. unfold bind. now destruct (a d). Qed.

Section Elements.
Context (rec : string -> OM string) (inner : tree -> heard unit) (limit : nat).
Hypothesis Hrec : forall ai l t r u out, blank ai -> height t < limit -> keeps (Data (At l t r) u) anything out (rec ai (Data (At l t r) u, out)) (inner t).

Lemma element_said_at ai l t r u out : blank ai -> height t < limit ->
  keeps (Data (At l t r) u) anything out (by_type_said rec ai (Data (At l t r) u, out)) (element_said inner (Some t)).
Proof.
  intros Hai H. unfold by_type_said, pn_dtype, element_said. cbn [here fst]. destruct t as [[] cs]; try reflexivity. cbn [atom_type element]. rewrite silent_then. now apply Hrec.
Qed.
Lemma element_said_keeps ai p k u d out : blank ai -> height p < S limit -> upon p k u d -> keeps d anything out (by_type_said rec ai (d, out)) (element_said inner (part k p)).
Proof.
  intros Hai Hh H. destruct (upon_cases _ _ _ _ H) as [(l & t & r & -> & E)|[-> ->]]; [|reflexivity]. rewrite E. apply element_said_at; [exact Hai|]. apply part_height in E. lia.
Qed.
Lemma described_said_tells ai p k u d out : blank ai -> height p < S limit -> upon p k u d ->
  tells p (S k) u anything out ((silently attest_is_described ;; auto_next_said (by_type_said rec ai))%m (d, out))
    (let^ t := silent (described_tree (part k p)) in inner t).
Proof.
  intros Hai Hh H. destruct (upon_cases _ _ _ _ H) as [(l & t & r & E & Ep)|[-> ->]].
  2:{ unfold tells. cbn. rewrite append_nil. eexists. split; [reflexivity|]. eapply upon_among; eassumption. }
  rewrite Ep.
  assert (Ht : described_tree (Some t) = Raises RuntimeError /\ attest_is_described d = Throw RuntimeError d \/ described_tree (Some t) = Gives t /\ attest_is_described d = Ok tt d /\ element_said inner (Some t) = inner t).
  { rewrite E. destruct t as [[] cs]; try (left; split; reflexivity). right. split; [reflexivity|]. split; [reflexivity|]. unfold element_said. cbn [element]. now rewrite silent_then. }
  unfold bind, silently. destruct Ht as [[-> ->]|(-> & -> & Ht)].
  { unfold tells. cbn. rewrite append_nil. eexists. split; [reflexivity|]. eapply upon_among; eassumption. }
  rewrite silent_then, <- Ht, <- Ep. apply next_tells; [exact H|]. eapply element_said_keeps; eauto.
Qed.
(** A loop over elements. *)
Lemma elements_keeps {A C} ai (body : nat -> A -> OM A) (wrap : nat -> A -> string -> A) (k : nat -> A -> OM C) (m : nat -> OM C) acc l t r u out : blank ai -> height t < S limit ->
  (forall a s, body (length (elements t)) a s = (let! x := by_type_said rec ai in ret (wrap (length (elements t)) a x)) s) ->
  (forall a s, exists c, k (length (elements t)) a s = Ok c s) ->
  (forall s, m (length (elements t)) s = bind (while_next_said (body (length (elements t))) acc) (k (length (elements t))) s) ->
  keeps (Data (At l t r) u) anything out (auto_list_enter_said false m (Data (At l t r) u, out)) (elements_said inner (tree_children t)).
Proof.
  intros Hai Hh Hw Hk Hm. unfold elements_said.
  apply (loop_tells _ body k m acc l t r u out); auto.
  intros a l1 t1 r1 u1 out1 Hi. rewrite Hw, <- (and_then_silent (element_said _ _)).
  eapply keeps_bind; [apply element_said_at; [exact Hai|apply child_height in Hi; lia]|]. intros x y out2 _. now apply ret_keeps.
Qed.
Definition counted (w : nat -> string -> string -> string) (a : nat * string) (x : string) : nat * string := (S (fst a), w (fst a) (snd a) x).
Ltac after_line := eapply keeps_bind; [first [apply list_line_keeps | now apply DBG_keeps]|]; let a := fresh in let b := fresh in let o := fresh "o" in intros a b o _; cbv beta; clear a b.

Lemma raw_envelope_keeps ai l cs r u out : let D := Data (At l (Node AList cs) r) u in blank ai -> height (Node AList cs) < S limit ->
  keeps D anything out (raw_envelope_said file rec ai (D, out)) (raw_parts_said file inner Envelope (Node AList cs)).
Proof.
  intros D Hai Hh. unfold raw_envelope_said, raw_parts_said. after_line.
  apply enter_keeps. intros d0 H0. exists 2.
  eapply tells_bind; [eapply next_tells; [eassumption|]; eapply element_said_keeps; eauto|]. intros a b d1 out1 H1 _.
  rewrite <- (and_then_silent (element_said _ _)).
  eapply tells_bind; [eapply next_tells; [eassumption|]; eapply element_said_keeps; eauto|]. intros a' b' d2 out2 H2 _.
  apply end_tells; [exact H2|exact I].
Qed.
Lemma raw_schema_keeps ai l cs r u out : let D := Data (At l (Node AList cs) r) u in blank ai -> height (Node AList cs) < S limit ->
  keeps D anything out (raw_schema_said file rec ai (D, out)) (raw_parts_said file inner Schema_ (Node AList cs)).
Proof.
  intros D Hai Hh. unfold raw_schema_said, raw_parts_said. after_line.
  match goal with |- keeps _ _ _ (auto_list_enter_said false (fun n => let! a := while_next_said (@?B n) ?start in @?K n a) _) _ =>
    apply (loop_tells (A := nat * string) _ B K _ start) end.
  - intros [i acc] l1 t1 r1 u1 out1 Hi. cbv beta iota.
    assert (Ht : height t1 < limit) by (apply (child_height (Node AList cs)) in Hi; lia).
    destruct t1 as [[] gs]; try (unfold keeps; cbn; now rewrite append_nil).
    unfold list_said. cbn [a_list]. rewrite silent_then, then_then.
    after_line. rewrite silent_then. cbn [tree_children].
    rewrite <- (and_then_silent (elements_said _ _)).
    eapply keeps_bind.
    + match goal with |- keeps _ _ _ (auto_list_enter_said false (fun n => let! a := while_next_said (@?B n) ?start in @?K n a) _) _ =>
        apply (elements_keeps (deeper (deeper (deeper ai))) B (fun m => counted (fun j acc t => acc ++ deeper (deeper ai) ++ num i ++ ":" ++ num j ++ "/" ++ num m ++ "] " ++ nl ++ t)) K _ start l1 (Node AList gs) r1 u1) end.
      * auto.
      * lia.
      * now intros [] ?.
      * intros [] ?. eexists. reflexivity.
      * reflexivity.
    + intros s b' out3 _. now apply ret_keeps.
  - intros [] ?. eexists. reflexivity.
  - reflexivity.
Qed.
Lemma raw_container_keeps ai l cs r u out : let D := Data (At l (Node AList cs) r) u in blank ai -> height (Node AList cs) < S limit ->
  keeps D anything out (raw_restricted_said file rec ai (D, out)) (raw_parts_said file inner Container (Node AList cs)).
Proof.
  intros D Hai Hh. unfold raw_restricted_said, raw_parts_said. after_line.
  apply enter_keeps. intros d0 H0. framed H0 fs. exists 5. 
  eapply tells_bind; [eapply name_said_tells; eassumption|]. intros ? name d1 out1 H1 ->.
  destruct cs as [|c cs].
  { empty H1. }
  eapply tells_bind; [eapply name_or_null_said_tells; eassumption|]. intros ? label d2 out2 H2 ->.
  eapply keeps_tells_bind; [eapply upon_among; eassumption|apply silent_keeps; eapply (texts_comes (fun p => p ++ " ")); [eassumption|discriminate]|]. intros ? provides out3 _.
  apply (skip_tells _ _ _ _ _ _ _ _ _ H2). intros d4 H4.
  eapply tells_bind; [eapply name_said_tells; eassumption|]. intros ? source d5 out5 H5 ->.
  rewrite <- (and_then_silent (element_said _ _)).
  eapply tells_bind; [eapply next_tells; [eassumption|]; eapply element_said_keeps; eauto|]. intros ? ls d6 out6 H6 _.
  apply end_tells; [exact H6|exact I].
Qed.
Lemma fields_keeps {A C} ai (body : nat -> A -> OM A) (wrap : nat -> A -> string -> A) (k : nat -> A -> OM C) (m : nat -> OM C) acc p j u d out :
  blank ai -> height p < S limit -> upon p j u d -> tree_children p <> [] ->
  (forall n a s, body n a s = (let! x := by_type_said rec ai in ret (wrap n a x)) s) ->
  (forall n a s, exists c, k n a s = Ok c s) ->
  (forall n s, m n s = bind (while_next_said (body n) acc) (k n) s) ->
  keeps d anything out (auto_list_enter_said false m (d, out)) (elements_said inner (members (part j p))).
Proof.
  intros Hai Hh H Hn Hw Hk Hm. destruct (SchemaFateProofs.upon_at _ _ _ _ H Hn) as (l1 & t1 & r1 & -> & E). rewrite E. cbn [members].
  eapply (elements_keeps ai body wrap k m acc); auto. apply part_height in E. lia.
Qed.
Lemma raw_class_keeps ai l cs r u out : let D := Data (At l (Node AList cs) r) u in blank ai -> height (Node AList cs) < S limit ->
  keeps D anything out (raw_composite_said file rec ai (D, out)) (raw_parts_said file inner Class (Node AList cs)).
Proof.
  intros D Hai Hh. unfold raw_composite_said, raw_parts_said. after_line.
  apply enter_keeps. intros d0 H0. framed H0 fs. exists 4. unfold bind at 1, silently at 1. rewrite no_attest.
  eapply tells_bind; [eapply name_said_tells; eassumption|]. intros ? name d1 out1 H1 ->.
  destruct cs as [|c cs]; [empty H1|].
  unfold bind at 1, silently at 1. rewrite no_attest.
  eapply tells_bind; [eapply name_or_null_said_tells; eassumption|]. intros ? label d2 out2 H2 ->.
  eapply keeps_tells_bind; [eapply upon_among; eassumption|eapply list_said_keeps; eassumption|]. intros ? g out3 [E _]. rewrite <- E.
  eapply keeps_tells_bind; [eapply upon_among; eassumption|apply silent_keeps; eapply (texts_comes (fun p => deeper ai ++ p ++ " ")); [eassumption|discriminate]|]. intros ? provides out4 _.
  apply (skip_tells _ _ _ _ _ _ _ _ _ H2). intros d5 H5. rewrite <- then_then, obind_bind.
  eapply tells_bind; [eapply (described_said_tells (deeper (deeper ai))); eauto|]. intros ? fp d6 out6 H6 _.
  rewrite <- (and_then_silent (elements_said _ _)).
  eapply keeps_tells_bind; [eapply upon_among; eassumption| |].
  - eapply (fields_keeps (deeper (deeper (deeper ai))) (fun n '(i, acc) => let! t := by_type_said rec (deeper (deeper (deeper ai))) in
        ret (S i, acc ++ deeper (deeper ai) ++ num i ++ "/" ++ num n ++ "]" ++ nl ++ t))
        (fun n => counted (fun i acc t => acc ++ deeper (deeper ai) ++ num i ++ "/" ++ num n ++ "]" ++ nl ++ t)) (fun _ a => ret a) _ (1, "")); eauto; try discriminate.
    + now intros ? [] ?.
    + intros ? ?. rewrite <- bind_ret_r. reflexivity.
  - intros [i fields] ? out7 _. apply end_tells; [exact H6|exact I].
Qed.
Lemma raw_fingerprint_keeps tn ai l cs r u out : let D := Data (At l (Node AList cs) r) u in blank ai ->
  keeps D anything out (raw_object_said file tn ai (D, out)) (raw_parts_said file inner Fingerprint (Node AList cs)).
Proof.
  intros D [n ->]. unfold raw_object_said, raw_parts_said. after_line.
  rewrite <- (same_done _ _ (raw_fingerprint_same tn (S n) (Node AList cs))). eapply done_keeps. apply raw_fingerprint_leaves.
Qed.
Lemma raw_property_keeps ai l cs r u out : let D := Data (At l (Node AList cs) r) u in blank ai ->
  keeps D anything out (raw_field_said file ai (D, out)) (raw_parts_said file inner Property (Node AList cs)).
Proof.
  intros D [n ->]. unfold raw_field_said, raw_parts_said. after_line.
  rewrite (same_done _ _ (raw_property_same 0 (S n) (Node AList cs))). eapply done_keeps. apply raw_property_leaves.
Qed.
(** Opening an element. *)
Lemma opened_keeps (m : N -> OM string) (other : data * string -> string) (parts : kind -> tree -> heard unit) t fs d0 :
  height t < S limit -> upon t 0 fs d0 ->
  (forall key name k l bcs r u out, code_of key = Gives (name, k) -> height (Node AList bcs) < limit ->
    keeps (Data (At l (Node AList bcs) r) u) anything out (m key (Data (At l (Node AList bcs) r) u, out)) (parts k (Node AList bcs))) ->
  (forall key s, code_of key = Wild -> m key s = UB) ->
  exists k, forall out, tells t k fs anything out
    (match pn_dtype d0 with
     | TULong => (let! key := silently readAndNext_ulong in attest_is_list_said wf ;; m key)%m (d0, out)
     | TSymbol => Ok (other (d0, out)) (d0, out)
     | _ => Throw RuntimeError (d0, out)
     end) (opened_said file parts t).
Proof.
  intros Hh H0 Hm Hw. unfold opened_said.
  destruct (upon_cases _ _ _ _ H0) as [(l0 & t0 & r0 & E0 & E)|[-> ->]].
  2:{ exists 0. intros out. unfold tells. cbn. rewrite append_nil. eexists. split; [reflexivity|]. eapply upon_among; eassumption. }
  rewrite E. destruct t0 as [a cs0]. assert (Ed : pn_dtype d0 = atom_type a) by (rewrite E0; reflexivity). rewrite Ed.
  destruct a; cbn [atom_type]; try (exists 0; intros out; unfold tells, silent; cbn [fst snd]; rewrite append_nil; eexists; split; [reflexivity|]; eapply upon_among; eassumption).
  - (* a number *) exists 1. intros out.
    match goal with |- tells _ _ _ _ _ _ ?h => rewrite <- (silent_then n (fun _ => h)) end. eapply tells_bind with (k := 1) (R := fun a b => a = b /\ b = n).
    { apply silent_tells. cbn [comes]. exists n, (pn_next d0). split; [|split; [now apply upon_next|auto]]. rewrite E0. reflexivity. }
    intros ? key d1 out1 H1 [-> ->]. cbv beta.
    eapply keeps_tells_bind; [eapply upon_among; eassumption|eapply list_said_keeps; eassumption|]. intros ? body out2 [Eb Ab].
    destruct (upon_cases _ _ _ _ H1) as [(l2 & t2 & r2 & E2 & E2')|[_ E2']]; [|congruence].
    assert (t2 = body) as -> by congruence. destruct body as [ba bcs]. cbn [tree_atom] in Ab. subst ba.
    pose proof (codes_registered n) as K. destruct (code_of n) as [[name k]|e| |] eqn:Ec; [|contradiction..|].
    + rewrite silent_then. eapply tells_keeps; [exact H1|]. rewrite E2. eapply Hm; [exact Ec|]. apply part_height in Eb. lia.
    + rewrite Hw by exact Ec. reflexivity.
  - exists 0. intros out. apply end_tells; [exact H0|exact I].
Qed.
Lemma raw_described_keeps tn ai l t r u out : blank ai -> height t < S limit ->
  keeps (Data (At l t r) u) anything out (raw_described_said file tn rec ai (Data (At l t r) u, out)) (raw_element_said file inner t).
Proof.
  intros Hai Hh. unfold raw_described_said, raw_element_said. rewrite <- (and_then_silent (opened_said _ _ _)).
  eapply keeps_bind with (R := anything). 2:{ intros s ls out1 _. now apply ret_keeps. }
  apply enter_keeps. intros d0 H0. framed H0 fs.
  edestruct (opened_keeps (fun key s => match registered key with
     | None => UB
     | Some desc =>
         (let! t := raw_of_said file tn rec (d_kind desc) (deeper ai) in
          ret (deeper ai ++ "key  : " ++ dec (Z.of_N key) ++ " :: " ++ dec (Z.of_N (stripCorda key)) ++
               " -> " ++ describedToString key ++ nl ++
               deeper ai ++ "list : entries: " ++ num (pn_get_list (fst s)) ++ nl ++ t)) s
     end) (fun s => deeper ai ++ "blob: bytes: " ++ num (symbol_size (fst s)) ++ nl)) as (k & Hk); [exact Hh|exact H0| | |exists k; apply Hk].
  - intros key name k l1 bcs r1 u1 out1 Hk Hb. pose proof (codes_registered key) as K. rewrite Hk in K. destruct K as (desc & -> & Hs & _).
    rewrite <- (and_then_silent (raw_parts_said _ _ _ _)). eapply keeps_bind.
    + destruct (d_kind desc), k; try contradiction; cbn [raw_of_said];
        first [ apply raw_envelope_keeps | apply raw_schema_keeps | apply raw_fingerprint_keeps | apply raw_property_keeps | apply raw_class_keeps
              | apply raw_container_keeps | apply Hrec ]; auto; lia.
    + intros s b out2 _. now apply ret_keeps.
  - intros key s Hk. pose proof (codes_registered key) as K. rewrite Hk in K. now rewrite K.
Qed.

(** ** The Avro form *)
Lemma avro_envelope_keeps ai l cs r u out : let D := Data (At l (Node AList cs) r) u in blank ai -> height (Node AList cs) < S limit ->
  keeps D anything out (avro_envelope_said file rec ai (D, out)) (avro_parts_said file inner Envelope (Node AList cs)).
Proof.
  intros D Hai Hh. unfold avro_envelope_said, avro_parts_said. after_line. after_line.
  apply enter_next_keeps. intros d0 H0. exists 2. eapply next_tells; [eassumption|]. eapply element_said_keeps; eauto.
Qed.
Lemma avro_fingerprint_keeps ai l cs r u out : let D := Data (At l (Node AList cs) r) u in blank ai ->
  keeps D anything out (avro_object_said file ai (D, out)) (avro_parts_said file inner Fingerprint (Node AList cs)).
Proof.
  intros D [n ->]. unfold avro_object_said, avro_parts_said. after_line. after_line.
  rewrite <- (same_done _ _ (avro_fingerprint_same n (Node AList cs))). eapply done_keeps. apply avro_fingerprint_leaves.
Qed.
Lemma avro_property_keeps ai l cs r u out : let D := Data (At l (Node AList cs) r) u in blank ai ->
  keeps D anything out (avro_field_said file ai (D, out)) (avro_parts_said file inner Property (Node AList cs)).
Proof.
  intros D [n ->]. unfold avro_field_said, avro_parts_said. after_line.
  rewrite (same_done _ _ (avro_property_same 0 n (Node AList cs))). eapply done_keeps. apply avro_property_leaves.
Qed.
Lemma avro_schema_keeps ai l cs r u out : let D := Data (At l (Node AList cs) r) u in blank ai -> height (Node AList cs) < S limit ->
  keeps D anything out (avro_schema_said file rec ai (D, out)) (avro_parts_said file inner Schema_ (Node AList cs)).
Proof.
  intros D Hai Hh. unfold avro_schema_said, avro_parts_said. after_line. after_line.
  apply list_enter_keeps. intros d0 H0. framed H0 fs. exists 0. cbn [tree_children elements].
  destruct cs as [|g [|g' cs]]; [reflexivity| |reflexivity]. cbn [length]. unfold bind at 1. cbn [Nat.eqb].
  eapply tells_keeps; [eassumption|]. destruct (SchemaFateProofs.upon_at _ _ _ _ H0 ltac:(discriminate)) as (l1 & t1 & r1 & -> & E). cbn in E. injection E as <-.
  match goal with |- keeps _ _ _ (auto_list_enter_said false (fun n => let! a := while_next_said (@?B n) ?start in @?K n a) _) _ =>
    apply (elements_keeps ai B (fun m => counted (fun j acc t => acc ++ t ++ (if String.eqb t "" then "" else (if Nat.ltb j m then "," else "") ++ nl))) K _ start l1 g r1 fs) end; auto.
  - assert (height g < height (Node AList [g])) by (apply child_height; now left). lia.
  - now intros [] ?.
  - intros [] ?. eexists. reflexivity.
Qed.
Lemma avro_class_keeps ai l cs r u out : let D := Data (At l (Node AList cs) r) u in blank ai -> height (Node AList cs) < S limit ->
  keeps D anything out (avro_composite_said file rec ai (D, out)) (avro_parts_said file inner Class (Node AList cs)).
Proof.
  intros D Hai Hh. unfold avro_composite_said, avro_parts_said. after_line. after_line.
  apply enter_keeps. intros d0 H0. framed H0 fs. exists 4. unfold bind at 1, silently at 1. rewrite no_attest. destruct cs as [|c cs]; [empty H0|].
  eapply tells_bind; [eapply name_said_tells; eassumption|]. intros ? name d1 out1 H1 ->.
  cbv beta. match goal with |- tells _ _ _ _ _ _ ?h => rewrite <- (silent_then tt (fun _ => h)) end.
  eapply keeps_tells_bind with (R := anything); [eapply upon_among; eassumption| |].
  { apply silent_keeps. unfold lift. cbn [leaves]. destruct (find_last "." name) as [p|] eqn:Ef; [|eexists; split; [reflexivity|exact I]].
    rewrite substr_first, substr_ok by (apply find_last_lt in Ef; lia). eexists; split; [reflexivity|exact I]. }
  intros [short ns] ? out2 _. cbv beta.
  eapply keeps_tells_bind; [eapply upon_among; eassumption|apply silent_keeps; eapply attest_text_leaves; eassumption|]. intros ? label out3 _.
  apply (skip_tells _ _ _ _ _ _ _ _ _ H1). intros d2 H2.
  eapply keeps_tells_bind; [eapply upon_among; eassumption|eapply list_said_keeps; eassumption|]. intros ? g out4 _.
  apply (skip_tells _ _ _ _ _ _ _ _ _ H2). intros d5 H5. rewrite <- then_then, obind_bind.
  eapply tells_bind; [eapply (described_said_tells (deeper ai)); eauto|]. intros ? fp d6 out6 H6 _.
  rewrite <- (and_then_silent (elements_said _ _)).
  eapply keeps_tells_bind; [eapply upon_among; eassumption| |].
  - eapply (fields_keeps (deeper (deeper ai)) (fun n '(i, acc) => let! t := by_type_said rec (deeper (deeper ai)) in
        ret (S i, acc ++ t ++ (if Nat.ltb i n then "," ++ nl else nl)))
        (fun n => counted (fun i acc t => acc ++ t ++ (if Nat.ltb i n then "," ++ nl else nl))) (fun _ a => ret a) _ (1, "")); eauto; try discriminate.
    + now intros ? [] ?.
    + intros ? ?. rewrite <- bind_ret_r. reflexivity.
  - intros [i fields] ? out7 _. apply end_tells; [exact H6|exact I].
Qed.
Lemma avro_described_keeps ai l t r u out : blank ai -> height t < S limit ->
  keeps (Data (At l t r) u) anything out (avro_described_said file rec ai (Data (At l t r) u, out)) (avro_element_said file inner t).
Proof.
  intros Hai Hh. unfold avro_described_said, avro_element_said. apply enter_keeps. intros d0 H0. framed H0 fs.
  destruct (opened_keeps (fun key => match registered key with None => ub | Some desc => avro_of_said file rec (d_kind desc) ai end)
    (fun s => ai ++ "blob: bytes: " ++ num (symbol_size (fst s)) ++ nl) (avro_parts_said file inner) t fs d0) as (k & Hk); [exact Hh|exact H0| | |].
  - intros key name k l1 bcs r1 u1 out1 Hk Hb. pose proof (codes_registered key) as K. rewrite Hk in K. destruct K as (desc & -> & Hs & _).
    destruct (d_kind desc), k; try contradiction; cbn [avro_of_said];
      first [ apply avro_envelope_keeps | apply avro_schema_keeps | apply avro_fingerprint_keeps | apply avro_property_keeps | apply avro_class_keeps
            | apply Hrec | (apply ret_keeps; exact I) ]; auto; lia.
  - intros key s Hk. pose proof (codes_registered key) as K. rewrite Hk in K. now rewrite K.
  - exists k. eapply keeps_tells_bind; [eapply upon_among; eassumption|now apply DBG_keeps|]. intros ? ? out1 _. apply Hk.
Qed.
End Elements.

Lemma raw_said_keeps tn : forall fuel b ai l t r u out, blank ai -> height t < fuel -> height t < b ->
  keeps (Data (At l t r) u) anything out (readRaw_said file tn fuel ai (Data (At l t r) u, out)) (raw_said file b t).
Proof.
  induction fuel as [|fuel IH]; intros b ai l t r u out Hai Hf Hb; [lia|]. destruct b as [|b]; [lia|]. cbn [readRaw_said raw_said].
  apply (raw_described_keeps _ _ (Nat.min fuel b)); [|exact Hai|lia]. intros ai' l' t' r' u' out' Ha Ht. apply IH; [exact Ha|lia..].
Qed.
Lemma avro_said_keeps : forall fuel b ai l t r u out, blank ai -> height t < fuel -> height t < b ->
  keeps (Data (At l t r) u) anything out (readAvro_said file fuel ai (Data (At l t r) u, out)) (avro_said file b t).
Proof.
  induction fuel as [|fuel IH]; intros b ai l t r u out Hai Hf Hb; [lia|]. destruct b as [|b]; [lia|]. cbn [readAvro_said avro_said].
  apply (avro_described_keeps _ _ (Nat.min fuel b)); [|exact Hai|lia]. intros ai' l' t' r' u' out' Ha Ht. apply IH; [exact Ha|lia..].
Qed.
Definition raw_noise (t : tree) : heard unit := let^ t := silent (described_tree (Some t)) in raw_said file (S (height t)) t.
Definition avro_noise (t : tree) : heard unit := let^ t := silent (described_tree (Some t)) in avro_said file (S (height t)) t.
Lemma dump_keeps tn fuel target l t r u out : height t <= fuel -> 
  keeps (Data (At l t r) u) anything out (dumpSchema_said file tn fuel target (Data (At l t r) u, out))
   (match target with ToRaw => raw_noise t | ToAmqp => done (described_tree (Some t)) | ToAvro => avro_noise t end).
Proof.
  intros Hf. unfold dumpSchema_said, raw_noise, avro_noise, done. cbn [fst]. destruct t as [[] cs]; try (destruct target; unfold keeps; cbn; now rewrite append_nil).
  change (is_described _) with true. cbn [described_tree]. cbv iota. set (t := Node ADescribed cs) in *. rewrite !silent_then.
  destruct target; [apply raw_said_keeps|apply ret_keeps; exact I|apply avro_said_keeps]; try lia; now exists 0.
Qed.
End Files.

(** ** Without the output *)
Section Erased.
Context (file : string -> string) (tn : pn_type -> string).
Notation wf := (file "proton_wrapper.cxx").
Lemma erases_next {A} (m : OM A) m' : erases m m' -> erases (auto_next_said m) (auto_next m').
Proof. intros H d out. now apply erases_finally. Qed.
Lemma erases_while {A} (body : A -> OM A) body' : (forall a, erases (body a) (body' a)) -> forall n acc, erases (while_loop_said n body acc) (while_loop n body' acc).
Proof.
  intros H. induction n as [|n IH]; intros acc d out; cbn [while_loop_said while_loop fst].
  - destruct (pn_next_ok d); [exact I|auto using begins_refl].
  - destruct (pn_next_ok d); [|auto using begins_refl]. apply (erases_bind (body acc) (body' acc)); auto.
Qed.
Lemma erases_while_next {A} (body : A -> OM A) body' acc : (forall a, erases (body a) (body' a)) -> erases (while_next_said body acc) (while_next body' acc).
Proof. intros H d out. now apply erases_while. Qed.
Lemma erases_string b : erases (readAndNext_string_said b) (readAndNext_string b).
Proof. apply erases_cout, erases_silently. Qed.
Lemma erases_twice {A} (m : PM A) : erases (attest_is_list_said wf ;; silently (attest_is_list ;; m))%m (attest_is_list ;; m)%m.
Proof.
  intros d out. pose proof (erases_list wf d out) as L. unfold bind at 1 2. unfold bind in *. destruct (attest_is_list_said wf (d, out)) as [[] [d1 o1]|e [d1 o1]| | |], (attest_is_list d) as [[] d1'|e' d1'| | |] eqn:E; try contradiction; auto.
  destruct L as (_ & -> & L). assert (d1' = d) as -> by (revert E; unfold attest_is_list, require; destruct (is_type _ _); congruence).
  unfold silently. rewrite E. destruct (m d) as [a d2|e d2| | |]; auto.
Qed.
Section Rec.
Context (rec : string -> OM string) (rec' : string -> PM string).
Hypothesis H : forall ai, erases (rec ai) (rec' ai).
Lemma erases_element ai : erases (by_type_said rec ai) (by_type rec' ai).
Proof. intros d out. unfold by_type_said, by_type. cbn [fst]. destruct (pn_dtype d); try exact I. apply H. Qed.
Ltac go := repeat first
  [ apply erases_dbg | apply erases_twice
  | apply erases_bind; [first [apply erases_list | apply erases_string | apply erases_silently | apply erases_next; apply erases_element | apply erases_element | idtac]|intros ?]
  | apply erases_enter | apply erases_list_enter; intros ? | apply erases_while_next; intros ? | apply erases_next | apply erases_element
  | apply erases_ret | apply erases_silently
  | match goal with |- erases (match ?x with (_, _) => _ end) _ => destruct x end ].
Lemma erases_raw_of k ai : erases (raw_of_said file tn rec k ai) (raw_of tn rec' k ai).
Proof.
  destruct k; cbn [raw_of_said raw_of]; try apply H.
  - unfold raw_envelope_said, raw_envelope. go.
  - unfold raw_schema_said, raw_schema. go.
  - apply erases_twice.
  - apply erases_twice.
  - unfold raw_composite_said, raw_composite. go.
  - unfold raw_restricted_said, raw_restricted. go.
Qed.
Lemma erases_avro_of k ai : erases (avro_of_said file rec k ai) (avro_of rec' k ai).
Proof.
  destruct k; cbn [avro_of_said avro_of]; try apply H; try apply erases_silently.
  - unfold avro_envelope_said, avro_envelope. go.
  - unfold avro_schema_said, avro_schema. go. intros d out. destruct (Nat.eqb _ _); auto using begins_refl.
  - apply erases_dbg, erases_twice.
  - apply erases_twice.
  - unfold avro_composite_said, avro_composite. go.
Qed.
Lemma erases_raw_described ai : erases (raw_described_said file tn rec ai) (raw_described tn rec' ai).
Proof.
  unfold raw_described_said, raw_described. apply erases_bind; [|intros ?; apply erases_ret]. apply erases_enter. intros d out. cbn [fst].
  destruct (pn_dtype d); try (repeat split; apply begins_refl).
  match goal with |- context [bind (silently readAndNext_ulong) ?f (d, out)] => match goal with |- context [bind readAndNext_ulong ?g d] =>
    cut (erases (bind (silently readAndNext_ulong) f) (bind readAndNext_ulong g)); [intros X; apply X|] end end.
  apply erases_bind; [apply erases_silently|]. intros key. apply erases_bind; [apply erases_list|]. intros _ d1 out1.
  destruct (registered key) as [desc|]; [|exact I]. cbn [fst].
  apply (erases_bind (raw_of_said file tn rec (d_kind desc) (deeper ai)) (raw_of tn rec' (d_kind desc) (deeper ai))); [apply erases_raw_of|]. intros t. apply erases_ret.
Qed.
Lemma erases_avro_described ai : erases (avro_described_said file rec ai) (avro_described rec' ai).
Proof.
  unfold avro_described_said, avro_described. apply erases_enter, erases_dbg. intros d out. cbn [fst].
  destruct (pn_dtype d); try (repeat split; apply begins_refl).
  match goal with |- context [bind (silently readAndNext_ulong) ?f (d, out)] => match goal with |- context [bind readAndNext_ulong ?g d] =>
    cut (erases (bind (silently readAndNext_ulong) f) (bind readAndNext_ulong g)); [intros X; apply X|] end end.
  apply erases_bind; [apply erases_silently|]. intros key. apply erases_bind; [apply erases_list|]. intros _.
  destruct (registered key) as [desc|]; [|intros d1 out1; exact I]. apply erases_avro_of.
Qed.
End Rec.
Lemma erases_readRaw n : forall ai, erases (readRaw_said file tn n ai) (readRaw tn n ai).
Proof. induction n as [|n IH]; intros ai; [exact erases_fuel|]. now apply erases_raw_described. Qed.
Lemma erases_readAvro n : forall ai, erases (readAvro_said file n ai) (readAvro n ai).
Proof. induction n as [|n IH]; intros ai; [exact erases_fuel|]. now apply erases_avro_described. Qed.
Lemma erases_dumpSchema fuel target : erases (dumpSchema_said file tn fuel target) (dumpSchema tn fuel target).
Proof.
  intros d out. unfold dumpSchema_said, dumpSchema. cbn [fst]. destruct (is_described d); [|auto using begins_refl].
  destruct target; [apply erases_readRaw|auto using begins_refl|apply erases_readAvro].
Qed.
End Erased.

(** ** The shape of the text *)
Section Shape.
Context (file : string -> string).
Definition tidy_heard {A} (h : heard A) : Prop := lines (fst h).
Lemma tidy_then {A B} (h : heard A) (g : A -> heard B) : tidy_heard h -> (forall a, tidy_heard (g a)) -> tidy_heard (and_then h g).
Proof. intros H K. unfold tidy_heard, and_then in *. destruct (snd h) as [a|e| |]; cbn [fst snd]; auto using lines_app. Qed.
Lemma tidy_line s : tidy_heard (line s).
Proof. right. now exists s. Qed.
Lemma tidy_silent {A} (r : fate A) : tidy_heard (silent r).
Proof. now left. Qed.
Lemma tidy_turn {A B} (f : A -> heard B) l : (forall a, tidy_heard (f a)) -> tidy_heard (SpecOutput.in_turn f l).
Proof. intros H. induction l as [|a l IH]; cbn [SpecOutput.in_turn]; [apply tidy_silent|]. apply tidy_then; [apply H|]. intros b. apply tidy_then; [exact IH|]. intros bs. apply tidy_silent. Qed.
Ltac tidies H := repeat first [apply H | apply tidy_silent | apply tidy_line | apply tidy_turn; intros ? | apply tidy_then; [|intros ?]
  | match goal with |- tidy_heard (match ?x with _ => _ end) => destruct x end ].
Lemma tidy_list o : tidy_heard (list_said file o).
Proof. unfold list_said. tidies I. Qed.
Lemma tidy_elements inner ts : (forall t, tidy_heard (inner t)) -> tidy_heard (elements_said inner ts).
Proof. intros H. unfold elements_said, element_said. tidies H. Qed.
Lemma tidy_raw_parts inner k body : (forall t, tidy_heard (inner t)) -> tidy_heard (raw_parts_said file inner k body).
Proof. intros H. unfold raw_parts_said, name_said, name_or_null_said, list_said, elements_said, element_said, done. destruct k; tidies H. Qed.
Lemma tidy_avro_parts inner k body : (forall t, tidy_heard (inner t)) -> tidy_heard (avro_parts_said file inner k body).
Proof. intros H. unfold avro_parts_said, name_said, list_said, elements_said, element_said, done. destruct k; tidies H. Qed.
Lemma tidy_opened parts t : (forall k b, tidy_heard (parts k b)) -> tidy_heard (opened_said file parts t).
Proof. intros H. unfold opened_said, list_said. tidies H. Qed.
Lemma tidy_raw b : forall t, tidy_heard (raw_said file b t).
Proof. induction b as [|b IH]; intros t; [apply tidy_silent|]. apply tidy_opened. intros k body. now apply tidy_raw_parts. Qed.
Lemma tidy_avro b : forall t, tidy_heard (avro_said file b t).
Proof. induction b as [|b IH]; intros t; [apply tidy_silent|]. apply tidy_then; [apply tidy_line|]. intros _. apply tidy_opened. intros k body. now apply tidy_avro_parts. Qed.
Lemma raw_whole_lines t : raw_lines file t = "" \/ ends (raw_lines file t) newline.
Proof. apply (tidy_then (silent (described_tree (Some t)))); [apply tidy_silent|intros; apply tidy_raw]. Qed.
Lemma avro_whole_lines t : avro_lines file t = "" \/ ends (avro_lines file t) newline.
Proof. apply (tidy_then (silent (described_tree (Some t)))); [apply tidy_silent|intros; apply tidy_avro]. Qed.
Lemma line_then {A} (h : heard unit) (g : unit -> heard A) : snd h = Gives tt -> begins (fst (and_then h g)) (fst h).
Proof. intros E. unfold and_then. rewrite E. eexists. reflexivity. Qed.
Lemma avro_begins t : tree_atom t = ADescribed -> begins (avro_lines file t) ("[" ++ file "AMQPDescriptor.cxx" ++ "::136] readAvro::Descriptor" ++ newline).
Proof.
  intros E. unfold avro_lines. destruct t as [a cs]. cbn in E. subst a. cbn [described_tree]. rewrite silent_then. cbn [avro_said]. unfold avro_element_said.
  eapply begins_trans; [apply line_then; reflexivity|]. exists "". rewrite append_nil. unfold from, line. cbn [fst]. now rewrite !append_assoc3.
Qed.
End Shape.
Lemma scan_unquoted s : ~ In "034"%char (list_ascii_of_string s) -> forall k, scan (Out k) s = None \/ exists k', scan (Out k) s = Some (Out k').
Proof.
  induction s as [|c s IH]; intros H k; [right; now exists k|]. cbn [list_ascii_of_string In] in H. cbn [scan]. 
  assert (Hs : step (Out k) c = None \/ exists k', step (Out k) c = Some (Out k')).
  { cbn [step]. destruct (mem c loose_chars); [eauto|]. destruct (Ascii.eqb_spec c "034") as [->|_]; [tauto|].
    destruct (mem c "{["); [eauto|]. destruct (mem c "}]"); [destruct k; eauto|]. destruct (Ascii.eqb c ","); [destruct k; eauto|auto]. }
  destruct Hs as [->|(k' & ->)]; [now left|]. apply IH. tauto.
Qed.
