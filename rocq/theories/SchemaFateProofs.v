(** Dumping the schema ends as SpecSchemaFate.v says. *)
From Coq Require Import Lia.
From Verif Require Import Base Proton ProtonProofs TypeNames SpecTypes TypeNamesProofs SpecNames NamesProofs Schema Descriptors SpecDescriptors DescriptorsProofs Readers
  SchemaDump SpecSchemaDump SchemaDumpProofs RawSchemaProofs SpecAccept AcceptProofs SpecDisplay DisplayProofs SpecReadScript SpecParse ParseProofs SpecFate FateProofs
  SpecSchemaFate.
Import List ListNotations.
Open Scope string_scope.

(** ** Loops *)
Fixpoint turns {A} (f : A -> tree -> fate A) (acc : A) (ts : list tree) : fate A :=
  match ts with [] => Gives acc | t :: ts' => onward (f acc t) (fun a => turns f a ts') end.
Lemma onward_onward {A B C} (r : fate A) (f : A -> fate B) (g : B -> fate C) : onward (onward r f) g = onward r (fun a => onward (f a) g).
Proof. destruct r; reflexivity. Qed.
Lemma onward_same {A B} (r : fate A) (f g : A -> fate B) : (forall a, f a = g a) -> onward r f = onward r g.
Proof. destruct r; cbn; auto. Qed.
Lemma turns_in_turn {B} (f : nat -> tree -> fate B) (show : B -> string) ts : forall i acc,
  turns (fun '(i, acc) t => let% x := f i t in Gives (S i, acc ++ show x)) (i, acc) ts =
  let% xs := in_turn f i ts in Gives (i + length ts, acc ++ String.concat "" (map show xs)).
Proof.
  induction ts as [|t ts IH]; intros i acc; cbn [turns in_turn onward length map].
  - now rewrite Nat.add_0_r, app_nil_r_s.
  - rewrite !onward_onward. apply onward_same. intros x. cbn [onward]. rewrite IH, onward_onward. apply onward_same. intros xs. cbn [onward map].
    rewrite RawSchemaProofs.concat_cons, !app_assoc_s. do 2 f_equal. lia.
Qed.
Lemma turns_texts (w : string -> string) ts : forall acc,
  turns (fun acc t => let% x := text_at (Some t) in Gives (acc ++ w x)) acc ts =
  let% xs := of_ending (each (fun t => text_of (Some t)) ts) in Gives (acc ++ String.concat "" (map w xs)).
Proof.
  induction ts as [|t ts IH]; intros acc; cbn [turns each onward].
  - cbn. now rewrite app_nil_r_s.
  - unfold text_at at 1. destruct (text_of (Some t)) as [x|e|]; cbn [of_ending onward also]; [|reflexivity..].
    rewrite IH. destruct (each _ ts) as [xs|e|]; cbn [of_ending onward also map]; [|reflexivity..]. now rewrite RawSchemaProofs.concat_cons, app_assoc_s.
Qed.
Lemma while_leaves {A} (f : A -> tree -> fate A) (body : A -> PM A) : forall n acc d,
  (forall a l t r u, In t (ahead d) -> leaves (Data (At l t r) u) eq (body a (Data (At l t r) u)) (f a t)) -> length (ahead d) <= n ->
  match turns f acc (ahead d) with
  | Gives a => exists d', while_loop n body acc d = Ok a d' /\ siblings (here d') = siblings (here d) /\ ups d' = ups d
  | Raises e => exists d', while_loop n body acc d = Throw e d' /\ siblings (here d') = siblings (here d) /\ ups d' = ups d
  | Stops => while_loop n body acc d = Abort
  | Wild => while_loop n body acc d = UB
  end.
Proof.
  induction n as [|n IH]; intros acc d Hb Hn.
  - destruct d as [[[|c cs]|l t [|t' r]] u]; cbn [ahead here length] in *; try lia; cbn; eauto.
  - assert (Hstep : forall c d', ahead d = c :: ahead d' -> (exists l r u, d' = Data (At l c r) u) -> pn_next_ok d = true -> pn_next d = d' ->
        siblings (here d') = siblings (here d) -> ups d' = ups d ->
        match turns f acc (ahead d) with
        | Gives a => exists d', while_loop (S n) body acc d = Ok a d' /\ siblings (here d') = siblings (here d) /\ ups d' = ups d
        | Raises e => exists d', while_loop (S n) body acc d = Throw e d' /\ siblings (here d') = siblings (here d) /\ ups d' = ups d
        | Stops => while_loop (S n) body acc d = Abort
        | Wild => while_loop (S n) body acc d = UB
        end).
    { intros c d' Ha (l & r & u & Hd) Hok Hnext Hs Hu. rewrite Ha in Hb, Hn |- *. cbn [turns length] in *. cbn [while_loop]. rewrite Hok, Hnext. unfold bind.
      pose proof (Hb acc l c r u (or_introl eq_refl)) as Hc. rewrite <- Hd in Hc.
      destruct (f acc c) as [a|e| |]; cbn [onward leaves] in Hc |- *; [|rewrite Hc; eauto|now rewrite Hc..].
      destruct Hc as (a' & -> & ->).
      specialize (IH a d' ltac:(intros; apply Hb; cbn; auto) ltac:(lia)). rewrite Hs, Hu in IH. exact IH. }
    destruct d as [[[|c cs]|l t [|t' r]] u].
    + cbn. eauto.
    + apply (Hstep c (Data (At [] c cs) u)); eauto.
    + cbn. eauto.
    + apply (Hstep t' (Data (At (t :: l) t' r) u)); eauto.
Qed.
(** A loop over the children, and what is done with its result. *)
Lemma loop_leaves {A B} (f : A -> tree -> fate A) (body : nat -> A -> PM A) (k : nat -> A -> PM B) (g : A -> B) acc l t r u :
  let n := length (elements t) in
  (forall a l t' r u, In t' (tree_children t) -> leaves (Data (At l t' r) u) eq (body n a (Data (At l t' r) u)) (f a t')) ->
  (forall a d, k n a d = Ok (g a) d) ->
  leaves (Data (At l t r) u) eq (auto_list_enter false (fun n => let! a := while_next (body n) acc in k n a) (Data (At l t r) u))
    (let% a := turns f acc (tree_children t) in Gives (g a)).
Proof.
  intros n Hb Hk. unfold auto_list_enter. replace (pn_get_list (Data (At l t r) u)) with n by (destruct t as [[] cs]; reflexivity).
  clearbody n. destruct t as [a cs]. unfold while_next, finally, bind. cbn [pn_enter here ups].
  pose proof (while_leaves f (body n) (length cs) acc (Data (Before cs) (Frame l a r :: u)) Hb (le_n _)) as H. cbn [ahead here siblings tree_children ups] in H |- *.
  destruct (turns f acc cs) as [x|e| |]; cbn [onward leaves].
  - destruct H as (d' & -> & H1 & H2). rewrite Hk. exists (g x). split; [|reflexivity]. f_equal. unfold pn_exit. now rewrite H2, H1.
  - destruct H as (d' & -> & H1 & H2). f_equal. unfold pn_exit. now rewrite H2, H1.
  - now rewrite H.
  - now rewrite H.
Qed.
Lemma loop_leaves_plain {A} (f : A -> tree -> fate A) (body : nat -> A -> PM A) acc l t r u :
  let n := length (elements t) in
  (forall a l t' r u, In t' (tree_children t) -> leaves (Data (At l t' r) u) eq (body n a (Data (At l t' r) u)) (f a t')) ->
  leaves (Data (At l t r) u) eq (auto_list_enter false (fun n => while_next (body n) acc) (Data (At l t r) u)) (turns f acc (tree_children t)).
Proof.
  intros n Hb. pose proof (loop_leaves (A:=A) (B:=A) f body (fun _ a => @ret data A a) (fun a => a) acc l t r u Hb (fun _ _ => eq_refl)) as H.
  assert (E : (let% a := turns f acc (tree_children t) in Gives a) = turns f acc (tree_children t)) by (destruct (turns f acc (tree_children t)); reflexivity).
  cbv beta in H. rewrite E in H.
  revert H. unfold auto_list_enter, bind, finally. match goal with |- context[while_next ?b acc ?d] => destruct (while_next b acc d) end; auto.
Qed.

(** Numbered elements. *)
Lemma numbered_loop {B C D} (R : string -> B -> Prop) (show : C -> string) (m : PM string) (el : tree -> fate B) (wrap : nat -> nat -> string -> string)
  (g : nat -> B -> C) (k : nat -> nat * string -> PM D) (fin : string -> D) l t r u :
  let n := length (elements t) in
  (forall l t' r u, In t' (tree_children t) -> leaves (Data (At l t' r) u) R (m (Data (At l t' r) u)) (el t')) ->
  (forall i s b, R s b -> wrap n i s = show (g i b)) ->
  (forall i s d, k n (i, s) d = Ok (fin s) d) ->
  leaves (Data (At l t r) u) eq
    (auto_list_enter false (fun n => let! a := while_next (fun '(i, acc) => let! x := m in ret (S i, acc ++ wrap n i x)) (1, "") in k n a) (Data (At l t r) u))
    (let% xs := in_turn (fun i t => let% x := el t in Gives (g i x)) 1 (tree_children t) in Gives (fin (String.concat "" (map show xs)))).
Proof.
  intros n Hm Hw Hk.
  pose proof (loop_leaves (A := nat * string) (fun '(i, acc) t => let% x := (let% x := el t in Gives (g i x)) in Gives (S i, acc ++ show x))
    (fun n '(i, acc) => let! x := m in ret (S i, acc ++ wrap n i x)) k (fun p => fin (snd p)) (1, "") l t r u) as H. cbv zeta in H. fold n in H.
  match type of H with ?P -> ?Q -> _ => assert (HP : P); [|assert (HQ : Q) by (intros [i s] d; apply Hk); specialize (H HP HQ)] end.
  - intros [i acc] l1 t1 r1 u1 Hi. cbv beta zeta iota. rewrite onward_onward.
    eapply leaves_bind; [now apply Hm|]. intros s b Hs. cbn [onward leaves]. eexists. split; [reflexivity|]. now rewrite (Hw i s b Hs).
  - rewrite turns_in_turn, onward_onward in H. exact H.
Qed.
Lemma numbered_loop_plain {B C} (R : string -> B -> Prop) (show : C -> string) (m : PM string) (el : tree -> fate B) (wrap : nat -> nat -> string -> string)
  (g : nat -> B -> C) l t r u :
  let n := length (elements t) in
  (forall l t' r u, In t' (tree_children t) -> leaves (Data (At l t' r) u) R (m (Data (At l t' r) u)) (el t')) ->
  (forall i s b, R s b -> wrap n i s = show (g i b)) ->
  leaves (Data (At l t r) u) (fun p xs => snd p = String.concat "" (map show xs))
    (auto_list_enter false (fun n => while_next (fun '(i, acc) => let! x := m in ret (S i, acc ++ wrap n i x)) (1, "")) (Data (At l t r) u))
    (in_turn (fun i t => let% x := el t in Gives (g i x)) 1 (tree_children t)).
Proof.
  intros n Hm Hw.
  pose proof (loop_leaves_plain (A := nat * string) (fun '(i, acc) t => let% x := (let% x := el t in Gives (g i x)) in Gives (S i, acc ++ show x))
    (fun n '(i, acc) => let! x := m in ret (S i, acc ++ wrap n i x)) (1, "") l t r u) as H. cbv zeta in H. fold n in H.
  match type of H with ?P -> _ => assert (HP : P); [|specialize (H HP)] end.
  - intros [i acc] l1 t1 r1 u1 Hi. cbv beta zeta iota. rewrite onward_onward.
    eapply leaves_bind; [now apply Hm|]. intros s b Hs. cbn [onward leaves]. eexists. split; [reflexivity|]. now rewrite (Hw i s b Hs).
  - rewrite turns_in_turn in H. destruct (in_turn _ 1 (tree_children t)) as [xs|e| |]; cbn [onward leaves] in H |- *; [|exact H..].
    destruct H as (p & -> & ->). eexists. split; reflexivity.
Qed.
(** Texts. *)
Lemma texts_loop {D} (w : string -> string) (k : nat -> string -> PM D) (fin : string -> D) l t r u :
  let n := length (elements t) in
  (forall s d, k n s d = Ok (fin s) d) ->
  leaves (Data (At l t r) u) eq
    (auto_list_enter false (fun n => let! a := while_next (fun acc => let! s := get_string false in ret (acc ++ w s)) "" in k n a) (Data (At l t r) u))
    (let% xs := texts_at (Some t) in Gives (fin (String.concat "" (map w xs)))).
Proof.
  intros n Hk.
  pose proof (loop_leaves (fun acc t => let% x := text_at (Some t) in Gives (acc ++ w x))
    (fun _ acc => let! s := get_string false in ret (acc ++ w s)) k fin "" l t r u) as H. cbv zeta in H. fold n in H.
  match type of H with ?P -> ?Q -> _ => assert (HP : P); [|specialize (H HP Hk)] end.
  - intros acc l1 t1 r1 u1 Hi. destruct t1 as [[] cs]; cbn; eauto.
  - rewrite turns_texts, onward_onward in H. exact H.
Qed.
Lemma texts_loop_plain (w : string -> string) l t r u :
  leaves (Data (At l t r) u) (fun s xs => s = String.concat "" (map w xs))
    (auto_list_enter false (fun _ => while_next (fun acc => let! s := get_string false in ret (acc ++ w s)) "") (Data (At l t r) u))
    (texts_at (Some t)).
Proof.
  pose proof (loop_leaves_plain (fun acc t => let% x := text_at (Some t) in Gives (acc ++ w x))
    (fun _ acc => let! s := get_string false in ret (acc ++ w s)) "" l t r u) as H. cbv zeta in H.
  match type of H with ?P -> _ => assert (HP : P); [|specialize (H HP)] end.
  - intros acc l1 t1 r1 u1 Hi. destruct t1 as [[] cs]; cbn; eauto.
  - rewrite turns_texts in H. unfold texts_at, texts_of. cbn [members]. destruct (of_ending _) as [xs|e| |]; cbn [onward leaves] in H |- *; [|exact H..].
    destruct H as (p & -> & ->). eexists. split; reflexivity.
Qed.

(** ** Parts *)
Lemma upon_at p k u d : upon p k u d -> tree_children p <> [] -> exists l t r, d = Data (At l t r) u /\ part k p = Some t.
Proof. intros [H|[H _]] Hn; [|contradiction]. destruct (on_part _ _ _ _ H) as (l & t & r & E & Hp). eauto. Qed.
Lemma view_leaves {A B} (R : A -> B -> Prop) (m : PM A) (g : option tree -> fate B) p k u d : upon p k u d ->
  (forall l t r u, leaves (Data (At l t r) u) R (m (Data (At l t r) u)) (g (Some t))) ->
  (forall u, leaves (Data (Before []) u) R (m (Data (Before []) u)) (g None)) -> leaves d R (m d) (g (part k p)).
Proof. intros H H1 H2. destruct (upon_cases _ _ _ _ H) as [(l & t & r & -> & ->)|[-> ->]]; auto. Qed.
Lemma text_leaves p k u d : upon p k u d -> leaves d eq (get_string false d) (text_at (part k p)).
Proof. intros H. apply (view_leaves eq (get_string false) text_at _ _ u); auto; [intros ? [[] ?] ? ?|]; cbn; eauto. Qed.
Lemma text_or_null_leaves p k u d : upon p k u d -> leaves d eq (get_string true d) (text_or_null_at (part k p)).
Proof. intros H. apply (view_leaves eq (get_string true) text_or_null_at _ _ u); auto; [intros ? [[] ?] ? ?|]; cbn; eauto. Qed.
Lemma truth_leaves p k u d : upon p k u d -> leaves d eq (get_boolean d) (truth_at (part k p)).
Proof. intros H. apply (view_leaves eq get_boolean truth_at _ _ u); auto; [intros ? [[] ?] ? ?|]; cbn; eauto. Qed.
Lemma symbol_leaves p k u d : upon p k u d -> leaves d eq (get_symbol d) (symbol_at (part k p)).
Proof. intros H. apply (view_leaves eq get_symbol symbol_at _ _ u); auto; [intros ? [[] ?] ? ?|]; cbn; eauto. Qed.
Lemma name_or_null_comes p k u d : upon p k u d -> comes p (S k) u eq (readAndNext_string true d) (name_or_null_at (part k p)).
Proof.
  intros H. unfold readAndNext_string. apply next_leaves; [exact H|].
  destruct (upon_cases _ _ _ _ H) as [(l & [a cs] & r & -> & ->)|[-> ->]]; [|reflexivity]. destruct a; cbn; eauto.
Qed.
Lemma list_leaves p k u d : upon p k u d -> leaves d (fun _ t => part k p = Some t /\ tree_atom t = AList) (attest_is_list d) (a_list (part k p)).
Proof.
  intros H. destruct (upon_cases _ _ _ _ H) as [(l & [a cs] & r & -> & ->)|[-> ->]]; [|reflexivity]. destruct a; cbn; eauto.
Qed.
Lemma attest_text_leaves p k u d : upon p k u d -> leaves d (fun _ _ => True) (attest_is_string true d) (text_or_null_at (part k p)).
Proof. intros H. apply (view_leaves _ (attest_is_string true) text_or_null_at _ _ u); auto; [intros ? [[] ?] ? ?|]; cbn; eauto. Qed.
Lemma no_attest d : attest_is_string false d = Ok tt d.
Proof. unfold attest_is_string. now destruct (negb _). Qed.
Lemma skip_next {A B} p k k' u (R : A -> B -> Prop) (f : unit -> PM A) d r : upon p k u d ->
  (forall d', upon p (S k) u d' -> comes p k' u R (f tt d') r) -> comes p k' u R (bind next_ f d) r.
Proof. intros H K. apply K. now apply upon_next. Qed.
Lemma comes_gives {A B} p k u (R : A -> B -> Prop) d a b : upon p k u d -> R a b -> comes p k u R (Ok a d) (Gives b).
Proof. cbn. eauto. Qed.

(** Codes. *)
Definition same_kind (k : descriptor_kind) (k' : kind) : Prop :=
  match k, k' with
  | KEnvelope, Envelope | KSchema, Schema_ | KObject, Fingerprint | KField, Property | KComposite, Class | KRestricted, Container => True
  | (KDescribed | KChoice | KReferencedObject | KTransformSchema | KTransformElement | KTransformElementKey), Other => True
  | _, _ => False
  end.
Lemma codes_registered key :
  match code_of key with
  | Gives (name, k) => exists desc, registered key = Some desc /\ same_kind (d_kind desc) k /\ describedToString key = name
  | Wild => registered key = None
  | _ => False
  end.
Proof.
  unfold code_of. destruct (find (fun c => N.eqb key (fst c)) codes) as [[c [name k]]|] eqn:E.
  - apply find_some in E as [E1 E2]. apply N.eqb_eq in E2. cbn [fst] in E2. subst c.
    cbn [codes In] in E1. repeat destruct E1 as [E1|E1]; try contradiction; injection E1 as <- <- <-; eexists; (split; [vm_compute; reflexivity|split; [exact I|vm_compute; reflexivity]]).
  - assert (H : forall x, In x codes -> key <> fst x).
    { intros x Hx Hk. pose proof (find_none _ _ E x Hx) as H. cbv beta in H. apply N.eqb_neq in H. contradiction. }
    apply described_unknown.
    + intros n s Hn Hk. assert (Hc : In (vendor n) (map fst codes)).
      { cbn [code_table In] in Hn. cbn [map codes fst In]. repeat destruct Hn as [Hn|Hn]; try contradiction; injection Hn as <- <-; auto 20. }
      apply in_map_iff in Hc as (x & Hx & Hy). apply (H x Hy). congruence.
    + apply (H (22%N, ("UNKNOWN", Other))). cbn. tauto.
Qed.

(** ** The raw form *)
Definition laid (s : string) (ls : list line) : Prop := s = lay ls.
Lemma concat_lay xs : String.concat "" (map lay xs) = lay (List.concat xs).
Proof. induction xs as [|x xs IH]; [reflexivity|]. cbn [map List.concat]. now rewrite RawSchemaProofs.concat_cons, lay_app, IH. Qed.
Lemma leaves_weaken {A B} d (R R' : A -> B -> Prop) o r : (forall a b, R a b -> R' a b) -> leaves d R o r -> leaves d R' o r.
Proof. intros H. destruct r; cbn; auto. intros (a' & ? & ?). eauto. Qed.

Lemma quoted_quote s : SpecSchemaDump.quoted s = quote ++ s ++ quote.
Proof. reflexivity. Qed.
Ltac tidy := unfold laid; cbn [List.concat]; repeat first [rewrite lay_app | rewrite lay_cons | rewrite lay_nil | rewrite margin_ind | rewrite quoted_quote | rewrite app_nil_r_s | rewrite app_assoc_s]; reflexivity.

Lemma attest_get {A B} p k k' u (R : A -> B -> Prop) (f : string -> PM A) d g : upon p k u d ->
  (forall x d', upon p (S k) u d' -> comes p k' u R (f x d') (g x)) ->
  comes p k' u R ((attest_is_string true ;; let! x := auto_next (get_string true) in f x)%m d) (onward (text_or_null_at (part k p)) g).
Proof.
  intros H K. destruct (upon_cases _ _ _ _ H) as [(l & [a cs] & r & -> & ->)|[-> ->]]; [|cbn; eauto using upon_among].
  assert (N := upon_next _ _ _ _ H). destruct a; try (cbn; eauto using upon_among; fail); exact (K _ _ N).
Qed.
Lemma bind_bind {A B C} (a : PM A) (m : PM B) (f : B -> PM C) d : bind a (fun _ => bind m f) d = bind (bind a (fun _ => m)) f d.
Proof. unfold bind. now destruct (a d). Qed.
Lemma bind_in {A B C} (a : PM A) (m : A -> PM B) (f : B -> PM C) d : bind (bind a m) f d = bind a (fun x => bind (m x) f) d.
Proof. unfold bind. now destruct (a d). Qed.
Ltac framed H fs := match type of H with upon _ _ ?f _ => revert H; generalize f; intros fs H end.
Ltac empty H := let E := fresh in destruct (upon_cases _ _ _ _ H) as [(? & ? & ? & -> & E)|[-> E]]; [discriminate E|]; cbn; eauto 10 using upon_among.
Section Raw.
Context (tn : pn_type -> string) (rec : string -> PM string) (inner : nat -> tree -> fate (list line)) (limit : nat).
Hypothesis Hrec : forall n l t r u, height t < limit -> leaves (Data (At l t r) u) laid (rec (ind n) (Data (At l t r) u)) (inner n t).

Lemma element_at n l t r u : height t < limit -> leaves (Data (At l t r) u) laid (by_type rec (ind n) (Data (At l t r) u)) (element (inner n) (Some t)).
Proof. intros H. unfold by_type, pn_dtype. cbn [here]. destruct t as [[] cs]; try reflexivity. cbn [atom_type element]. now apply Hrec. Qed.
Lemma element_leaves n p k u d : height p < S limit -> upon p k u d -> leaves d laid (by_type rec (ind n) d) (element (inner n) (part k p)).
Proof.
  intros Hh H. destruct (upon_cases _ _ _ _ H) as [(l & t & r & -> & E)|[-> ->]]; [|reflexivity]. rewrite E. apply element_at. apply part_height in E. lia.
Qed.

Lemma raw_envelope_leaves n l cs r u : let D := Data (At l (Node AList cs) r) u in height (Node AList cs) < S limit ->
  leaves D laid (SchemaDump.raw_envelope rec (ind n) D) (raw_envelope inner (S n) (Node AList cs)).
Proof.
  intros D Hh. change (SchemaDump.raw_envelope rec (ind n) D) with (auto_enter false (
    let! a := auto_next (by_type rec (ind (S (S n)))) in
    let! b := auto_next (by_type rec (ind (S (S n)))) in
    ret (ind (S n) ++ "1]" ++ nl ++ a ++ ind (S n) ++ "2]" ++ nl ++ b)) D).
  apply enter_leaves. intros d0 H0. exists 2. unfold raw_envelope.
  eapply comes_bind; [eapply next_leaves; [eassumption|]; eapply element_leaves; eassumption|]. intros a ls d1 H1 ->.
  eapply comes_bind; [eapply next_leaves; [eassumption|]; eapply element_leaves; eassumption|]. intros b ls' d2 H2 ->.
  apply comes_gives; [exact H2|]. tidy.
Qed.
Lemma child_height t c : In c (tree_children t) -> height c < height t.
Proof. intros H. apply heights_in in H. destruct t as [a cs]. rewrite height_node. cbn [tree_children] in H. lia. Qed.
Lemma raw_schema_leaves n l cs r u : let D := Data (At l (Node AList cs) r) u in height (Node AList cs) < S limit ->
  leaves D laid (SchemaDump.raw_schema rec (ind n) D) (raw_schema inner (S n) (Node AList cs)).
Proof.
  intros D Hh. unfold SchemaDump.raw_schema. change (deeper (ind n)) with (ind (S n)). change (deeper (ind (S n))) with (ind (S (S n))). change (deeper (ind (S (S n)))) with (ind (S (S (S n)))).
  eapply leaves_bind with (r := Gives tt) (R := eq) (g := fun _ => raw_schema inner (S n) (Node AList cs)); [cbn; eauto|].
  intros _ _ _. unfold raw_schema. cbn [tree_children].
  set (item := fun i t => let% g := a_list (Some t) in let% x := raw_types inner (S n) i g in
    Gives ((S n, count i ++ "/" ++ count (length cs) ++ "] list: entries: " ++ count (length (tree_children g))) :: x)).
  match goal with |- leaves _ _ (auto_list_enter false (fun n => let! a := while_next (@?B n) ?start in @?K n a) _) _ =>
    pose proof (loop_leaves (A := nat * string) (fun '(i, acc) t => let% x := item i t in Gives (S i, acc ++ lay x)) B K snd start l (Node AList cs) r u) as H end.
  cbv zeta in H. match type of H with ?P -> ?Q -> _ => assert (HP : P); [|assert (HQ : Q) by (intros [? ?] ?; reflexivity); specialize (H HP HQ)] end.
  - clear H. intros [i acc] l1 t1 r1 u1 Hi. cbv beta iota. cbn [elements]. unfold item. rewrite onward_onward. cbn [tree_children] in Hi.
    assert (Ht : height t1 < limit) by (apply (child_height (Node AList cs)) in Hi; lia).
    destruct t1 as [[] gs]; try reflexivity. cbn [a_list onward]. unfold raw_types. cbn [tree_children]. rewrite !onward_onward.
    eapply leaves_bind with (r := Gives tt) (R := eq) (g := fun _ => _); [cbn; eauto|]. intros _ _ _.
    eapply leaves_bind with (R := fun s xs => s = " list: entries: " ++ num (length gs) ++ nl ++ lay (List.concat xs)).
    2:{ intros s xs ->. cbn [onward leaves]. eexists. split; [reflexivity|]. do 2 f_equal. tidy. }
    pose proof (numbered_loop laid lay (by_type rec (ind (S (S (S n))))) (fun t => element (inner (S (S (S n)))) (Some t))
      (fun m j x => ind (S (S n)) ++ num i ++ ":" ++ num j ++ "/" ++ num m ++ "] " ++ nl ++ x)
      (fun j x => (S (S n), count i ++ ":" ++ count j ++ "/" ++ count (length gs) ++ "] ") :: x)
      (fun m '(_, text) => ret (" list: entries: " ++ num m ++ nl ++ text))
      (fun text => " list: entries: " ++ num (length gs) ++ nl ++ text) l1 (Node AList gs) r1 u1) as L. cbv zeta in L. cbn [elements tree_children] in L.
    match type of L with ?P -> ?Q -> ?S -> _ => assert (LP : P); [|assert (LQ : Q); [|assert (LS : S) by reflexivity; specialize (L LP LQ LS)]] end.
    + intros l2 t2 r2 u2 H2. apply element_at. apply (child_height (Node AList gs)) in H2. lia.
    + intros j s b ->. tidy.
    + revert L. destruct (in_turn _ 1 gs) as [xs|e| |]; cbn [onward leaves]; try (intros ->; reflexivity); auto.
      intros (a & E & ->). eexists. split; [exact E|]. now rewrite concat_lay.
  - cbn [tree_children] in H. rewrite turns_in_turn, onward_onward in H.
    revert H. destruct (in_turn item 1 cs) as [xs|e| |]; cbn [onward leaves]; try (intros ->; reflexivity); auto.
    intros (a & E & ->). eexists. split; [exact E|]. cbn [snd append]. apply concat_lay.
Qed.

Lemma list_enter_next {A} (m : nat -> PM A) d : auto_list_enter false (fun n => next_ ;; m n)%m d = auto_list_enter true m d.
Proof. reflexivity. Qed.
Lemma chars_list s : chars s = list_ascii_of_string s.
Proof. induction s as [|c s IH]; [reflexivity|]. cbn. now rewrite <- IH. Qed.
Lemma concat_all_list xs : concat_all xs = String.concat "" xs.
Proof. induction xs as [|x xs IH]; [reflexivity|]. rewrite RawSchemaProofs.concat_cons, <- IH. reflexivity. Qed.
Lemma show_node_text l t r u : show_node tn (Data (At l t r) u) = node_text tn t.
Proof.
  destruct t as [a cs]. unfold show_node, node_text, pn_dtype. cbn [here tree_atom tree_children].
  destruct a; try reflexivity.
  - cbn. now destruct b.
  - unfold pn_get_symbol. cbn [cur_atom here]. now rewrite concat_all_list, chars_list.
Qed.
Lemma raw_fingerprint_leaves n l cs r u : let D := Data (At l (Node AList cs) r) u in
  leaves D laid (SchemaDump.raw_object tn (ind n) D) (raw_fingerprint tn (S n) (Node AList cs)).
Proof.
  intros D. unfold SchemaDump.raw_object. change (deeper (ind n)) with (ind (S n)).
  eapply leaves_bind with (r := Gives tt) (R := eq) (g := fun _ => _); [cbn; eauto|]. intros _ _ _.
  rewrite (list_enter_next (fun _ => let! s := auto_next get_symbol in fun d => Ok (ind (S n) ++ "1/2] " ++ s ++ nl ++ ind (S n) ++ "2/2] " ++ show_node tn d ++ nl) d)).
  apply list_enter_leaves. intros d0 H0. exists 1. unfold raw_fingerprint. destruct cs as [|c cs]; [now empty H0|].
  eapply comes_bind; [eapply next_leaves; [eassumption|]; eapply symbol_leaves; eassumption|]. intros s fp d1 H1 ->.
  destruct (upon_at _ _ _ _ H1 ltac:(discriminate)) as (l1 & t1 & r1 & -> & ->). apply comes_gives; [exact H1|]. rewrite show_node_text. tidy.
Qed.
Lemma texts_comes (w : string -> string) p k u d : upon p k u d -> tree_children p <> [] ->
  leaves d (fun s xs => s = String.concat "" (map w xs))
    (auto_list_enter false (fun _ => while_next (fun acc => let! s := get_string false in ret (acc ++ w s)) "") d) (texts_at (part k p)).
Proof. intros H Hn. destruct (upon_at _ _ _ _ H Hn) as (l & t & r & -> & ->). apply texts_loop_plain. Qed.
Lemma lines_texts n xs : String.concat "" (map (fun s => ind n ++ s ++ nl) xs) = lay (map (fun r => (n, r)) xs).
Proof. induction xs as [|x xs IH]; [reflexivity|]. cbn [map]. now rewrite RawSchemaProofs.concat_cons, lay_cons, IH, !app_assoc_s. Qed.
Lemma raw_property_leaves n l cs r u : let D := Data (At l (Node AList cs) r) u in
  leaves D laid (SchemaDump.raw_field (ind n) D) (raw_property (S n) (Node AList cs)).
Proof.
  intros D. unfold SchemaDump.raw_field. change (deeper (ind n)) with (ind (S n)). change (deeper (ind (S n))) with (ind (S (S n))).
  eapply leaves_bind with (r := Gives tt) (R := eq) (g := fun _ => _); [cbn; eauto|]. intros _ _ _.
  apply list_enter_leaves. intros d0 H0. framed H0 fs. exists 7. unfold raw_property. destruct cs as [|c cs]; [now empty H0|].
  eapply comes_bind; [eapply next_leaves; [eassumption|]; eapply text_leaves; eassumption|]. intros ? name d1 H1 ->.
  eapply comes_bind; [eapply next_leaves; [eassumption|]; eapply text_leaves; eassumption|]. intros ? type d2 H2 ->.
  eapply comes_bind with (R := fun s xs => s = lay ((S n, "3/7] List: Requires: elements " ++ count (length (parts_of_list (part 2 (Node AList (c :: cs))))))
    :: map (fun r => (S (S n), r)) xs)).
  { eapply comes_leaves; [eassumption|]. destruct (upon_at _ _ _ _ H2 ltac:(discriminate)) as (l1 & t1 & r1 & -> & ->). cbn [parts_of_list].
    pose proof (texts_loop (fun s => ind (S (S n)) ++ s ++ nl) (fun n0 text => ret (ind (S n) ++ "3/7] List: Requires: elements " ++ num n0 ++ nl ++ text))
      (fun text => ind (S n) ++ "3/7] List: Requires: elements " ++ num (length (elements t1)) ++ nl ++ text) l1 t1 r1 fs (fun _ _ => eq_refl)) as L.
    revert L. destruct (texts_at (Some t1)) as [xs|e| |]; cbn [onward leaves]; [|intros L; apply L..].
    intros (a & E & ->). eexists. split; [exact E|]. rewrite lines_texts, lay_cons, !app_assoc_s. reflexivity. }
  intros ? requires d3 H3 ->. apply (skip_next _ _ _ _ _ _ _ _ H3). intros d4 H4.
  apply (attest_get _ _ _ _ _ _ _ _ H4). intros default d5 H5.
  eapply comes_bind; [eapply next_leaves; [eassumption|]; eapply text_or_null_leaves; eassumption|]. intros ? label d6 H6 ->.
  eapply comes_bind; [eapply next_leaves; [eassumption|]; eapply truth_leaves; eassumption|]. intros ? mandatory d7 H7 ->.
  eapply comes_bind; [eapply next_leaves; [eassumption|]; eapply truth_leaves; eassumption|]. intros ? multiple d8 H8 ->.
  apply comes_gives; [exact H8|]. tidy.
Qed.
Lemma raw_container_leaves n l cs r u : let D := Data (At l (Node AList cs) r) u in height (Node AList cs) < S limit ->
  leaves D laid (SchemaDump.raw_restricted rec (ind n) D) (raw_container inner (S n) (Node AList cs)).
Proof.
  intros D Hh. unfold SchemaDump.raw_restricted. change (deeper (ind n)) with (ind (S n)). change (deeper (ind (S n))) with (ind (S (S n))).
  eapply leaves_bind with (r := Gives tt) (R := eq) (g := fun _ => _); [cbn; eauto|]. intros _ _ _.
  apply enter_leaves. intros d0 H0. framed H0 fs. exists 5. unfold raw_container. destruct cs as [|c cs]; [now empty H0|].
  eapply comes_bind; [eapply name_comes; eassumption|]. intros ? name d1 H1 ->.
  eapply comes_bind; [eapply name_or_null_comes; eassumption|]. intros ? label d2 H2 ->.
  eapply comes_bind; [eapply comes_leaves; [eassumption|]; eapply (texts_comes (fun p => p ++ " ")); [eassumption|discriminate]|]. intros ? provides d3 H3 ->.
  apply (skip_next _ _ _ _ _ _ _ _ H3). intros d4 H4.
  eapply comes_bind; [eapply name_comes; eassumption|]. intros ? source d5 H5 ->.
  eapply comes_bind; [eapply next_leaves; [eassumption|]; eapply element_leaves; eassumption|]. intros ? ls d6 H6 ->.
  apply comes_gives; [exact H6|]. tidy.
Qed.
Lemma described_comes n p k u d : height p < S limit -> upon p k u d ->
  comes p (S k) u laid ((attest_is_described ;; auto_next (by_type rec (ind n)))%m d) (let% t := described_tree (part k p) in inner n t).
Proof.
  intros Hh H. destruct (upon_cases _ _ _ _ H) as [(l & t & r & E & Ep)|[-> ->]]; [|cbn; eauto using upon_among]. rewrite Ep.
  assert (Ht : described_tree (Some t) = Raises RuntimeError /\ attest_is_described d = Throw RuntimeError d \/ described_tree (Some t) = Gives t /\ attest_is_described d = Ok tt d /\ element (inner n) (Some t) = inner n t).
  { rewrite E. destruct t as [[] cs]; cbn; auto. }
  unfold bind. destruct Ht as [[-> ->]|(-> & -> & Ht)]; cbn [onward]; [cbn; eauto using upon_among|].
  rewrite <- Ht, <- Ep. apply next_leaves; [exact H|]. eapply element_leaves; eassumption.
Qed.
Lemma raw_class_leaves n l cs r u : let D := Data (At l (Node AList cs) r) u in height (Node AList cs) < S limit ->
  leaves D laid (SchemaDump.raw_composite rec (ind n) D) (raw_class inner (S n) (Node AList cs)).
Proof.
  intros D Hh. unfold SchemaDump.raw_composite. change (deeper (ind n)) with (ind (S n)). change (deeper (ind (S n))) with (ind (S (S n))). change (deeper (ind (S (S n)))) with (ind (S (S (S n)))).
  eapply leaves_bind with (r := Gives tt) (R := eq) (g := fun _ => _); [cbn; eauto|]. intros _ _ _.
  apply enter_leaves. intros d0 H0. framed H0 fs. exists 4. unfold raw_class. destruct cs as [|c cs]; [now empty H0|].
  unfold bind at 1. rewrite no_attest.
  eapply comes_bind; [eapply name_comes; eassumption|]. intros ? name d1 H1 ->.
  unfold bind at 1. rewrite no_attest.
  eapply comes_bind; [eapply name_or_null_comes; eassumption|]. intros ? label d2 H2 ->.
  eapply comes_bind; [eapply comes_leaves; [eassumption|]; eapply list_leaves; eassumption|]. intros ? g d3 H3 [<- _].
  eapply comes_bind; [eapply comes_leaves; [eassumption|]; eapply (texts_comes (fun p => ind (S n) ++ p ++ " ")); [eassumption|discriminate]|]. intros ? provides d4 H4 ->.
  apply (skip_next _ _ _ _ _ _ _ _ H4). intros d5 H5. rewrite bind_bind.
  eapply comes_bind; [eapply described_comes; eassumption|]. intros ? fp d6 H6 ->.
  eapply comes_bind.
  { eapply comes_leaves; [eassumption|]. destruct (upon_at _ _ _ _ H6 ltac:(discriminate)) as (l1 & t1 & r1 & -> & E). rewrite E. cbn [members parts_of_list].
    apply (numbered_loop_plain laid lay (by_type rec (ind (S (S (S n))))) (fun t => element (inner (S (S (S n)))) (Some t))
      (fun m j x => ind (S (S n)) ++ num j ++ "/" ++ num m ++ "]" ++ nl ++ x)
      (fun j x => (S (S n), count j ++ "/" ++ count (length (elements t1)) ++ "]") :: x)).
    - intros l2 t2 r2 u2 Hi. apply element_at. apply child_height in Hi. apply part_height in E. lia.
    - intros i s b ->. tidy. }
  intros [i fields] properties d7 H7 Hf. cbn [snd] in Hf. subst fields. rewrite concat_lay.
  apply comes_gives; [exact H7|]. unfold laid. replace (map (fun p => margin (S n) ++ p ++ " ") provides) with (map (fun p => ind (S n) ++ p ++ " ") provides)
    by (apply map_ext; intros; now rewrite margin_ind). generalize (String.concat "" (map (fun p => ind (S n) ++ p ++ " ") provides)). intros ps. tidy.
Qed.

Lemma raw_described_leaves n l t r u : height t < S limit ->
  leaves (Data (At l t r) u) laid (raw_described tn rec (ind n) (Data (At l t r) u)) (raw_element tn inner n t).
Proof.
  intros Hh. unfold raw_described, raw_element. change (deeper (ind n)) with (ind (S n)).
  set (lines := fun d => match d with
    | ByCode key name k body =>
        let% parts := raw_parts tn inner k (S n) body in
        Gives ((S n, "key  : " ++ decimal (Z.of_N key) ++ " :: " ++ decimal (Z.of_N (key mod 2 ^ 32)) ++ " -> " ++ name) ::
               (S n, "list : entries: " ++ count (length (tree_children body))) :: parts)
    | BySymbol s => Gives [(S n, "blob: bytes: " ++ count (String.length s))]
    end).
  replace (let% d := opened t in _) with (let% ls := (let% d := opened t in lines d) in Gives ((n, "DESCRIBED: ") :: ls)).
  2:{ rewrite onward_onward. apply onward_same. intros [key name k body|s]; cbn [lines]; [rewrite onward_onward|]; reflexivity. }
  eapply leaves_bind with (R := laid). 2:{ intros s ls ->. cbn [onward leaves]. eexists. split; [reflexivity|]. unfold laid. now rewrite lay_cons. }
  apply enter_leaves. intros d0 H0. framed H0 fs. unfold opened.
  destruct (upon_cases _ _ _ _ H0) as [(l0 & t0 & r0 & E0 & E)|[-> ->]]; [|exists 0; cbn; eauto using upon_among]. rewrite E.
  destruct t0 as [a cs0]. assert (Ed : pn_dtype d0 = atom_type a) by (rewrite E0; reflexivity). rewrite Ed.
  destruct a; cbn [atom_type]; try (exists 0, d0; eauto using upon_among; fail).
  - (* a number *) exists 1. rewrite onward_onward. eapply comes_bind with (r := Gives n0) (k := 1) (R := eq) (g := fun key => onward (a_list (part 1 t))
      (fun body => onward (let% (name, k) := code_of key in Gives (ByCode key name k body)) lines)).
    { cbn [comes]. exists n0, (pn_next d0). split; [|split; [now apply upon_next|reflexivity]]. rewrite E0. reflexivity. }
    intros ? key d1 H1 ->. eapply comes_bind; [eapply comes_leaves; [eassumption|]; eapply list_leaves; eassumption|]. intros ? body d2 H2 [Eb Ab].
    pose proof (codes_registered key) as K. destruct (upon_cases _ _ _ _ H2) as [(l2 & t2 & r2 & E2 & E2')|[_ E2']]; [|congruence].
    assert (t2 = body) as -> by congruence. destruct body as [ba bcs]. cbn [tree_atom] in Ab. subst ba.
    destruct (code_of key) as [[name k]|e| |]; [|contradiction..|rewrite K; reflexivity]. destruct K as (desc & -> & Hk & Hn). cbn [onward lines]. rewrite Hn.
    apply (comes_leaves _ _ _ _ _ _ _ H2). rewrite E2.
    eapply leaves_bind with (R := laid).
    + assert (Hb : height (Node AList bcs) < limit) by (apply part_height in Eb; lia).
      destruct (d_kind desc), k; try contradiction; cbn [raw_of raw_parts];
        first [ apply raw_envelope_leaves | apply raw_schema_leaves | apply raw_fingerprint_leaves | apply raw_property_leaves | apply raw_class_leaves
              | apply raw_container_leaves | apply Hrec ]; lia.
    + intros s ls ->. cbn [leaves]. eexists. split; [reflexivity|]. rewrite stripCorda_mod. cbn [pn_get_list here tree_children]. tidy.
  - (* a symbol *) exists 0. cbn [onward lines comes]. eexists _, d0. split; [reflexivity|]. split; [exact H0|]. unfold symbol_size. rewrite E0. cbn [pn_get_symbol cur_atom here]. tidy.
Qed.
End Raw.

Lemma raw_leaves tn : forall fuel b n l t r u, height t < fuel -> height t < b ->
  leaves (Data (At l t r) u) laid (readRaw tn fuel (ind n) (Data (At l t r) u)) (raw tn b n t).
Proof.
  induction fuel as [|fuel IH]; intros b n l t r u Hf Hb; [lia|]. destruct b as [|b]; [lia|]. cbn [readRaw raw].
  apply (raw_described_leaves tn _ _ (Nat.min fuel b)); [|lia]. intros m l' t' r' u' Ht. apply IH; lia.
Qed.

(** ** The Avro form *)
Lemma before_last_spec c s : before_last c s = option_map (fun n => substring 0 n s) (find_last c s).
Proof.
  induction s as [|d s IH]; [reflexivity|]. cbn [before_last find_last]. rewrite IH. destruct (find_last c s) as [n|]; cbn [option_map]; [reflexivity|].
  now destruct (Ascii.eqb c d).
Qed.
Lemma substring_more : forall s i m m', String.length s <= i + m -> String.length s <= i + m' -> substring i m s = substring i m' s.
Proof.
  induction s as [|c s IH]; intros i m m' H1 H2; [destruct i, m, m'; reflexivity|]. cbn [String.length] in *.
  destruct i as [|i]; cbn [substring]; [|apply IH; lia]. destruct m as [|m], m' as [|m']; try (cbn in *; lia). f_equal. apply IH; lia.
Qed.
Lemma after_last_spec c s : after_last c s = option_map (fun n => substring (S n) (String.length s) s) (find_last c s).
Proof.
  induction s as [|d s IH]; [reflexivity|]. cbn [after_last find_last]. rewrite IH. destruct (find_last c s) as [n|] eqn:E; cbn [option_map].
  - f_equal. cbn [String.length]. change (substring (S (S n)) (S (String.length s)) (String d s)) with (substring (S n) (S (String.length s)) s). apply substring_more; lia.
  - destruct (Ascii.eqb c d); [|reflexivity]. cbn [option_map String.length]. f_equal. change (substring 1 (S (String.length s)) (String d s)) with (substring 0 (S (String.length s)) s).
    rewrite (substring_more s 0 (S (String.length s)) (String.length s)) by lia. now rewrite substring_all.
Qed.

Definition settles {A} (m : res A) (r : fate A) : Prop :=
  match r with Gives x => m = Ret x | Raises e => m = Exc e | Stops => False | Wild => m = Undef end.
Lemma container_settles s : settles (isContainer s) (container_name s).
Proof.
  unfold container_name, isContainer. rewrite container_name_is. destruct (array_cases s) as [[-> ->]|[-> ->]]; reflexivity.
Qed.
Lemma infer_text : forall f b n t rq, let ty := if String.eqb t "*" then rq else t in String.length ty < f -> String.length ty < b ->
  settles (infer f t rq (ind n)) (type_text b n ty).
Proof.
  induction f as [|f IH]; intros b n t rq ty Hf Hb; [lia|]. destruct b as [|b]; [lia|]. cbn [infer type_text].
  fold ty. clearbody ty. clear t. change (deeper (ind n)) with (ind (S n)).
  assert (Inner : forall e, String.length e < String.length ty -> container_name e = Gives true -> settles (infer f e rq (ind (S n))) (type_text b (S n) e)).
  { intros e He Hc. pose proof (IH b (S n) e rq) as I. cbv zeta in I. destruct (String.eqb_spec e "*") as [->|_]; [discriminate Hc|]. apply I; lia. }
  destruct (array_cases ty) as [[Ha Hu]|[Hu Ha]]; rewrite Hu, Ha; cbn [rbind]; [reflexivity|].
  destruct (array_name ty).
  - destruct (find_last_array ty Ha) as (p & Hp & Hlt). rewrite before_last_spec, Hp, substr_first. cbn [rbind option_map].
    assert (He : String.length (substring 0 p ty) < String.length ty) by (pose proof (substring_length_le ty 0 p); lia).
    revert He. generalize (substring 0 p ty). intros e He. pose proof (container_settles e) as C. specialize (Inner e He).
    destruct (container_name e) as [[]|x| |]; cbn [settles] in C; try contradiction; rewrite C; cbn [rbind onward settles]; try reflexivity.
    + specialize (Inner eq_refl). destruct (type_text b (S n) e) as [x|x| |]; cbn [settles] in Inner; try contradiction; rewrite Inner; cbn [rbind onward settles]; try reflexivity.
      f_equal. unfold entry. tidy.
    + f_equal. unfold entry. tidy.
  - rewrite list_name_is, map_name_is. destruct (isList ty) eqn:EL.
    + destruct (listType_cases ty) as (a & e & E & He). rewrite E. rewrite list_parts_right in E. assert (E' : list_parts ty = (a, e)) by congruence. rewrite E'. cbn [rbind snd].
      assert (He' : String.length e < String.length ty) by (apply He; intros ->; discriminate EL). clear He. pose proof (container_settles e) as C. specialize (Inner e He').
      destruct (container_name e) as [[]|x| |]; cbn [settles] in C; try contradiction; rewrite C; cbn [rbind onward settles]; try reflexivity.
      * specialize (Inner eq_refl). destruct (type_text b (S n) e) as [x|x| |]; cbn [settles] in Inner; try contradiction; rewrite Inner; cbn [rbind onward settles]; try reflexivity.
        f_equal. unfold entry. tidy.
      * f_equal. unfold entry. tidy.
    + destruct (isMap ty).
      * rewrite apart_map. destruct (mapType_cases ty) as [(a & k & v & -> & _ & He')| ->]; cbn [rbind result_of of_ending onward]; [|reflexivity].
        pose proof (container_settles v) as C. specialize (Inner v He').
        destruct (container_name v) as [[]|x| |]; cbn [settles] in C; try contradiction; rewrite C; cbn [rbind onward settles]; try reflexivity.
        -- specialize (Inner eq_refl). destruct (type_text b (S n) v) as [x|x| |]; cbn [settles] in Inner; try contradiction; rewrite Inner; cbn [rbind onward settles]; try reflexivity.
           f_equal. unfold entry. tidy.
        -- f_equal. unfold entry. tidy.
      * cbn [settles]. f_equal. unfold entry. tidy.
Qed.
Lemma inferred n t rq : let ty := if String.eqb t "*" then rq else t in settles (inferType t rq (ind n)) (type_of n ty).
Proof.
  intros ty. unfold inferType, type_of. apply infer_text; fold ty; [|lia]. unfold ty. destruct (String.eqb t "*"); lia.
Qed.
Lemma lift_leaves {A} (m : res A) r d : settles m r -> leaves d eq (lift m d) r.
Proof. unfold lift. destruct r; cbn; intros H; try contradiction; rewrite H; eauto. Qed.

Section Avro.
Context (rec : string -> PM string) (inner : nat -> tree -> fate string) (limit : nat).
Hypothesis Hrec : forall n l t r u, height t < limit -> leaves (Data (At l t r) u) eq (rec (ind n) (Data (At l t r) u)) (inner n t).

Lemma avro_at n l t r u : height t < limit -> leaves (Data (At l t r) u) eq (by_type rec (ind n) (Data (At l t r) u)) (element (inner n) (Some t)).
Proof. intros H. unfold by_type, pn_dtype. cbn [here]. destruct t as [[] cs]; try reflexivity. cbn [atom_type element]. now apply Hrec. Qed.
Lemma avro_leaves n p k u d : height p < S limit -> upon p k u d -> leaves d eq (by_type rec (ind n) d) (element (inner n) (part k p)).
Proof.
  intros Hh H. destruct (upon_cases _ _ _ _ H) as [(l & t & r & -> & E)|[-> ->]]; [|reflexivity]. rewrite E. apply avro_at. apply part_height in E. lia.
Qed.
Lemma avro_described_comes n p k u d : height p < S limit -> upon p k u d ->
  comes p (S k) u eq ((attest_is_described ;; auto_next (by_type rec (ind n)))%m d) (let% t := described_tree (part k p) in inner n t).
Proof.
  intros Hh H. destruct (upon_cases _ _ _ _ H) as [(l & t & r & E & Ep)|[-> ->]]; [|cbn; eauto using upon_among]. rewrite Ep.
  assert (Ht : described_tree (Some t) = Raises RuntimeError /\ attest_is_described d = Throw RuntimeError d \/ described_tree (Some t) = Gives t /\ attest_is_described d = Ok tt d /\ element (inner n) (Some t) = inner n t).
  { rewrite E. destruct t as [[] cs]; cbn; auto. }
  unfold bind. destruct Ht as [[-> ->]|(-> & -> & Ht)]; cbn [onward]; [cbn; eauto using upon_among|].
  rewrite <- Ht, <- Ep. apply next_leaves; [exact H|]. eapply avro_leaves; eassumption.
Qed.

Lemma avro_envelope_leaves n l cs r u : let D := Data (At l (Node AList cs) r) u in height (Node AList cs) < S limit ->
  leaves D eq (SchemaDump.avro_envelope rec (ind n) D) (element (inner n) (part 1 (Node AList cs))).
Proof.
  intros D Hh. unfold SchemaDump.avro_envelope. eapply leaves_bind with (r := Gives tt) (R := eq) (g := fun _ => _); [cbn; eauto|]. intros _ _ _.
  apply enter_next_leaves. intros d0 H0. exists 2. apply next_leaves; [exact H0|]. eapply avro_leaves; eassumption.
Qed.
Lemma avro_fingerprint_leaves n l cs r u : let D := Data (At l (Node AList cs) r) u in
  leaves D eq (SchemaDump.avro_object (ind n) D) (avro_fingerprint n (Node AList cs)).
Proof.
  intros D. unfold SchemaDump.avro_object. eapply leaves_bind with (r := Gives tt) (R := eq) (g := fun _ => _); [cbn; eauto|]. intros _ _ _.
  rewrite (list_enter_next (fun _ => let! s := auto_next get_symbol in ret (ind n ++ quote ++ "aliases" ++ quote ++ " : [ " ++ quote ++ s ++ quote ++ " ]," ++ nl))).
  apply list_enter_leaves. intros d0 H0. exists 1. unfold avro_fingerprint.
  eapply comes_bind; [eapply next_leaves; [eassumption|]; eapply symbol_leaves; eassumption|]. intros s fp d1 H1 ->.
  apply comes_gives; [exact H1|]. unfold entry. tidy.
Qed.
Lemma avro_property_leaves n l cs r u : let D := Data (At l (Node AList cs) r) u in
  leaves D eq (SchemaDump.avro_field (ind n) D) (avro_property n (Node AList cs)).
Proof.
  intros D. unfold SchemaDump.avro_field, avro_type. change (deeper (ind n)) with (ind (S n)).
  eapply leaves_bind with (r := Gives tt) (R := eq) (g := fun _ => _); [cbn; eauto|]. intros _ _ _.
  apply list_enter_leaves. intros d0 H0. framed H0 fs. exists 2. unfold avro_property. destruct cs as [|c cs]; [now empty H0|].
  eapply comes_bind; [eapply next_leaves; [eassumption|]; eapply text_leaves; eassumption|]. intros ? name d1 H1 ->.
  rewrite bind_in. eapply comes_bind; [eapply next_leaves; [eassumption|]; eapply text_leaves; eassumption|]. intros ? type d2 H2 ->.
  rewrite <- onward_onward.
  eapply comes_bind with (R := eq).
  2:{ intros x ? d3 H3 ->. apply comes_gives; [exact H3|]. unfold entry. tidy. }
  eapply comes_leaves; [eassumption|]. destruct (upon_at _ _ _ _ H2 ltac:(discriminate)) as (l2 & t2 & r2 & -> & ->). cbn [parts_of_list].
  apply list_enter_leaves. intros d3 H3. exists 0. destruct (elements t2) as [|e es] eqn:E.
  - cbn [length Nat.ltb Nat.leb onward]. eapply comes_leaves; [eassumption|]. apply lift_leaves, inferred.
  - cbn [length Nat.ltb Nat.leb]. eapply comes_bind with (R := eq).
    + eapply comes_leaves; [eassumption|]. replace (Some e) with (part 0 t2); [now eapply text_leaves; eassumption|]. destruct t2 as [[] ts]; try discriminate E. cbn in E. now subst ts.
    + intros ? required d4 H4 ->. eapply comes_leaves; [eassumption|]. apply lift_leaves, inferred.
Qed.
Lemma avro_schema_leaves n l cs r u : let D := Data (At l (Node AList cs) r) u in height (Node AList cs) < S limit ->
  leaves D eq (SchemaDump.avro_schema rec (ind n) D) (avro_schema inner n (Node AList cs)).
Proof.
  intros D Hh. unfold SchemaDump.avro_schema. eapply leaves_bind with (r := Gives tt) (R := eq) (g := fun _ => _); [cbn; eauto|]. intros _ _ _.
  apply list_enter_leaves. intros d0 H0. framed H0 fs. exists 0. unfold avro_schema. cbn [tree_children elements].
  destruct cs as [|g [|g' cs]]; [reflexivity| |reflexivity]. cbn [length]. unfold bind at 1. cbn [Nat.eqb].
  eapply comes_leaves; [eassumption|]. destruct (upon_at _ _ _ _ H0 ltac:(discriminate)) as (l1 & t1 & r1 & -> & E). cbn in E. injection E as <-.
  cbn [element] in *. match goal with |- context [in_turn ?f 1 (tree_children g)] => pose proof (numbered_loop eq (fun s => s) (by_type rec (ind n)) (fun t => element (inner n) (Some t))
      (fun m j x => x ++ (if String.eqb x "" then "" else (if Nat.ltb j m then "," else "") ++ nl))
      (fun j x => if String.eqb x "" then "" else x ++ (if Nat.ltb j (length (elements g)) then "," else "") ++ newline)
      (fun m '(_, text) => ret text) (fun text => text) l1 g r1 fs) as L end.
  cbv zeta in L. match type of L with ?P -> ?Q -> ?S -> _ => assert (LP : P); [|assert (LQ : Q); [|assert (LS : S) by reflexivity; specialize (L LP LQ LS)]] end.
  - intros l2 t2 r2 u2 H2. apply avro_at. apply child_height in H2. assert (height g < height (Node AList [g])) by (apply child_height; now left). lia.
  - intros i s b ->. destruct (String.eqb_spec b "") as [->|_]; [reflexivity|]. tidy.
  - revert L. destruct (in_turn _ 1 (tree_children g)) as [xs|e| |]; cbn [onward leaves]; auto. now rewrite map_id.
Qed.
Lemma avro_class_leaves n l cs r u : let D := Data (At l (Node AList cs) r) u in height (Node AList cs) < S limit ->
  leaves D eq (SchemaDump.avro_composite rec (ind n) D) (avro_class inner n (Node AList cs)).
Proof.
  intros D Hh. unfold SchemaDump.avro_composite. change (deeper (ind n)) with (ind (S n)). change (deeper (ind (S n))) with (ind (S (S n))).
  eapply leaves_bind with (r := Gives tt) (R := eq) (g := fun _ => _); [cbn; eauto|]. intros _ _ _.
  apply enter_leaves. intros d0 H0. framed H0 fs. exists 4. unfold avro_class. destruct cs as [|c cs]; [now empty H0|].
  unfold bind at 1. rewrite no_attest.
  eapply comes_bind; [eapply name_comes; eassumption|]. intros ? name d1 H1 ->.
  rewrite after_last_spec, before_last_spec.
  set (short_name := match option_map _ _ with Some s => s | None => name end). set (package := match option_map (fun n => substring 0 n name) _ with Some s => s | None => name end).
  eapply comes_bind with (r := Gives (short_name, package)) (R := fun a b => a = b /\ b = (short_name, package)) (g := fun _ => _).
  { eapply comes_leaves; [eassumption|]. unfold short_name, package, lift. destruct (find_last "." name) as [p|] eqn:Ef; cbn [option_map]; [|cbn; eauto].
    rewrite substr_first, substr_ok by (apply find_last_lt in Ef; lia). rewrite Nat.add_1_r. cbn [rbind leaves]. eauto. }
  intros [short ns] ? d2 H2 [<- [= -> ->]].
  eapply comes_bind; [eapply comes_leaves; [eassumption|]; eapply attest_text_leaves; eassumption|]. intros ? label d3 H3 _.
  apply (skip_next _ _ _ _ _ _ _ _ H3). intros d4 H4.
  eapply comes_bind; [eapply comes_leaves; [eassumption|]; eapply list_leaves; eassumption|]. intros ? g d5 H5 _.
  apply (skip_next _ _ _ _ _ _ _ _ H5). intros d6 H6. rewrite bind_bind.
  eapply comes_bind; [eapply avro_described_comes; eassumption|]. intros ? alias d7 H7 ->.
  eapply comes_bind.
  { eapply comes_leaves; [eassumption|]. destruct (upon_at _ _ _ _ H7 ltac:(discriminate)) as (l1 & t1 & r1 & -> & E). rewrite E. cbn [members parts_of_list].
    apply (numbered_loop_plain eq (fun s => s) (by_type rec (ind (S (S n)))) (fun t => element (inner (S (S n))) (Some t))
      (fun m j x => x ++ (if Nat.ltb j m then "," ++ nl else nl))
      (fun j x => x ++ (if Nat.ltb j (length (elements t1)) then "," else "") ++ newline)).
    - intros l2 t2 r2 u2 Hi. apply avro_at. apply child_height in Hi. apply part_height in E. lia.
    - intros i s b ->. destruct (Nat.ltb i _); tidy. }
  intros [i fields] properties d8 H8 Hf. cbn [snd] in Hf. subst fields. rewrite map_id.
  apply comes_gives; [exact H8|]. unfold entry. fold short_name package. tidy.
Qed.
Lemma avro_described_leaves n l t r u : height t < S limit ->
  leaves (Data (At l t r) u) eq (avro_described rec (ind n) (Data (At l t r) u)) (avro_element inner n t).
Proof.
  intros Hh. unfold avro_described, avro_element.
  set (lines := fun d => match d with
    | ByCode key name k body => avro_parts inner k n body
    | BySymbol s => Gives (margin n ++ "blob: bytes: " ++ count (String.length s) ++ newline)
    end).
  apply enter_leaves. intros d0 H0. framed H0 fs. unfold opened.
  destruct (upon_cases _ _ _ _ H0) as [(l0 & t0 & r0 & E0 & E)|[-> ->]]; [|exists 0; cbn; eauto using upon_among]. rewrite E.
  destruct t0 as [a cs0]. assert (Ed : pn_dtype d0 = atom_type a) by (rewrite E0; reflexivity). rewrite Ed.
  destruct a; cbn [atom_type]; try (exists 0, d0; eauto using upon_among; fail).
  - (* a number *) exists 1. rewrite onward_onward. eapply comes_bind with (r := Gives n0) (k := 1) (R := eq) (g := fun key => onward (a_list (part 1 t))
      (fun body => onward (let% (name, k) := code_of key in Gives (ByCode key name k body)) lines)).
    { cbn [comes]. exists n0, (pn_next d0). split; [|split; [now apply upon_next|reflexivity]]. rewrite E0. reflexivity. }
    intros ? key d1 H1 ->. eapply comes_bind; [eapply comes_leaves; [eassumption|]; eapply list_leaves; eassumption|]. intros ? body d2 H2 [Eb Ab].
    pose proof (codes_registered key) as K. destruct (upon_cases _ _ _ _ H2) as [(l2 & t2 & r2 & E2 & E2')|[_ E2']]; [|congruence].
    assert (t2 = body) as -> by congruence. destruct body as [ba bcs]. cbn [tree_atom] in Ab. subst ba.
    destruct (code_of key) as [[name k]|e| |]; [|contradiction..|rewrite K; reflexivity]. destruct K as (desc & -> & Hk & Hn). cbn [onward lines].
    apply (comes_leaves _ _ _ _ _ _ _ H2). rewrite E2.
    assert (Hb : height (Node AList bcs) < limit) by (apply part_height in Eb; lia).
    destruct (d_kind desc), k; try contradiction; cbn [avro_of avro_parts];
      first [ apply avro_envelope_leaves | apply avro_schema_leaves | apply avro_fingerprint_leaves | apply avro_property_leaves | apply avro_class_leaves
              | apply Hrec | (eexists; split; reflexivity) ]; lia.
  - (* a symbol *) exists 0. cbn [onward lines comes]. eexists _, d0. split; [reflexivity|]. split; [exact H0|]. unfold symbol_size. rewrite E0. cbn [pn_get_symbol cur_atom here]. tidy.
Qed.
End Avro.

Lemma avro_reads : forall fuel b n l t r u, height t < fuel -> height t < b ->
  leaves (Data (At l t r) u) eq (readAvro fuel (ind n) (Data (At l t r) u)) (avro b n t).
Proof.
  induction fuel as [|fuel IH]; intros b n l t r u Hf Hb; [lia|]. destruct b as [|b]; [lia|]. cbn [readAvro avro].
  apply (avro_described_leaves _ _ (Nat.min fuel b)); [|lia]. intros m l' t' r' u' Ht. apply IH; lia.
Qed.

(** ** What can happen *)
Definition within {A} (E : exn -> Prop) (S W : Prop) (r : fate A) : Prop :=
  match r with Gives _ => True | Raises e => E e | Stops => S | Wild => W end.
Lemma within_bind {A B} E S W (r : fate A) (f : A -> fate B) : within E S W r -> (forall x, r = Gives x -> within E S W (f x)) -> within E S W (onward r f).
Proof. destruct r; cbn; auto. Qed.
Lemma within_more {A} (E E' : exn -> Prop) (S S' W W' : Prop) (r : fate A) : within E S W r -> (forall e, E e -> E' e) -> (S -> S') -> (W -> W') -> within E' S' W' r.
Proof. destruct r; cbn; auto. Qed.
Lemma within_turn {A} E S W (f : nat -> tree -> fate A) : forall ts i, (forall j t, In t ts -> within E S W (f j t)) -> within E S W (in_turn f i ts).
Proof.
  induction ts as [|t ts IH]; intros i H; [exact I|]. cbn [in_turn]. apply within_bind; [apply H; now left|]. intros x _.
  apply within_bind; [apply IH; intros; apply H; now right|]. intros; exact I.
Qed.
Section Plain.
Context (E : exn -> Prop) (S W : Prop) (HE : E RuntimeError).
Lemma text_within o : within E S W (text_at o).
Proof. destruct o as [[[] ?]|]; cbn; auto. Qed.
Lemma text_or_null_within o : within E S W (text_or_null_at o).
Proof. destruct o as [[[] ?]|]; cbn; auto. Qed.
Lemma symbol_within o : within E S W (symbol_at o).
Proof. destruct o as [[[] ?]|]; cbn; auto. Qed.
Lemma name_within o : within E S W (name_at o).
Proof. destruct o as [[[] ?]|]; cbn; auto. Qed.
Lemma name_or_null_within o : within E S W (name_or_null_at o).
Proof. destruct o as [[[] ?]|]; cbn; auto. Qed.
Lemma truth_within o : within E S W (truth_at o).
Proof. destruct o as [[[] ?]|]; cbn; auto. Qed.
Lemma list_within o : within E S W (a_list o).
Proof. destruct o as [[[] ?]|]; cbn; auto. Qed.
Lemma described_within o : within E S W (described_tree o).
Proof. destruct o as [[[] ?]|]; cbn; auto. Qed.
Lemma texts_within o : within E S W (texts_at o).
Proof.
  unfold texts_at, texts_of. induction (members o) as [|t ts IH]; [exact I|]. cbn [each].
  destruct t as [[] ?]; cbn [text_of also of_ending within]; auto. destruct (each _ ts); cbn [also of_ending within] in *; auto.
Qed.
End Plain.
Lemma described_is o t : described_tree o = Gives t -> o = Some t.
Proof. destruct o as [[[] ?]|]; cbn; congruence. Qed.
Lemma list_is o t : a_list o = Gives t -> o = Some t.
Proof. destruct o as [[[] ?]|]; cbn; congruence. Qed.
Lemma opened_body t key name k body : opened t = Gives (ByCode key name k body) -> part 1 t = Some body.
Proof.
  unfold opened. destruct (part 0 t) as [[[] ?]|]; try discriminate. destruct (a_list (part 1 t)) as [b|e| |] eqn:Hb; try discriminate. apply list_is in Hb.
  cbn [onward]. destruct (code_of _) as [[? ?]|e| |]; cbn [onward]; try discriminate. intros [= _ _ _ <-]. exact Hb.
Qed.
Lemma opened_within (E : exn -> Prop) (S W : Prop) t : E RuntimeError -> (opened t = Wild -> W) -> within E S W (opened t).
Proof.
  unfold opened. intros HE HW. destruct (part 0 t) as [[[] ?]|]; cbn [within]; auto.
  destruct (part 1 t) as [[[] ?]|]; cbn [a_list onward within] in *; auto. unfold code_of in *. destruct (find _ codes) as [[? [? ?]]|]; cbn in *; auto.
Qed.
Lemma in_flat t g : In g (tree_children t) -> forall x, In x (tree_children g) -> In x (flat_map tree_children (tree_children t)).
Proof. intros Hg x Hx. apply in_flat_map. eauto. Qed.

Section RawWithin.
Context (tn : pn_type -> string) (inner : nat -> tree -> fate (list line)) (limit : nat).
Let W (t : tree) : Prop := everywhere dumpable t <> true.
Let allowed (t : tree) {A} (r : fate A) : Prop := within (fun e => e = RuntimeError) False (W t) r.
Hypothesis Hin : forall n t, height t < limit -> allowed t (inner n t).
Lemma upward t c {A} (r : fate A) : (everywhere dumpable t = true -> everywhere dumpable c = true) -> allowed c r -> allowed t r.
Proof. intros H R. eapply within_more; [exact R|auto..]. unfold W. auto. Qed.
Lemma raw_inner t c n : height c < limit -> (everywhere dumpable t = true -> everywhere dumpable c = true) -> allowed t (inner n c).
Proof. intros H Hc. eapply upward; [exact Hc|]. now apply Hin. Qed.
Lemma raw_element_in t o n : (forall c, o = Some c -> height c < limit /\ (everywhere dumpable t = true -> everywhere dumpable c = true)) ->
  (is_element o = false -> W t) -> allowed t (element (inner n) o).
Proof.
  intros H HW. destruct o as [[[] cs]|]; cbn [element is_element] in *; try (apply HW; reflexivity). destruct (H _ eq_refl) as [H1 H2]. now apply raw_inner.
Qed.
Lemma raw_within_element n t : height t < S limit -> allowed t (raw_element tn inner n t).
Proof.
  intros Hh. unfold raw_element. assert (HW : dumpable t = false -> W t) by (intros H1 H2; apply everywhere_here in H2; congruence).
  unfold allowed. apply within_bind.
  { apply opened_within; [reflexivity|]. intros E. apply HW. unfold dumpable. now rewrite E. }
  intros [key name k body|s] Eo; [|exact I]. apply within_bind; [|intros; exact I].
  pose proof (opened_body _ _ _ _ _ Eo) as Hb. pose proof (part_height _ _ _ Hb) as Hl.
  assert (Hd : dumpable t = match k with
      | Envelope => is_element (part 0 body) && is_element (part 1 body)
      | Schema_ => forallb (fun t => is_element (Some t)) (flat_map tree_children (tree_children body))
      | Class => forallb (fun t => is_element (Some t)) (members (part 4 body))
      | Container => is_element (part 4 body)
      | Fingerprint | Property | Other => true
      end) by (unfold dumpable; now rewrite Eo).
  assert (Hp : forall j c, part j body = Some c -> height c < limit /\ (everywhere dumpable t = true -> everywhere dumpable c = true)).
  { intros j c Hc. pose proof (part_height _ _ _ Hc). split; [lia|]. intros He. eapply everywhere_part; [|exact Hc]. eapply everywhere_part; [exact He|exact Hb]. }
  rewrite Hd in HW. clear Hd Eo.
  destruct k; cbn [raw_parts].
  - unfold raw_envelope. apply within_bind; [apply raw_element_in; [apply Hp|]; intros E; apply HW; now rewrite E|]. intros ? _.
    apply within_bind; [apply raw_element_in; [apply Hp|]; intros E; apply HW; rewrite E; apply Bool.andb_false_r|]. intros; exact I.
  - unfold raw_schema. apply within_bind; [|intros; exact I]. apply within_turn. intros i g Hg. apply within_bind; [now apply list_within|]. intros g' Eg.
    apply list_is in Eg. assert (g' = g) as -> by congruence. clear Eg. apply within_bind; [|intros; exact I]. unfold raw_types. apply within_bind; [|intros; exact I]. apply within_turn. intros j x Hx.
    apply within_bind; [|intros; exact I]. apply raw_element_in.
    + intros c [= <-]. pose proof (child_height _ _ Hg). pose proof (child_height _ _ Hx). split; [lia|]. intros He. eapply everywhere_in; [|exact Hx]. eapply everywhere_in; [|exact Hg]. eapply everywhere_part; eassumption.
    + intros E. apply HW. destruct (forallb _ _) eqn:F; [|reflexivity]. rewrite forallb_forall in F. rewrite F in E; [discriminate|]. eapply in_flat; eassumption.
  - unfold raw_fingerprint. apply within_bind; [now apply symbol_within|]. intros fp Hs. destruct (part 1 body) eqn:E1; [exact I|]. exfalso.
    destruct (part 0 body) eqn:E0; [|discriminate Hs]. unfold part in *. destruct (tree_children body); cbn in *; [discriminate|]. destruct l; discriminate.
  - unfold raw_property. repeat (apply within_bind; [now first [apply text_within|apply texts_within|apply text_or_null_within|apply truth_within]|intros ? _]). exact I.
  - unfold raw_class. repeat (apply within_bind; [now first [apply name_within|apply name_or_null_within|apply list_within|apply texts_within]|intros ? _]).
    apply within_bind; [apply within_bind; [now apply described_within|]; intros q Hq; apply described_is in Hq; destruct (Hp _ _ Hq); now apply raw_inner|]. intros ? _.
    apply within_bind; [|intros; exact I]. apply within_turn. intros i p Hx. apply within_bind; [|intros; exact I]. apply raw_element_in.
    + intros c [= <-]. destruct (part 4 body) as [g|] eqn:Eg; [|destruct Hx]. cbn [members] in Hx. destruct (Hp _ _ Eg) as [H1 H2]. pose proof (child_height _ _ Hx). split; [lia|]. intros He. eapply everywhere_in; [|exact Hx]. auto.
    + intros E. apply HW. destruct (forallb _ _) eqn:F; [|reflexivity]. rewrite forallb_forall in F. rewrite F in E; [discriminate|exact Hx].
  - unfold raw_container. repeat (apply within_bind; [now first [apply name_within|apply name_or_null_within|apply texts_within]|intros ? _]).
    apply within_bind; [|intros; exact I]. apply raw_element_in; [apply Hp|exact HW].
  - apply raw_inner; [lia|]. intros He. eapply everywhere_part; eassumption.
Qed.
End RawWithin.
Lemma raw_within tn : forall b n t, height t < b -> within (fun e => e = RuntimeError) False (everywhere dumpable t <> true) (raw tn b n t).
Proof.
  induction b as [|b IH]; intros n t H; [lia|]. cbn [raw]. apply (raw_within_element tn _ b); [|exact H]. intros m t' Ht. now apply IH.
Qed.

(** The name of a type is taken apart the same way at any depth. *)
Definition same_end {A B} (r : fate A) (r' : fate B) : Prop :=
  match r, r' with Gives _, Gives _ | Stops, Stops | Wild, Wild => True | Raises e, Raises e' => e = e' | _, _ => False end.
Lemma type_text_same : forall b n m ty, same_end (type_text b n ty) (type_text b m ty).
Proof.
  induction b as [|b IH]; intros n m ty; [exact I|]. cbn [type_text].
  assert (K : forall e (f g : string -> string) (x y : string), same_end
    (let% c := container_name e in if c then let% z := type_text b (S n) e in Gives (f z) else Gives x)
    (let% c := container_name e in if c then let% z := type_text b (S m) e in Gives (g z) else Gives y)).
  { intros e f g x y. destruct (container_name e) as [[]|z| |]; cbn [onward]; try exact I; [|reflexivity]. pose proof (IH (S n) (S m) e) as J.
    destruct (type_text b (S n) e), (type_text b (S m) e); cbn in *; auto; contradiction. }
  destruct (unclear ty); [exact I|]. destruct (array_name ty); [apply K|]. destruct (list_name ty).
  - apply K.
  - destruct (map_name ty); [|exact I]. destruct (of_ending (taken_apart (map_parts ty))) as [[[a k] v]|e| |]; cbn [onward]; try exact I; [apply K|reflexivity].
Qed.
Lemma type_text_within S : forall b n ty, String.length ty < b -> within (fun e => e = RuntimeError \/ e = OutOfRange) S True (type_text b n ty).
Proof.
  induction b as [|b IH]; intros n ty Hl; [lia|]. cbn [type_text].
  assert (K : forall e (f : string -> string) (x : string), String.length e < String.length ty -> within (fun e => e = RuntimeError \/ e = OutOfRange) S True
    (let% c := container_name e in if c then let% z := type_text b (Datatypes.S n) e in Gives (f z) else Gives x)).
  { intros e f x He. unfold container_name. destruct (unclear e); [exact I|]. cbn [onward]. destruct (_ || _)%bool; [|exact I].
    apply within_bind; [apply IH; lia|]. intros; exact I. }
  destruct (unclear ty) eqn:Eu; [exact I|]. destruct (array_name ty) eqn:Ea.
  - apply K. destruct (array_cases ty) as [[_ X]|[_ X]]; [congruence|]. rewrite Ea in X. destruct (find_last_array ty X) as (p & Hp & Hlt). rewrite before_last_spec, Hp. cbn [option_map].
    pose proof (substring_length_le ty 0 p). lia.
  - destruct (list_name ty) eqn:EL.
    + apply K. destruct (listType_cases ty) as (a & e & E & He). rewrite list_parts_right in E. assert (E' : list_parts ty = (a, e)) by congruence. rewrite E'. apply He. intros ->. discriminate.
    + destruct (map_name ty); [|exact I]. rewrite apart_map. destruct (mapType_cases ty) as [(a & k & v & -> & _ & Hv)| ->]; cbn [result_of of_ending onward]; [now apply K|]. cbn. auto.
Qed.
Lemma type_of_within (S W : Prop) n ty : (type_of 0 ty = Wild -> W) -> within (fun e => e = RuntimeError \/ e = OutOfRange) S W (type_of n ty).
Proof.
  intros H. unfold type_of in *. set (b := Datatypes.S (String.length ty)) in *. pose proof (type_text_within S b n ty ltac:(subst b; lia)) as T. pose proof (type_text_same b n 0 ty) as Q.
  destruct (type_text b n ty), (type_text b 0 ty); cbn in *; auto; contradiction.
Qed.

Section AvroWithin.
Context (inner : nat -> tree -> fate string) (limit : nat).
Let W (t : tree) : Prop := ~ (everywhere dumpable t = true /\ everywhere readable t = true).
Let allowed (t : tree) {A} (r : fate A) : Prop := within (fun e => e = RuntimeError \/ e = OutOfRange) (everywhere one_group t <> true) (W t) r.
Hypothesis Hin : forall n t, height t < limit -> allowed t (inner n t).
Let below (t c : tree) : Prop := forall P, everywhere P t = true -> everywhere P c = true.
Lemma avro_inner t c n : height c < limit -> below t c -> allowed t (inner n c).
Proof. intros H Hc. eapply within_more; [now apply Hin|auto|auto|]. intros H1 [H2 H3]. apply H1. split; now apply Hc. Qed.
Lemma avro_element_in t o n : (forall c, o = Some c -> height c < limit /\ below t c) -> (is_element o = false -> W t) -> allowed t (element (inner n) o).
Proof.
  intros H HW. destruct o as [[[] cs]|]; cbn [element is_element] in *; try (apply HW; reflexivity). destruct (H _ eq_refl) as [H1 H2]. now apply avro_inner.
Qed.
Lemma avro_within_element n t : height t < S limit -> allowed t (avro_element inner n t).
Proof.
  intros Hh. unfold avro_element. assert (HW : dumpable t = false -> W t) by (intros H1 [H2 _]; apply everywhere_here in H2; congruence).
  assert (HR : readable t = false -> W t) by (intros H1 [_ H2]; apply everywhere_here in H2; congruence).
  assert (HS : one_group t = false -> everywhere one_group t <> true) by (intros H1 H2; apply everywhere_here in H2; congruence).
  unfold allowed. apply within_bind.
  { apply opened_within; [now left|]. intros E. apply HW. unfold dumpable. now rewrite E. }
  intros [key name k body|s] Eo; [|exact I].
  pose proof (opened_body _ _ _ _ _ Eo) as Hb. pose proof (part_height _ _ _ Hb) as Hl. unfold dumpable in HW. unfold readable in HR. unfold one_group in HS. rewrite Eo in HW, HR, HS.
  assert (Hp : forall j c, part j body = Some c -> height c < limit /\ below t c).
  { intros j c Hc. pose proof (part_height _ _ _ Hc). split; [lia|]. intros P He. eapply everywhere_part; [|exact Hc]. eapply everywhere_part; [exact He|exact Hb]. }
  clear Eo. destruct k; cbn [avro_parts].
  - apply avro_element_in; [apply Hp|]; intros E; apply HW; rewrite E; apply Bool.andb_false_r.
  - unfold avro_schema. destruct (tree_children body) as [|g [|g' gs]] eqn:Ec; try (now apply HS). apply within_bind; [|intros; exact I]. apply within_turn. intros j x Hx.
    assert (Hg : In g (tree_children body)) by (rewrite Ec; now left).
    apply within_bind; [|intros; exact I]. apply avro_element_in.
    + intros c [= <-]. pose proof (child_height _ _ Hg). pose proof (child_height _ _ Hx). split; [lia|]. intros P He. eapply everywhere_in; [|exact Hx]. eapply everywhere_in; [|exact Hg]. eapply everywhere_part; eassumption.
    + intros E. apply HW. destruct (forallb _ _) eqn:F; [|reflexivity]. rewrite forallb_forall in F. rewrite F in E; [discriminate|]. rewrite <- Ec. eapply in_flat; eassumption.
  - unfold avro_fingerprint. apply within_bind; [now apply symbol_within; left|]. intros; exact I.
  - unfold avro_property. apply within_bind; [now apply text_within; left|]. intros nm _. apply within_bind; [now apply text_within; left|]. intros type Et. rewrite Et in HR.
    apply within_bind; [destruct (parts_of_list _); [exact I|now apply text_within; left]|]. intros r Er. cbv zeta in HR. rewrite Er in HR.
    apply within_bind; [|intros; exact I]. apply type_of_within. intros E. apply HR. now rewrite E.
  - unfold avro_class. repeat (apply within_bind; [now first [apply name_within|apply text_or_null_within|apply list_within]; left|intros ? _]).
    apply within_bind; [apply within_bind; [now apply described_within; left|]; intros q Hq; apply described_is in Hq; destruct (Hp _ _ Hq); now apply avro_inner|]. intros ? _.
    apply within_bind; [|intros; exact I]. apply within_turn. intros i p Hx. apply within_bind; [|intros; exact I]. apply avro_element_in.
    + intros c [= <-]. destruct (part 4 body) as [g|] eqn:Eg; [|destruct Hx]. cbn [members] in Hx. destruct (Hp _ _ Eg) as [H1 H2]. pose proof (child_height _ _ Hx). split; [lia|]. intros P He. eapply everywhere_in; [|exact Hx]. auto.
    + intros E. apply HW. destruct (forallb _ _) eqn:F; [|reflexivity]. rewrite forallb_forall in F. rewrite F in E; [discriminate|exact Hx].
  - exact I.
  - apply avro_inner; [lia|]. intros P He. eapply everywhere_part; eassumption.
Qed.
End AvroWithin.
Lemma avro_within : forall b n t, height t < b ->
  within (fun e => e = RuntimeError \/ e = OutOfRange) (everywhere one_group t <> true) (~ (everywhere dumpable t = true /\ everywhere readable t = true)) (avro b n t).
Proof.
  induction b as [|b IH]; intros n t H; [lia|]. cbn [avro]. apply (avro_within_element _ b); [|exact H]. intros m t' Ht. now apply IH.
Qed.

(** ** dumpSchema *)
Theorem raw_exactly tn fuel l t r u : height t <= fuel -> leaves (Data (At l t r) u) eq (dumpSchema tn fuel ToRaw (Data (At l t r) u)) (raw_dump tn t).
Proof.
  intros Hf. unfold dumpSchema, raw_dump. destruct t as [[] cs]; try reflexivity. cbn [is_described]. cbn [described_tree onward].
  change (is_described _) with true. cbv iota. set (t := Node ADescribed cs) in *.
  pose proof (raw_leaves tn (S fuel) (S (height t)) 0 l t r u ltac:(lia) ltac:(lia)) as H. change (ind 0) with "" in H.
  destruct (raw tn (S (height t)) 0 t); cbn [onward leaves] in *; auto.
Qed.
Theorem avro_exactly tn fuel l t r u : height t <= fuel -> leaves (Data (At l t r) u) eq (dumpSchema tn fuel ToAvro (Data (At l t r) u)) (avro_dump t).
Proof.
  intros Hf. unfold dumpSchema, avro_dump. destruct t as [[] cs]; try reflexivity. cbn [described_tree onward].
  change (is_described _) with true. cbv iota. set (t := Node ADescribed cs) in *.
  exact (avro_reads (S fuel) (S (height t)) 0 l t r u ltac:(lia) ltac:(lia)).
Qed.
