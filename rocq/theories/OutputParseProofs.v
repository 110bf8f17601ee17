(** What reading the envelope of a blob writes is what SpecOutputParse.v says. *)
From Coq Require Import Lia.
From Verif Require Import Base OutputWriter SpecOutputWriter Proton SpecCursor ProtonProofs TypeNames SpecTypes SpecNames NamesProofs Ordering Schema SpecSchema SchemaProofs Descriptors SpecDescriptors DescriptorsProofs Factory SpecFactory FactoryProofs
  Readers SpecReaders Blob ReadersProofs SpecAccept AcceptProofs SpecDisplay SpecInstalled DisplayProofs ContentsProofs SpecReadScript Print SpecPrint PrintProofs SpecParse ParseProofs
  SpecSupply SupplyProofs SpecFate FateProofs PrepareProofs FateBlobProofs Output SpecOutput OutputProofs OutputSchema SchemaOutputProofs OutputReader SpecOutputReader OutputReaderProofs OutputShow SpecOutputShow OutputShowProofs
  OutputShowBlobProofs OutputParse SpecOutputParse.
Import List ListNotations.
Open Scope string_scope.

(** ** Among the children of a node, and in one place *)
Definition says {A} (p : tree) (k : nat) (u : list frame) (out : string) (o : outcome (data * string) A) (h : heard A) : Prop :=
  match snd h with
  | Gives a => exists d, o = Ok a (d, out ++ fst h) /\ AcceptProofs.on p k u d
  | Raises e => exists d, o = Throw e (d, out ++ fst h) /\ among p u d
  | Stops => o = Abort
  | Wild => o = UB
  end.
Definition stays {A} (out : string) (o : outcome (data * string) A) (h : heard A) (d : data) : Prop :=
  o = match snd h with Gives a => Ok a (d, out ++ fst h) | Raises e => Throw e (d, out ++ fst h) | Stops => Abort | Wild => UB end.
Notation on := AcceptProofs.on.

Lemma says_bind {A B} p k k' u (m : OM A) (f : A -> OM B) d out h g : says p k u out (m (d, out)) h ->
  (forall a d' out', on p k u d' -> says p k' u out' (f a (d', out')) (g a)) -> says p k' u out (bind m f (d, out)) (and_then h g).
Proof.
  intros H K. unfold bind, says, and_then in *. destruct h as [s [a|e| |]]; cbn [fst snd] in *.
  - destruct H as (d' & -> & H). specialize (K a d' (out ++ s) H). unfold says in K. rewrite append_assoc3 in K. exact K.
  - destruct H as (d' & -> & H). eauto.
  - now rewrite H.
  - now rewrite H.
Qed.
Lemma stays_bind {A B} (m : OM A) (f : A -> OM B) d out h g : stays out (m (d, out)) h d ->
  (forall a out', stays out' (f a (d, out')) (g a) d) -> stays out (bind m f (d, out)) (and_then h g) d.
Proof.
  intros H K. unfold bind, stays, and_then in *. rewrite H. destruct h as [s [a|e| |]]; cbn [fst snd] in *; try reflexivity.
  specialize (K a (out ++ s)). rewrite append_assoc3 in K. exact K.
Qed.
Lemma says_next {B} p k k' u (f : unit -> OM B) d out h : on p k u d ->
  (forall d', on p (S k) u d' -> says p k' u out (f tt (d', out)) h) -> says p k' u out (bind (silently next_) f (d, out)) h.
Proof. intros H K. apply K. now apply AcceptProofs.on_next. Qed.
Lemma stays_trace env a n text d out : stays out (trace env a n text (d, out)) (note env a n text) d.
Proof.
  unfold stays, note, trace, Output.DBG, cout, at_line, SpecOutputWriter.line, starts. cbn [snd fst]. f_equal. f_equal. f_equal. rewrite !append_assoc3. reflexivity.
Qed.
Lemma trace_says {B} env p k u a n text (f : unit -> OM B) d out g : (forall out', says p k u out' (f tt (d, out')) (g tt)) ->
  says p k u out (bind (trace env a n text) f (d, out)) (and_then (note env a n text) g).
Proof.
  intros K. pose proof (stays_trace env a n text d out) as T. unfold stays in T. unfold bind. rewrite T. cbn [snd note]. specialize (K (out ++ fst (note env a n text))).
  unfold says, and_then in *. cbn [snd fst note] in *. rewrite append_assoc3 in K. exact K.
Qed.
Lemma stays_says {A} p k u out (o : outcome (data * string) A) h d : on p k u d -> stays out o h d -> says p k u out o h.
Proof. intros H ->. unfold says. destruct (snd h); eauto using AcceptProofs.on_among. Qed.
Lemma does_says {A} p k u (m : PM A) d out r : does p k u (m d) r -> says p k u out (silently m (d, out)) (plainly r).
Proof.
  unfold does, says, plainly, silent, silently. cbn [fst snd]. rewrite append_nil. destruct r as [a|e|]; cbn [of_ending].
  - intros (d' & -> & H). eauto.
  - intros (d' & -> & H). eauto.
  - now intros ->.
Qed.
Lemma ends_stays {A} (m : PM A) d out r : ends_at (m d) r d -> stays out (silently m (d, out)) (plainly r) d.
Proof. unfold ends_at, stays, plainly, silent, silently. intros ->. cbn [fst snd]. rewrite append_nil. now destruct r. Qed.
Lemma says_got {A} p k u d out (a : A) : on p k u d -> says p k u out (ret a (d, out)) (silent (Gives a)).
Proof. intros H. unfold says, silent. cbn [fst snd]. rewrite append_nil. unfold ret. eauto. Qed.
Lemma stays_got {A} d out (a : A) : stays out (ret a (d, out)) (silent (Gives a)) d.
Proof. unfold stays, silent. cbn [fst snd]. now rewrite append_nil. Qed.
Lemma stays_besides {A B} text (m : res A) r (f : A -> OM B) d out g : m <> NoFuel -> m <> Abrt -> result_of m = r ->
  (forall a out', stays out' (f a (d, out')) (g a) d) -> stays out (bind (cout text) (fun _ => bind (silently (lift m)) f) (d, out)) (and_then (besides text r) g) d.
Proof.
  intros H1 H2 <- K. unfold stays, bind, cout, besides, and_then, silently, lift in *. cbn [fst snd]. destruct m; cbn [result_of of_ending fst snd]; try reflexivity; try contradiction.
  rewrite K. rewrite !append_assoc3. reflexivity.
Qed.
Lemma says_besides {A B} p k k' u text (m : res A) r (f : A -> OM B) d out g : on p k u d -> m <> NoFuel -> m <> Abrt -> result_of m = r ->
  (forall a out', says p k' u out' (f a (d, out')) (g a)) -> says p k' u out (bind (cout text) (fun _ => bind (silently (lift m)) f) (d, out)) (and_then (besides text r) g).
Proof.
  intros H H1 H2 <- K. unfold says, bind, cout, besides, and_then, silently, lift in *. cbn [fst snd]. destruct m; cbn [result_of of_ending fst snd]; try reflexivity; try contradiction.
  - specialize (K a (out ++ text)). rewrite !append_assoc3 in K. exact K.
  - eauto using AcceptProofs.on_among.
Qed.
Lemma word_says p k u d out : on p k u d -> says p (S k) u out (readAndNext_string_said false (d, out)) (word (part k p)).
Proof.
  intros H. pose proof (name_does _ _ _ _ H) as D. apply (does_says _ _ _ _ _ (out ++ "STRING" ++ endl)) in D. unfold readAndNext_string_said, bind, cout, word, and_then, SpecOutput.line.
  unfold says in *. cbn [fst snd] in *. rewrite append_nil in D. unfold plainly, silent in D. cbn [fst snd] in *. rewrite append_nil in *. exact D.
Qed.
Lemma word_or_null_says p k u d out : on p k u d -> says p (S k) u out (readAndNext_string_said true (d, out)) (word_or_null (part k p)).
Proof.
  intros H. pose proof (name_or_null_does _ _ _ _ H) as D. apply (does_says _ _ _ _ _ (out ++ "STRING" ++ endl)) in D. unfold readAndNext_string_said, bind, cout, word_or_null, and_then, SpecOutput.line.
  unfold says in *. cbn [fst snd] in *. rewrite append_nil in D. unfold plainly, silent in *. cbn [fst snd] in *. rewrite append_nil in *. exact D.
Qed.

(** ** Loops *)
Lemma then_then {A B C} (h : heard A) (f : A -> heard B) (g : B -> heard C) : and_then (and_then h f) g = and_then h (fun a => and_then (f a) g).
Proof.
  unfold and_then. destruct h as [s [a|e| |]]; cbn [fst snd]; try reflexivity. destruct (f a) as [s' [b|e| |]]; cbn [fst snd]; try reflexivity. now rewrite append_assoc3.
Qed.
Lemma then_same {A B} (h : heard A) (f g : A -> heard B) : (forall a, f a = g a) -> and_then h f = and_then h g.
Proof. intros H. unfold and_then. destruct (snd h); now rewrite ?H. Qed.
Lemma then_id {A} (h : heard A) : (let^ a := h in silent (Gives a)) = h.
Proof. unfold and_then, silent. destruct h as [s [a|e| |]]; cbn [fst snd]; try reflexivity. now rewrite append_nil. Qed.
Lemma gives_then {A B} (a : A) (g : A -> heard B) : and_then (silent (Gives a)) g = g a.
Proof. unfold and_then, silent. cbn. now destruct (g a). Qed.
Lemma following_each {A B} (f : B -> heard A) ts : forall acc,
  following (fun acc t => let^ x := f t in silent (Gives (acc ++ [x])%list)) acc ts = let^ xs := in_turn f ts in silent (Gives (acc ++ xs)%list).
Proof.
  induction ts as [|t ts IH]; intros acc; cbn [following in_turn]; [now rewrite gives_then, app_nil_r|].
  rewrite !then_then. apply then_same. intros x. rewrite gives_then, IH, then_then. apply then_same. intros xs. rewrite gives_then, <- app_assoc. reflexivity.
Qed.
Lemma while_says {A} (f : A -> tree -> heard A) (body : A -> OM A) : forall n acc d out,
  (forall a l t r u out, In t (ahead d) -> stays out (body a (Data (At l t r) u, out)) (f a t) (Data (At l t r) u)) -> length (ahead d) <= n ->
  let h := following f acc (ahead d) in
  match snd h with
  | Gives a => exists d', while_loop_said n body acc (d, out) = Ok a (d', out ++ fst h) /\ siblings (here d') = siblings (here d) /\ ups d' = ups d
  | Raises e => exists d', while_loop_said n body acc (d, out) = Throw e (d', out ++ fst h) /\ siblings (here d') = siblings (here d) /\ ups d' = ups d
  | Stops => while_loop_said n body acc (d, out) = Abort
  | Wild => while_loop_said n body acc (d, out) = UB
  end.
Proof.
  induction n as [|n IH]; intros acc d out Hb Hn.
  - destruct d as [[[|c cs]|l t [|t' r]] u]; cbn [ahead here length] in *; try lia; cbn; rewrite append_nil; eauto.
  - assert (Hstep : forall c d', ahead d = c :: ahead d' -> (exists l r u, d' = Data (At l c r) u) -> pn_next_ok d = true -> pn_next d = d' ->
        siblings (here d') = siblings (here d) -> ups d' = ups d ->
        let h := following f acc (ahead d) in
        match snd h with
        | Gives a => exists d', while_loop_said (S n) body acc (d, out) = Ok a (d', out ++ fst h) /\ siblings (here d') = siblings (here d) /\ ups d' = ups d
        | Raises e => exists d', while_loop_said (S n) body acc (d, out) = Throw e (d', out ++ fst h) /\ siblings (here d') = siblings (here d) /\ ups d' = ups d
        | Stops => while_loop_said (S n) body acc (d, out) = Abort
        | Wild => while_loop_said (S n) body acc (d, out) = UB
        end).
    { intros c d' Ha (l & r & u & Hd) Hok Hnext Hs Hu. rewrite Ha in Hb, Hn |- *. cbn [following length] in *. cbn [while_loop_said fst]. rewrite Hok. cbn [moving]. rewrite Hnext. unfold bind.
      pose proof (Hb acc l c r u out (or_introl eq_refl)) as Hc. rewrite <- Hd in Hc. rewrite Hc. unfold and_then. cbv zeta.
      destruct (f acc c) as [s [a|e| |]]; cbn [fst snd]; [|eauto|reflexivity|reflexivity].
      specialize (IH a d' (out ++ s) ltac:(intros; apply Hb; cbn; auto) ltac:(lia)). cbv zeta in IH. rewrite Hs, Hu, append_assoc3 in IH. exact IH. }
    destruct d as [[[|c cs]|l t [|t' r]] u].
    + cbn. rewrite append_nil. eauto.
    + apply (Hstep c (Data (At [] c cs) u)); eauto.
    + cbn. rewrite append_nil. eauto.
    + apply (Hstep t' (Data (At (t :: l) t' r) u)); eauto.
Qed.
Lemma loop_stays {A} (f : A -> tree -> heard A) (body : nat -> A -> OM A) acc l t r u out :
  (forall a l t' r u out, In t' (tree_children t) -> stays out (body (length (parts_of_list (Some t))) a (Data (At l t' r) u, out)) (f a t') (Data (At l t' r) u)) ->
  stays out (auto_list_enter_said false (fun n => while_next_said (body n) acc) (Data (At l t r) u, out)) (following f acc (tree_children t)) (Data (At l t r) u).
Proof.
  intros Hb. destruct t as [a cs]. unfold auto_list_enter_said, while_next_said, finally, stays. cbn [pn_enter here ups fst].
  assert (L : pn_get_list (Data (At l (Node a cs) r) u) = length (parts_of_list (Some (Node a cs)))) by (destruct a; reflexivity). rewrite L.
  pose proof (while_says f (body (length (parts_of_list (Some (Node a cs))))) (length cs) acc (Data (Before cs) (Frame l a r :: u)) out Hb (le_n _)) as H. cbn [ahead here siblings tree_children ups] in H |- *. cbv zeta in H.
  destruct (following f acc cs) as [s [x|e| |]]; cbn [fst snd] in *.
  - destruct H as (d' & -> & H1 & H2). unfold moving, pn_exit. rewrite H2, H1. reflexivity.
  - destruct H as (d' & -> & H1 & H2). unfold moving, pn_exit. rewrite H2, H1. reflexivity.
  - now rewrite H.
  - now rewrite H.
Qed.
Lemma loop_says {A} (f : tree -> heard A) (body : list A -> OM (list A)) p k u d out : on p k u d ->
  (forall acc l t r u out, In t (members (part k p)) -> stays out (body acc (Data (At l t r) u, out)) (let^ x := f t in silent (Gives (acc ++ [x])%list)) (Data (At l t r) u)) ->
  says p k u out (auto_list_enter_said false (fun _ => while_next_said body []) (d, out)) (in_turn f (members (part k p))).
Proof.
  intros H Hb. rewrite <- (then_id (in_turn f (members (part k p)))). change (and_then (in_turn f (members (part k p))) (fun a => silent (Gives a))) with
    (let^ xs := in_turn f (members (part k p)) in silent (Gives ([] ++ xs)%list)). rewrite <- following_each.
  part_ H. apply (stays_says _ _ _ _ _ _ d); [exact H|]. rewrite Hp in *. rewrite E. cbn [members]. apply (loop_stays _ (fun _ => body)). exact Hb.
Qed.

(** ** Elements *)
Lemma enter_somewhere {X} (m : OM X) l a cs r u out h :
  (cs = [] -> exists s, (forall u out, m (Data (Before []) u, out) = Throw RuntimeError (Data (Before []) u, out ++ s)) /\ h = (s, Raises RuntimeError)) ->
  (forall d out, on (Node a cs) 0 (Frame l a r :: u) d -> exists k, says (Node a cs) k (Frame l a r :: u) out (m (d, out)) h) ->
  stays out (auto_enter_said false m (Data (At l (Node a cs) r) u, out)) h (Data (At l (Node a cs) r) u).
Proof.
  intros H0 H. unfold auto_enter_said, finally, stays, w_enter. cbn [pn_enter here ups]. destruct cs as [|c cs]; cbn [pn_next here ups].
  - destruct (H0 eq_refl) as (s & -> & ->). reflexivity.
  - destruct (H _ out (AcceptProofs.on_first a c cs _)) as [k Hk]. clear H. rename Hk into H. unfold says in H. destruct h as [s [x|e| |]]; cbn [fst snd] in *.
    + destruct H as (d & -> & H). cbn [moving]. f_equal. f_equal. apply AcceptProofs.on_among in H. now apply exit_among.
    + destruct H as (d & -> & H). cbn [moving]. f_equal. f_equal. now apply exit_among.
    + now rewrite H.
    + now rewrite H.
Qed.
Lemma enter_stays {X} (m : OM X) k l a cs r u out h :
  (cs = [] -> exists s, (forall u out, m (Data (Before []) u, out) = Throw RuntimeError (Data (Before []) u, out ++ s)) /\ h = (s, Raises RuntimeError)) ->
  (forall d out, on (Node a cs) 0 (Frame l a r :: u) d -> says (Node a cs) k (Frame l a r :: u) out (m (d, out)) h) ->
  stays out (auto_enter_said false m (Data (At l (Node a cs) r) u, out)) h (Data (At l (Node a cs) r) u).
Proof. intros H0 H. apply enter_somewhere; eauto. Qed.

(** The text of the levels. *)
Lemma concat_cons (s : string) l : String.concat "" (s :: l) = s ++ String.concat "" l.
Proof. destruct l; cbn [String.concat]; [now rewrite append_nil|reflexivity]. Qed.
Lemma concat_both a b : String.concat "" (a ++ b)%list = String.concat "" a ++ String.concat "" b.
Proof. induction a as [|s a IH]; [reflexivity|]. cbn [app]. rewrite !concat_cons, IH. now rewrite append_assoc3. Qed.
Lemma listing_same groups : print_levels n_name groups = listing groups.
Proof.
  unfold print_levels, listing, level_lines, count, number. change 0%Z with (Z.of_nat 0). generalize 0 as k. induction groups as [|g gs IH]; intros k; [reflexivity|].
  cbn [print_levels_from map List.length seq combine List.concat fst snd]. replace (Z.of_nat k + 1)%Z with (Z.of_nat (S k)) by lia. rewrite IH.
  cbn [app]. rewrite <- app_assoc. cbn [map]. rewrite concat_cons, map_app, concat_both. cbn [app map]. rewrite concat_cons. change newline with eol. rewrite !append_assoc3.
  do 3 f_equal. f_equal. clear. induction g as [|x g IH]; [reflexivity|]. cbn [map]. rewrite concat_cons, <- IH. unfold Print.texts. cbn [fold_right]. now rewrite !append_assoc3.
Qed.

Section Build.
Context (env : platform) (tn : pn_type -> string) (tnum : pn_type -> Z) (also_told : tellings).
Lemma node_stays a n text l t r u out :
  stays out (trace_node env tn tnum a n text (Data (At l t r) u, out)) (note env a n (text ++ node_shown tn tnum (Some t))) (Data (At l t r) u).
Proof. unfold trace_node. cbn [fst]. rewrite node_same by exact I. cbn [view here]. apply stays_trace. Qed.
Lemma node_says p k u d out a n text : on p k u d -> says p k u out (trace_node env tn tnum a n text (d, out)) (note env a n (text ++ node_shown tn tnum (part k p))).
Proof. intros H. part_ H. apply (stays_says _ _ _ _ _ _ d H). rewrite Hp, E. apply node_stays. Qed.

Context (rec : OM element) (inner : tree -> heard element) (limit : nat).
Hypothesis Hrec : forall l t r u out, height t < limit -> stays out (rec (Data (At l t r) u, out)) (inner t) (Data (At l t r) u).
Lemma rec_says p k u d out : on p k u d -> height p < S limit -> says p k u out (rec (d, out)) (there (part k p) inner).
Proof.
  intros H Hh. part_ H. apply (stays_says _ _ _ _ _ _ d); [exact H|]. rewrite Hp, E. cbn [there]. apply Hrec. apply part_height in Hp. lia.
Qed.
Lemma cast_says {X} (as_ : element -> PM X) (is_ : element -> ending X) p k u d out e : (forall e d, ends_at (as_ e d) (is_ e) d) -> on p k u d ->
  says p k u out (silently (as_ e) (d, out)) (plainly (is_ e)).
Proof. intros H Ho. apply (stays_says _ _ _ _ _ _ d Ho). now apply ends_stays. Qed.

(** A builder, started on the code of [t]. *)
Definition utters (t : tree) (m : OM element) (told : tree -> heard element) : Prop :=
  forall u d out, on t 0 u d -> exists k, says t k u out (m (d, out)) (there (part 1 t) told).

Lemma code_on t u d v cs cs' : t = Node ADescribed (Node (AULong v) cs :: cs') -> on t 0 u d -> d = Data (At [] (Node (AULong v) cs) cs') u.
Proof.
  intros Ht (l & x & r & -> & Hs & Hl). assert (Hl0 : l = []) by (cbn in Hl; destruct l; [reflexivity|discriminate]). subst l. rewrite Ht in Hs. cbn [rev app tree_children] in Hs. now injection Hs as -> ->.
Qed.
Lemma validate_says {X} code t cs cs' u d out (m : unit -> OM X) k h : (code < 2 ^ 48)%N -> t = Node ADescribed (Node (AULong (vendor code)) cs :: cs') -> on t 0 u d ->
  (forall d out, on t 1 u d -> says t k u out (m tt (d, out)) h) -> says t k u out (bind (silently (validateAndNext (Some code))) m (d, out)) h.
Proof.
  intros Hc Ht Ho K. pose proof (AcceptProofs.on_next _ _ _ _ Ho) as Hn. rewrite (code_on _ _ _ _ _ _ Ht Ho) in *. unfold bind, silently. rewrite (validate_ends code _ cs) by auto. now apply K.
Qed.
Lemma body_utters file n word code t c cs cs' (m : OM element) told k : (code < 2 ^ 48)%N -> t = Node ADescribed (Node (AULong (vendor code)) cs :: cs') ->
  part 1 t = Some c ->
  (tree_children c = [] -> exists s, (forall u out, m (Data (Before []) u, out) = Throw RuntimeError (Data (Before []) u, out ++ s)) /\ told c = (s, Raises RuntimeError)) ->
  (forall u d out, on c 0 u d -> says c k u out (m (d, out)) (told c)) ->
  utters t (trace env file n word ;; silently (validateAndNext (Some code)) ;; auto_enter_said false m)%m (fun c => let^ _ := note env file n word in told c).
Proof.
  intros Hc Ht Hp H0 H u d out Ho. exists 1. rewrite Hp. cbn [there]. eapply says_bind; [apply (stays_says _ _ _ _ _ _ d Ho), stays_trace|]. intros _ d' out' Ho'.
  eapply validate_says; eauto. intros d1 out1 O1. part_ O1. rewrite Hp in Hp0. injection Hp0 as <-. apply (stays_says _ _ _ _ _ _ _ O1). rewrite E. destruct c as [a ccs]. apply (enter_stays m k); auto.
Qed.

Ltac steps := repeat first
  [ apply says_got; assumption
  | eapply says_next; [eassumption|intros ?d ?Ho]
  | match goal with |- says _ _ _ _ (bind (trace _ _ _ _) _ (?d, _)) _ => eapply says_bind; [apply (stays_says _ _ _ _ _ _ d); [eassumption|apply stays_trace]|intros _ ?d ?out ?Ho] end
  | eapply says_bind; [first [apply word_says; eassumption | apply word_or_null_says; eassumption | apply node_says; eassumption | apply rec_says; eassumption |
      apply (cast_says _ a_fingerprint); [exact descriptor_cast|eassumption] | apply (cast_says _ a_schema); [exact schema_cast|eassumption] |
      apply does_says; first [apply text_does | apply text_or_null_does | apply symbol_does | apply truth_does | apply texts_does]; eassumption]|intros ?x ?d ?out ?Ho] ].

Lemma field_utters t c cs cs' : t = Node ADescribed (Node (AULong (vendor 4)) cs :: cs') -> part 1 t = Some c ->
  utters t (build_field_said env also_told (Some FIELD)) (property_told env also_told).
Proof.
  intros Ht Hp. unfold build_field_said, property_told. apply (body_utters _ _ _ 4 t c cs cs' _ _ 6); auto; [reflexivity| |].
  - intros Hn. exists "". split; [intros; cbn; now rewrite append_nil|]. unfold part. rewrite Hn. reflexivity.
  - intros u d out Ho. steps.
    match goal with |- says _ _ _ _ (bind _ (fun _ => bind (silently (lift (Field_make ?a ?b ?c ?d ?e ?f ?g))) _) _) _ =>
      destruct (property_made a b c d e f g) as [Hr Hm]; eapply says_besides; [eassumption|apply Hm; exact RuntimeError|apply Hm; exact RuntimeError|exact Hr|intros f' out'; steps] end.
Qed.
Lemma fingerprint_utters t c cs cs' : t = Node ADescribed (Node (AULong (vendor 3)) cs :: cs') -> part 1 t = Some c ->
  utters t (build_object_said env (Some OBJECT)) (fingerprint_told env).
Proof.
  intros Ht Hp u d out Ho. destruct (object_builds t c cs cs' Ht Hp u d Ho) as [k H]. rewrite Hp in *. cbn [present there] in *. exists k. unfold build_object_said, fingerprint_told.
  apply trace_says. intros out'. now apply does_says.
Qed.
Lemma choice_utters t c cs cs' : t = Node ADescribed (Node (AULong (vendor 7)) cs :: cs') -> part 1 t = Some c ->
  utters t (build_choice_said (Some CHOICE)) (fun c => plainly (parse_choice c)).
Proof. intros Ht Hp u d out Ho. destruct (choice_builds t c cs cs' Ht Hp u d Ho) as [k H]. exists k. rewrite Hp in *. now apply does_says. Qed.
Lemma class_utters t c cs cs' : t = Node ADescribed (Node (AULong (vendor 5)) cs :: cs') -> part 1 t = Some c -> height c < S limit ->
  utters t (build_composite_said env rec (Some COMPOSITE_TYPE)) (class_told env inner).
Proof.
  intros Ht Hp Hh. unfold build_composite_said, class_told. apply (body_utters _ _ _ 5 t c cs cs' _ _ 4); auto; [reflexivity| |].
  - intros Hn. exists "". split; [intros; cbn; now rewrite append_nil|]. unfold part. rewrite Hn. reflexivity.
  - intros u d out Ho. steps.
    eapply says_bind; [apply (loop_says (fun t => let^ e := inner t in plainly (a_property e))); [eassumption|]|intros ? ? ? ?; steps].
    intros acc lA tA rA uA oo1 Hx. rewrite then_then. apply stays_bind; [apply Hrec; apply members_height in Hx; lia|]. intros e oo2.
    apply stays_bind; [apply ends_stays, field_cast|]. intros f oo3. apply stays_got.
Qed.
Lemma container_utters t c cs cs' : t = Node ADescribed (Node (AULong (vendor 6)) cs :: cs') -> part 1 t = Some c -> height c < S limit ->
  utters t (build_restricted_said env tn tnum also_told rec (Some RESTRICTED_TYPE)) (container_told env tn tnum also_told inner).
Proof.
  intros Ht Hp Hh. unfold build_restricted_said, container_told. apply (body_utters _ _ _ 6 t c cs cs' _ _ 5); auto; [reflexivity| |].
  - intros Hn. exists ("STRING" ++ newline). split; [intros; reflexivity|]. unfold part. rewrite Hn. reflexivity.
  - intros u d out Ho. steps.
    eapply says_bind; [apply (loop_says (fun t => let^ s := plainly (text_of (Some t)) in let^ _ := note env "RestrictedDescriptor.cxx" 120 ("  provides: " ++ s) in silent (Gives s))); [eassumption|]|intros ? ? ? ?; steps].
    { intros acc lA tA rA uA oo1 Hx. rewrite then_then. apply stays_bind; [apply ends_stays; destruct tA as [[] ?]; reflexivity|]. intros s oo2. rewrite then_then.
      apply stays_bind; [apply stays_trace|]. intros _ oo3. rewrite gives_then. apply stays_got. }
    eapply says_bind; [apply (loop_says (fun t => let^ e := inner t in let^ c := plainly (a_choice e) in let^ _ := note env "RestrictedDescriptor.cxx" 143 (" choice: " ++ c) in silent (Gives c))); [eassumption|]|intros ? ? ? ?; steps].
    { intros acc lA tA rA uA oo1 Hx. rewrite then_then. apply stays_bind; [apply Hrec; apply members_height in Hx; lia|]. intros e oo2. rewrite then_then.
      apply stays_bind; [apply ends_stays, choice_cast|]. intros s oo3. rewrite then_then. apply stays_bind; [apply stays_trace|]. intros _ oo4. rewrite gives_then. apply stays_got. }
    match goal with Hx : on c 5 u ?dx |- _ => eapply says_bind; [exact (node_says _ _ _ dx _ "RestrictedDescriptor.cxx" 147 "" Hx)|intros _ ? ? ?] end.
    match goal with |- says _ _ _ _ (bind _ (fun _ => bind (silently (lift (Restricted_make ?a ?b ?c ?d ?e ?f))) _) _) _ =>
      destruct (container_made a b c d e f) as [Hr Hm]; eapply says_besides; [eassumption|apply Hm; exact RuntimeError|apply Hm; exact RuntimeError|exact Hr|intros ? ?; steps] end.
Qed.
Lemma other_utters n words code t c cs cs' : (code < 2 ^ 48)%N -> t = Node ADescribed (Node (AULong (vendor code)) cs :: cs') -> part 1 t = Some c ->
  utters t (build_ignored_said env tn tnum n words (Some code)) (other_told env tn tnum n words).
Proof.
  intros Hc Ht Hp u d out Ho. exists 1. rewrite Hp. cbn [there]. unfold build_ignored_said, other_told. eapply validate_says; eauto. intros dd1 oo1 O1. rewrite <- Hp. steps.
Qed.
Lemma joined_app l l' : String.concat "" (l ++ l')%list = String.concat "" l ++ String.concat "" l'.
Proof.
  assert (C : forall x l, String.concat "" (x :: l) = x ++ String.concat "" l) by (intros x [|y k]; cbn; [now rewrite append_nil|reflexivity]).
  induction l as [|x l IH]; [reflexivity|]. cbn [app]. now rewrite !C, IH, append_assoc3.
Qed.
Lemma all_traced gs : forall (d : data) out,
  Schema_said env gs (d, out) = Ok (schema_of gs) (d, out ++ String.concat "" (map (type_line env) (List.concat gs))).
Proof.
  assert (G : forall g (d : data) out, for_each (fun j => trace env "Schema.cxx" 47 ("Schema: " ++ n_descriptor j ++ " " ++ n_name j)) g (d, out) =
    Ok tt (d, out ++ String.concat "" (map (type_line env) g))).
  { induction g as [|j g IH]; intros d out; [cbn; now rewrite append_nil|]. cbn [for_each]. unfold bind.
    pose proof (stays_trace env "Schema.cxx" 47 ("Schema: " ++ n_descriptor j ++ " " ++ n_name j) d out) as T. unfold stays in T. rewrite T. cbn [note snd fst]. rewrite IH. cbn [map]. change (type_line env j :: map (type_line env) g) with ([type_line env j] ++ map (type_line env) g)%list.
    now rewrite joined_app, append_assoc3. }
  intros d out. unfold Schema_said, bind. assert (H : forall l out, for_each (for_each (fun j => trace env "Schema.cxx" 47 ("Schema: " ++ n_descriptor j ++ " " ++ n_name j))) l (d, out) =
    Ok tt (d, out ++ String.concat "" (map (type_line env) (List.concat l)))).
  { induction l as [|g l IH]; intros o; [cbn; now rewrite append_nil|]. cbn [for_each List.concat]. unfold bind. rewrite G, IH. now rewrite map_app, joined_app, append_assoc3. }
  now rewrite H.
Qed.
Lemma schema_utters t c cs cs' : t = Node ADescribed (Node (AULong (vendor 2)) cs :: cs') -> part 1 t = Some c -> height c < S limit ->
  utters t (build_schema_said env also_told rec (Some SCHEMA)) (schema_told env also_told inner).
Proof.
  intros Ht Hp Hh u d out Ho. exists 1. rewrite Hp. cbn [there]. unfold build_schema_said, schema_told. steps. apply (validate_says 2 t cs cs'); [reflexivity|exact Ht|assumption|]. intros dd1 oo1 O1.
  assert (F : forall n ts k groups,
    following (fun groups p => let^ _ := note env "SchemaDescriptor.cxx" 48 ("  " ++ count (S (fst p)) ++ "/" ++ count n) in following (type_told env also_told inner) groups (tree_children (snd p)))
      groups (combine (seq k (length ts)) ts) =
    let^ x := following (fun (p : nat * list (list notation)) t => let^ _ := note env "SchemaDescriptor.cxx" 48 ("  " ++ count (fst p) ++ "/" ++ count n) in
      let^ groups := following (type_told env also_told inner) (snd p) (tree_children t) in silent (Gives (S (fst p), groups))) (S k, groups) ts in silent (Gives (snd x))).
  { intros n. induction ts as [|y ts IH]; intros k groups; cbn [length seq combine following fst snd]; [now rewrite gives_then|]. rewrite !then_then. apply then_same. intros _.
    apply then_same. intros groups'. rewrite gives_then. apply IH. }
  unfold numbered. rewrite F, then_then. eapply says_bind; [|intros [i gs] dd2 oo2 O2; rewrite gives_then; unfold bind; rewrite all_traced; unfold says, and_then; cbn [fst snd silent]; rewrite append_nil; eauto].
  part_ O1. rewrite Hp in Hp0. injection Hp0 as <-. apply (stays_says _ _ _ _ _ _ _ O1). rewrite E.
  apply loop_stays. intros [i acc] l1 g r1 u1 oo2 Hg. cbn [fst snd]. apply stays_bind; [apply stays_trace|]. intros _ oo3. apply stays_bind; [|intros acc' oo4; apply stays_got].
  apply loop_stays. intros acc' l2 y r2 u2 oo4 Hy. unfold type_told. apply stays_bind.
  { apply Hrec. destruct c as [a ccs]. rewrite height_node in Hh. apply heights_in in Hy. apply heights_in in Hg. destruct g as [ga gcs]. rewrite height_node in Hg.
      cbn [tree_children] in Hy, Hg. lia. }
  intros e oo5. apply stays_bind; [apply ends_stays, type_cast|]. intros x oo6. apply stays_besides; [| |reflexivity|].
  1,2: destruct (insert_fine x acc') as [[gs H]|H]; rewrite H; discriminate.
  intros gs oo7. apply stays_bind; [|intros _ oo8; apply stays_got]. rewrite listing_same. apply stays_trace.
Qed.
Lemma envelope_utters t c cs cs' : t = Node ADescribed (Node (AULong (vendor 1)) cs :: cs') -> part 1 t = Some c -> height c < S limit ->
  utters t (build_envelope_said env rec (Some ENVELOPE)) (envelope_told env inner).
Proof.
  intros Ht Hp Hh u d out Ho. exists 1. rewrite Hp. cbn [there]. unfold build_envelope_said. 
  replace (envelope_told env inner c) with (let^ _ := note env "EnvelopeDescriptor.cxx" 106 "ENVELOPE" in let^ x := (let^ fp := there (part 0 c) (fun payload =>
    match tree_atom payload with ADescribed => plainly (symbol_of (part 0 payload)) | _ => silent (Raises RuntimeError) end) in
    let^ e := there (part 1 c) inner in let^ s := plainly (a_schema e) in silent (Gives (s, fp))) in
    let (s, fp) := (x : schema * string) in silent (Gives (EEnvelope {| e_schema := s; e_descriptor := fp |}))).
  2:{ unfold envelope_told. apply then_same. intros _. rewrite then_then. apply then_same. intros fp. rewrite then_then. apply then_same. intros e. rewrite then_then. apply then_same. intros s. now rewrite gives_then. }
  steps. apply (validate_says 1 t cs cs'); [reflexivity|exact Ht|assumption|]. intros dd1 oo1 O1. eapply says_bind; [|intros [s fp] d' out' Ho'; apply says_got; exact Ho'].
  part_ O1. rewrite Hp in Hp0. injection Hp0 as <-. apply (stays_says _ _ _ _ _ _ _ O1). rewrite E. destruct c as [a ccs].
  apply (enter_stays _ 2).
  - intros ->. exists "". split; [intros; cbn; now rewrite append_nil|reflexivity].
  - intros dd0 oo0 O0. eapply says_bind; [|intros fp dd2 oo2 O2].
    + part_ O0. apply (stays_says _ _ _ _ _ _ _ O0). rewrite Hp0, E0. cbn [there].
      replace (match tree_atom t0 with ADescribed => plainly (symbol_of (part 0 t0)) | _ => silent (Raises RuntimeError) end)
        with (plainly (match tree_atom t0 with ADescribed => symbol_of (part 0 t0) | _ => Thrown RuntimeError end)) by (destruct (tree_atom t0); reflexivity).
      apply ends_stays. unfold consumeBlob, bind, ends_at.
      destruct t0 as [b bcs]. unfold attest_is_described, require, is_type, pn_dtype. cbn [here tree_atom].
      destruct b; try reflexivity. cbn [atom_type pn_type_eqb]. apply (enter_ends get_symbol 0).
      * intros ->. split; reflexivity.
      * intros dd3 O3. now apply symbol_does.
    + steps.
Qed.
Lemma id_utters code t c cs cs' : t = Node ADescribed (Node (AULong code) cs :: cs') -> part 1 t = Some c -> height c < S limit ->
  utters t (build_id_said env tn tnum also_told rec code) (element_told env tn tnum also_told inner code).
Proof.
  intros Ht Hp Hh. unfold build_id_said, registered, registry, element_told. cbn [lookup].
  rewrite !corda_code_vendor by reflexivity.
  unfold ENVELOPE, SCHEMA, OBJECT, FIELD, COMPOSITE_TYPE, RESTRICTED_TYPE, CHOICE, REFERENCED_OBJECT, TRANSFORM_SCHEMA, TRANSFORM_ELEMENT, TRANSFORM_ELEMENT_KEY.
  repeat match goal with |- context[N.eqb code ?v] => destruct (N.eqb_spec code v) as [->|] end; unfold build_said; cbn [d_kind d_val].
  - intros u d out Ho. exists 0. rewrite Hp. unfold says. cbn. exists d. rewrite append_nil. split; [reflexivity|]. eapply AcceptProofs.on_among; eassumption.
  - eapply envelope_utters; eassumption.
  - eapply schema_utters; eassumption.
  - eapply fingerprint_utters; eassumption.
  - eapply field_utters; eassumption.
  - eapply class_utters; eassumption.
  - eapply container_utters; eassumption.
  - eapply choice_utters; eassumption.
  - eapply (other_utters _ _ 8); try eassumption; reflexivity.
  - eapply (other_utters _ _ 9); try eassumption; reflexivity.
  - eapply (other_utters _ _ 10); try eassumption; reflexivity.
  - eapply (other_utters _ _ 11); try eassumption; reflexivity.
  - intros u d out Ho. exists 0. rewrite Hp. reflexivity.
Qed.
End Build.

Section Blobs.
Context (env : platform) (tn : pn_type -> string) (tnum : pn_type -> Z) (also_told : tellings).
Theorem parses_aloud : forall fuel l t r u out, height t < fuel ->
  stays out (dispatchDescribed_said env tn tnum also_told fuel (Data (At l t r) u, out)) (parse_told env tn tnum also_told fuel t) (Data (At l t r) u).
Proof.
  induction fuel as [|fuel IH]; intros l t r u out Hh; [lia|]. cbn [dispatchDescribed_said parse_told]. unfold bind at 1. destruct t as [a cs].
  unfold silently at 1. unfold attest_is_described, require, is_type at 1, pn_dtype at 1. cbn [here].
  destruct a; try (unfold stays, silent; cbn; now rewrite append_nil). cbn [atom_type pn_type_eqb].
  destruct cs as [|[b bcs] cs]; [unfold stays, silent; cbn; now rewrite append_nil|].
  destruct b as [| | | | | | | | |code| | | | | | | | | | | | | | |];
    try (apply (enter_stays _ 0); [discriminate|]; intros d out' O0; destruct O0 as (l1 & t1 & r1 & -> & Hs & Hl); destruct l1; [|discriminate]; cbn in Hs; injection Hs as -> ->; unfold says, silent; cbn;
         rewrite append_nil; eexists; split; [reflexivity|split; reflexivity]).
  assert (Hp : exists c, part 1 (Node ADescribed (Node (AULong code) bcs :: cs)) = Some c).
  { unfold part. cbn [tree_children]. destruct cs; cbn; eauto. }
  destruct Hp as [c Hp]. assert (Hc : height c < S fuel). { apply part_height in Hp. lia. }
  apply enter_somewhere; [discriminate|]. intros d out' O0.
  pose proof (id_utters env tn tnum also_told _ _ fuel IH code _ c bcs cs eq_refl Hp Hc (Frame l ADescribed r :: u) _ out' O0) as P.
  pose proof (code_on _ _ _ _ _ _ eq_refl O0) as E. clear O0. subst d. exact P.
Qed.

Lemma in_turn_alike {A B} (f g : A -> heard B) l : (forall a, In a l -> f a = g a) -> in_turn f l = in_turn g l.
Proof. intros H. induction l as [|a l IH]; cbn [in_turn]; [reflexivity|]. rewrite H by (now left). apply then_same. intros b. rewrite IH; [reflexivity|]. intros; apply H; now right. Qed.
Lemma following_alike {A B} (f g : A -> B -> heard A) l : (forall a b, In b l -> f a b = g a b) -> forall a, following f a l = following g a l.
Proof. intros H. induction l as [|b l IH]; intros a; cbn [following]; [reflexivity|]. rewrite H by (now left). apply then_same. intros a'. apply IH. intros; apply H; now right. Qed.
Lemma there_alike {A} o (f g : tree -> heard A) : (forall t, o = Some t -> f t = g t) -> there o f = there o g.
Proof. destruct o; cbn; auto. Qed.
Lemma below t c : In c (tree_children t) -> height c < height t.
Proof. destruct t as [a cs]. cbn [tree_children]. intros H. apply heights_in in H. rewrite height_node. lia. Qed.
Notation told := (parse_told env tn tnum also_told).
Lemma told_bound : forall n m t, height t < n -> height t < m -> told n t = told m t.
Proof.
  induction n as [|n IH]; intros m t Hn Hm; [lia|]. destruct m as [|m]; [lia|]. cbn [parse_told]. destruct t as [a cs0].
  destruct (match a with ADescribed => true | _ => false end) eqn:E; [|destruct a; try discriminate E; reflexivity]. destruct a; try discriminate E. clear E. destruct cs0 as [|[b ds] cs]; [reflexivity|].
  destruct (match b with AULong _ => true | _ => false end) eqn:E; [|destruct b; try discriminate E; reflexivity]. destruct b; try discriminate E. clear E.
  apply there_alike. intros body Hb. apply part_height in Hb. assert (Q : forall k p, part k body = Some p -> told n p = told m p).
  { intros k p Hp. apply part_height in Hp. apply IH; lia. }
  assert (M : forall k p, In p (members (part k body)) -> told n p = told m p).
  { intros k p Hp. apply members_height in Hp. apply IH; lia. }
  unfold element_told. repeat match goal with |- (if ?b then _ else _) = _ => destruct b; try reflexivity end.
  - unfold envelope_told. do 2 (apply then_same; intros ?). f_equal. apply there_alike. apply Q.
  - unfold schema_told. apply then_same; intros _. f_equal. apply following_alike. intros gs [i g] Hg. cbn [fst snd]. apply then_same; intros _. apply following_alike. intros gs' p Hp.
    unfold type_told. unfold numbered in Hg. apply in_combine_r in Hg. apply below in Hg, Hp. rewrite (IH m p) by lia. reflexivity.
  - unfold class_told. do 4 (apply then_same; intros ?). rewrite (there_alike _ (told n) (told m)) by (apply Q). apply then_same; intros ?. apply then_same; intros ?. f_equal. apply in_turn_alike.
    intros p Hp. now rewrite (M 4).
  - unfold container_told. do 7 (apply then_same; intros ?). rewrite (there_alike _ (told n) (told m)) by (apply Q). do 3 (apply then_same; intros ?). f_equal. apply in_turn_alike. intros p Hp. now rewrite (M 5).
Qed.
Theorem envelope_stays fuel t out : height t <= fuel ->
  stays out (read_envelope_said env tn tnum also_told fuel (decoded t, out)) (envelope_aloud env tn tnum also_told t) (decoded t).
Proof.
  intros H. unfold envelope_aloud.
  assert (D : described_by t <> None \/ described_by t = None /\ read_envelope_said env tn tnum also_told fuel (decoded t, out) = UB).
  { destruct t as [[] cs]; try (right; split; reflexivity). destruct cs as [|[[] ds] cs]; try (left; discriminate);
      right; (split; [reflexivity|]); unfold read_envelope_said; cbn [is_described is_type pn_dtype decoded here tree_atom atom_type pn_type_eqb fst];
      unfold bind, auto_enter_said, finally, build_id_said; (cbn [decoded w_enter pn_get_ulong fst] || idtac); rewrite ?registered_zero; try reflexivity. }
  destruct D as [D|[-> D]]; [|exact D]. destruct (described_by t) as [v|] eqn:Ev; [|congruence]. clear D.
  rewrite (told_bound (S (height t)) (S fuel)) by lia.
  pose proof (parses_aloud (S fuel) [] t [] [] out ltac:(lia)) as P. fold (decoded t) in P.
  assert (E : read_envelope_said env tn tnum also_told fuel (decoded t, out) =
    bind (dispatchDescribed_said env tn tnum also_told (S fuel)) (fun e => match e with EEnvelope x => ret x | _ => ub end) (decoded t, out)).
  { destruct t as [[] cs]; try discriminate. destruct cs as [|[[] ds] cs]; try discriminate. reflexivity. }
  rewrite E. apply stays_bind; [exact P|]. intros [] out'; try reflexivity. apply stays_got.
Qed.
End Blobs.
