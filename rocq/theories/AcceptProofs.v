(** What the schema parser accepts. *)
From Coq Require Import Lia Permutation.
From Verif Require Import Base Proton ProtonProofs TypeNames SpecTypes TypeNamesProofs SpecNames NamesProofs Ordering OrderingProofs Schema SpecSchema SchemaProofs Descriptors SpecDescriptors
  DescriptorsProofs SpecAccept.
Import List ListNotations.
Open Scope string_scope.

(** ** Ordering keeps the types *)
Section Insert.
  Context (T : Type) (dep : T -> T -> res nat).
  Hypothesis small : forall a b n, dep a b = Ret n -> n <= 2.
  Definition rec_keeps (rec : T -> list (list T) -> res (list (list T))) : Prop :=
    forall e levels levels', rec e levels = Ret levels' -> Permutation (List.concat levels') (e :: List.concat levels).
  Lemma shuffle_keeps rec p : rec_keeps rec -> forall members pre kept behind pre' kept' behind',
    shuffle T dep rec p members pre kept behind = Ret (pre', kept', behind') ->
    Permutation (List.concat pre' ++ kept' ++ List.concat behind') (List.concat pre ++ kept ++ members ++ List.concat behind).
  Proof.
    intros Hrec. induction members as [|e members IH]; intros pre kept behind pre' kept' behind' H; simpl in H.
    - injection H as <- <- <-. apply Permutation_app_head. apply Permutation_app_tail. symmetry. apply Permutation_rev.
    - destruct (dep p e) as [n| | | |] eqn:E; try discriminate. cbn [rbind] in H. pose proof (small _ _ _ E).
      destruct n as [|[|[|n]]]; [| | |lia].
      + apply IH in H. rewrite H. apply Permutation_app_head. cbn. symmetry. rewrite <- Permutation_middle. reflexivity.
      + destruct (rec e behind) as [b| | | |] eqn:Eb; try discriminate. cbn [rbind] in H. apply IH in H. apply Hrec in Eb.
        rewrite H, Eb. apply Permutation_app_head, Permutation_app_head. symmetry. apply (Permutation_middle members (List.concat behind) e).
      + apply IH in H. rewrite H, concat_app. cbn. rewrite <- !app_assoc. apply Permutation_app_head. cbn.
        apply Permutation_middle.
  Qed.
  Lemma insert_at_keeps fuel : rec_keeps (insert_at T dep fuel).
  Proof.
    induction fuel as [|fuel IH]; intros p levels levels' H; simpl in H; [discriminate|].
    destruct (scan T dep p 0 levels 0) as [ip| | | |]; try discriminate. cbn [rbind] in H.
    pose proof (firstn_skipn ip levels) as Hsplit. destruct (skipn ip levels) as [|lvl behind].
    - injection H as <-. rewrite concat_app. cbn. apply Permutation_sym, Permutation_cons_append.
    - destruct (shuffle T dep (insert_at T dep fuel) p lvl [] [] behind) as [[[pre kept] b']| | | |] eqn:Es; try discriminate.
      cbn [rbind] in H. injection H as <-. apply shuffle_keeps in Es; [|assumption]. cbn in Es.
      replace (List.concat levels) with (List.concat (firstn ip levels) ++ lvl ++ List.concat behind)%list
        by (rewrite <- Hsplit at 2; rewrite concat_app; reflexivity).
      rewrite !concat_app. cbn.
      rewrite (Permutation_middle (List.concat (firstn ip levels)) (lvl ++ List.concat behind) p).
      apply Permutation_app_head. rewrite <- Permutation_middle. now constructor.
  Qed.
End Insert.
Lemma dependsOn_small a b n : dependsOn a b = Ret n -> n <= 2.
Proof.
  destruct a as [s|s], b as [r|r]; cbn [dependsOn].
  - unfold composite_rhs_composite. destruct (any_subtype _ _) as [[]| | | |]; try discriminate; cbn [rbind]; [intros [= <-]; lia|].
    destruct (any_resolved _ _) as [[]| | | |]; try discriminate; cbn [rbind]; intros [= <-]; lia.
  - unfold restricted_rhs_composite. destruct (match r_kind r with list_t | array_t => _ | _ => _ end); [intros [= <-]; lia|].
    destruct (any_resolved _ _) as [[]| | | |]; try discriminate; cbn [rbind]; intros [= <-]; lia.
  - unfold composite_rhs_restricted. destruct (any_resolved _ _) as [[]| | | |]; try discriminate; cbn [rbind]; intros [= <-]; [lia|].
    destruct (memb _ _); lia.
  - intros [= <-]. unfold restricted_rhs_restricted, dependsOnMap, dependsOnList, dependsOnEnum, dependsOnArray.
    destruct (r_kind s), (r_kind r); repeat match goal with |- context[if ?b then _ else _] => destruct b end; lia.
Qed.
Lemma insert_keeps t levels levels' : insert notation dependsOn t levels = Ret levels' ->
  Permutation (List.concat levels') (t :: List.concat levels).
Proof. apply insert_at_keeps. intros a b n. apply dependsOn_small. Qed.

(** ** Running backwards *)
Lemma bind_inv {S A B} (m : S -> outcome S A) (k : A -> S -> outcome S B) s b s' : bind m k s = Ok b s' ->
  exists a s1, m s = Ok a s1 /\ k a s1 = Ok b s'.
Proof. unfold bind. destruct (m s); try discriminate. eauto. Qed.
Lemma finally_inv {S A} (m : S -> outcome S A) f s a s' : finally m f s = Ok a s' -> exists s1, m s = Ok a s1 /\ s' = f s1.
Proof. unfold finally. destruct (m s); try discriminate. intros [= <- <-]. eauto. Qed.

(** The cursor is on the [k]-th child of a node, or its last. *)
Definition on (p : tree) (k : nat) (u : list frame) (d : data) : Prop :=
  exists l t r, d = Data (At l t r) u /\ (rev l ++ t :: r)%list = tree_children p /\ length l = Nat.min k (length (tree_children p) - 1).
(** The cursor is somewhere among the children. *)
Definition among (p : tree) (u : list frame) (d : data) : Prop := siblings (here d) = tree_children p /\ ups d = u.

Lemma on_among p k u d : on p k u d -> among p u d.
Proof. intros (l & t & r & -> & H & _). split; [|reflexivity]. cbn. rewrite rev_append_rev. exact H. Qed.
Lemma on_part p k u d : on p k u d -> exists l t r, d = Data (At l t r) u /\ part k p = Some t.
Proof.
  intros (l & t & r & -> & H & Hl). exists l, t, r. split; [reflexivity|]. unfold part. rewrite <- Hl, <- H, <- (rev_length l).
  rewrite nth_error_app2, Nat.sub_diag by lia. reflexivity.
Qed.
Lemma on_next p k u d : on p k u d -> on p (S k) u (pn_next d).
Proof.
  intros (l & t & r & -> & H & Hl). assert (L : length (tree_children p) = length l + S (length r)).
  { rewrite <- H, app_length, rev_length. reflexivity. }
  destruct r as [|t' r]; cbn [pn_next here ups].
  - exists l, t, []. repeat split; [assumption|]. cbn in L. lia.
  - exists (t :: l), t', r. repeat split; [cbn [rev]; rewrite <- app_assoc; exact H|]. cbn [length] in *. lia.
Qed.
Lemma on_first a t ts u : on (Node a (t :: ts)) 0 u (Data (At [] t ts) u).
Proof. exists [], t, ts. repeat split. Qed.
Lemma exit_among l a cs r u d : among (Node a cs) (Frame l a r :: u) d -> pn_exit d = Data (At l (Node a cs) r) u.
Proof. intros [H1 H2]. unfold pn_exit. rewrite H2, H1. reflexivity. Qed.

Lemma next_inv d x d' : next_ d = Ok x d' -> d' = pn_next d.
Proof. now intros [= _ <-]. Qed.
Lemma string_inv b l t r u s d' : get_string b (Data (At l t r) u) = Ok s d' ->
  d' = Data (At l t r) u /\ (says s t \/ b = true /\ tree_atom t = ANull /\ s = "").
Proof.
  destruct t as [a cs]. unfold get_string, says. cbn [cur_atom here tree_atom]. destruct a; try discriminate.
  - destruct b; [|discriminate]. intros [= <- <-]. auto.
  - intros [= <- <-]. auto.
Qed.
Lemma read_string_inv b d s d' : readAndNext_string b d = Ok s d' -> forall l t r u, d = Data (At l t r) u ->
  d' = pn_next d /\ (calls s t \/ b = true /\ tree_atom t = ANull /\ s = "").
Proof.
  intros H l t r u ->. unfold readAndNext_string, auto_next in H. apply finally_inv in H as (d1 & H & ->).
  destruct t as [a cs]. cbn [cur_atom here] in H. unfold calls, says. cbn [tree_atom]. destruct a; try discriminate.
  - destruct b; [|discriminate]. injection H as <- <-. auto.
  - injection H as <- <-. auto.
  - injection H as <- <-. auto.
Qed.
Lemma symbol_inv l t r u s d' : get_symbol (Data (At l t r) u) = Ok s d' -> d' = Data (At l t r) u /\ tree_atom t = ASymbol s.
Proof. destruct t as [a cs]. unfold get_symbol. cbn. destruct a; try discriminate. intros [= <- <-]. auto. Qed.
Lemma boolean_inv l t r u s d' : get_boolean (Data (At l t r) u) = Ok s d' -> d' = Data (At l t r) u /\ truth s t.
Proof. destruct t as [a cs]. unfold get_boolean, truth. cbn. destruct a; try discriminate. intros [= <- <-]. auto. Qed.
Lemma lift_inv {S A} (m : res A) (s : S) a s' : lift m s = Ok a s' -> m = Ret a /\ s' = s.
Proof. unfold lift. destruct m; try discriminate. intros [= <- <-]. auto. Qed.

Lemma enter_inv {A} (m : PM A) l a cs r u x d' :
  (forall u d1 y, m (Data (Before []) u) <> Ok y d1) ->
  auto_enter false m (Data (At l (Node a cs) r) u) = Ok x d' ->
  exists c cs' d1, cs = c :: cs' /\ m (Data (At [] c cs') (Frame l a r :: u)) = Ok x d1 /\ d' = pn_exit d1.
Proof.
  intros Hm H. unfold auto_enter in H. apply finally_inv in H as (d1 & H & ->). unfold w_enter in H. cbn [pn_enter here ups] in H.
  destruct cs as [|c cs]; cbn [pn_next here ups] in H; [elim (Hm _ _ _ H)|]. eauto 6.
Qed.

(** Loops over the children of the current node. *)
Inductive steps {A} (R : A -> tree -> A -> Prop) : A -> list tree -> A -> Prop :=
| steps_nil a : steps R a [] a
| steps_cons a t b ts c : R a t b -> steps R b ts c -> steps R a (t :: ts) c.
Lemma while_inv {A} (R : A -> tree -> A -> Prop) (body : A -> PM A) :
  (forall a l t r u b d', body a (Data (At l t r) u) = Ok b d' -> d' = Data (At l t r) u /\ R a t b) ->
  forall n a d b d', while_loop n body a d = Ok b d' ->
    match here d with
    | Before cs => steps R a cs b
    | At l t r => steps R a r b
    end /\ siblings (here d') = siblings (here d) /\ ups d' = ups d.
Proof.
  intros Hb. induction n as [|n IH]; intros a d b d' H; cbn [while_loop] in H.
  - destruct d as [[[|c cs]|l t [|t' r]] u]; cbn in H; try discriminate; injection H as <- <-; cbn; repeat split; constructor.
  - destruct d as [[[|c cs]|l t [|t' r]] u]; cbn [pn_next_ok here ups pn_next] in H.
    + injection H as <- <-. cbn. repeat split. constructor.
    + apply bind_inv in H as (a1 & d1 & H1 & H2). apply Hb in H1 as [-> H1]. apply IH in H2 as (K1 & K2 & K3). cbn in K1, K2, K3 |- *.
      repeat split; auto. econstructor; eauto.
    + injection H as <- <-. cbn. repeat split. constructor.
    + apply bind_inv in H as (a1 & d1 & H1 & H2). apply Hb in H1 as [-> H1]. apply IH in H2 as (K1 & K2 & K3). cbn in K1, K2, K3 |- *.
      repeat split; auto. econstructor; eauto.
Qed.
Lemma loop_inv {A} (R : A -> tree -> A -> Prop) (body : A -> PM A) acc l t r u b d' :
  (forall a l t r u b d', body a (Data (At l t r) u) = Ok b d' -> d' = Data (At l t r) u /\ R a t b) ->
  auto_list_enter false (fun _ => while_next body acc) (Data (At l t r) u) = Ok b d' ->
  d' = Data (At l t r) u /\ steps R acc (tree_children t) b.
Proof.
  intros Hb H. unfold auto_list_enter in H. apply finally_inv in H as (d1 & H & ->). destruct t as [a cs]. cbn [pn_enter here ups] in H.
  unfold while_next in H. apply (while_inv R) in H; [|exact Hb]. cbn in H. destruct H as (H1 & H2 & H3). split; [|exact H1].
  apply exit_among. split; assumption.
Qed.
Lemma steps_collect {X} (Q : tree -> X -> Prop) acc ts b : steps (fun acc t b => exists x, b = (acc ++ [x])%list /\ Q t x) acc ts b ->
  exists xs, b = (acc ++ xs)%list /\ Forall2 Q ts xs.
Proof.
  induction 1 as [a|a t b ts c (x & -> & Hx) _ (xs & -> & Hxs)].
  - exists []. rewrite app_nil_r. auto.
  - exists (x :: xs). rewrite <- app_assoc. auto.
Qed.
Lemma strings_inv l t r u ss d' : auto_list_enter false (fun _ => while_next push_string []) (Data (At l t r) u) = Ok ss d' ->
  d' = Data (At l t r) u /\ strings ss t.
Proof.
  intros H. apply (loop_inv (fun acc t b => exists x, b = (acc ++ [x])%list /\ says x t)) in H.
  - destruct H as [-> H]. split; [reflexivity|]. apply (steps_collect (fun t x => says x t)) in H as (xs & -> & H).
    unfold strings. cbn. clear -H. induction H; constructor; auto.
  - intros a l' t' r' u' b d1 K. unfold push_string in K. apply bind_inv in K as (s & d2 & K1 & K2). apply string_inv in K1 as [-> [K1|[K1 _]]]; [|discriminate].
    injection K2 as <- <-. eauto.
Qed.

(** ** The builders *)
Section Build.
Context (rec : PM element).
Hypothesis Hrec : forall l t r u e d', rec (Data (At l t r) u) = Ok e d' -> d' = Data (At l t r) u /\ accepted t e.

(** A builder starts on the code. *)
Definition sound (m : PM element) : Prop := forall t u d e d',
  tree_atom t = ADescribed -> on t 0 u d -> m d = Ok e d' -> among t u d' /\ accepted t e.

Lemma validate_inv code t u d x d' : (code < 2 ^ 48)%N -> on t 0 u d -> validateAndNext (Some code) d = Ok x d' ->
  d' = pn_next d /\ exists c cs, tree_children t = c :: cs /\ tree_atom c = AULong (vendor code).
Proof.
  intros Hc (l & c & r & -> & H & Hl) E. cbn in Hl. destruct l; [|discriminate]. unfold validateAndNext in E.
  destruct c as [a cs]. unfold is_type, pn_dtype in E. cbn [here] in E. destruct a; try discriminate. cbn [atom_type pn_type_eqb negb pn_get_ulong cur_atom here] in E.
  destruct (N.eqb_spec n (N.lor code DESCRIPTOR_TOP_32BITS)) as [->|]; [|discriminate]. injection E as _ <-. split; [reflexivity|].
  cbn in H. exists (Node (AULong (N.lor code DESCRIPTOR_TOP_32BITS)) cs), r. split; [auto|]. cbn [tree_atom].
  rewrite <- (corda_code_vendor code Hc). reflexivity.
Qed.

(** The shape shared by most: check the code, enter the body. *)
Lemma body_inv {X} code t u d (m : PM X) e d' : (code < 2 ^ 48)%N -> tree_atom t = ADescribed -> on t 0 u d ->
  (forall u d1 y, m (Data (Before []) u) <> Ok y d1) ->
  (validateAndNext (Some code) ;; auto_enter false m)%m d = Ok e d' ->
  exists body u' d0 d1, coded code t body /\ on body 0 u' d0 /\ m d0 = Ok e d1 /\ (among body u' d1 -> among t u d').
Proof.
  intros Hc Ha Ho Hm H. apply bind_inv in H as (x & d2 & H1 & H2). destruct (validate_inv _ _ _ _ _ _ Hc Ho H1) as [-> Hcode].
  apply on_next in Ho. destruct (on_part _ _ _ _ Ho) as (l & b & r & E & Hp). pose proof (on_among _ _ _ _ Ho) as Hb. rewrite E in *.
  destruct b as [a cs]. apply enter_inv in H2; [|exact Hm]. destruct H2 as (c & cs' & d3 & -> & H2 & ->).
  exists (Node a (c :: cs')), (Frame l a r :: u), (Data (At [] c cs') (Frame l a r :: u)), d3.
  split; [split; [exact Ha|split; [exact Hcode|exact Hp]]|]. split; [apply on_first|]. split; [exact H2|].
  intros K. rewrite (exit_among _ _ _ _ _ _ K). exact Hb.
Qed.

Ltac binv H := let a := fresh "v" in let d := fresh "d" in let H1 := fresh "H" in apply bind_inv in H as (a & d & H1 & H).
(** One step on the current part. *)
Ltac here_ Ho := let l := fresh "l" in let t := fresh "t" in let r := fresh "r" in let E := fresh "E" in let Hp := fresh "Hp" in
  destruct (on_part _ _ _ _ Ho) as (l & t & r & E & Hp).

Lemma field_sound : sound (build_field (Some FIELD)).
Proof.
  intros t u d e d' Ha Ho H. unfold build_field in H. apply (body_inv 4 t u) in H; try assumption; [|reflexivity|intros; discriminate].
  destruct H as (body & u' & d0 & d1 & Hc & O0 & H & Hend).
  here_ O0. subst d0. binv H. apply string_inv in H0 as [-> [P0|[P0 _]]]; [|discriminate]. binv H. apply next_inv in H0 as ->.
  apply on_next in O0. here_ O0. rewrite E in H, O0. binv H. apply string_inv in H0 as [-> [P1|[P1 _]]]; [|discriminate]. binv H. apply next_inv in H0 as ->.
  apply on_next in O0. here_ O0. rewrite E0 in H, O0. binv H. apply strings_inv in H0 as [-> P2]. binv H. apply next_inv in H0 as ->.
  apply on_next in O0. here_ O0. rewrite E1 in H, O0. binv H. apply string_inv in H0 as [-> P3]. binv H. apply next_inv in H0 as ->.
  apply on_next in O0. here_ O0. rewrite E2 in H, O0. binv H. apply string_inv in H0 as [-> P4]. binv H. apply next_inv in H0 as ->.
  apply on_next in O0. here_ O0. rewrite E3 in H, O0. binv H. apply boolean_inv in H0 as [-> P5]. binv H. apply next_inv in H0 as ->.
  apply on_next in O0. here_ O0. rewrite E4 in H, O0. binv H. apply boolean_inv in H0 as [-> P6].
  binv H. apply lift_inv in H0 as [Hf ->]. injection H as <- <-. split; [apply Hend; eapply on_among; eassumption|].
  cbn [accepted]. pose proof (Field_make_fields _ _ _ _ _ _ _ _ Hf) as (F1 & F2 & F3 & F4 & F5 & F6 & F7 & F8).
  exists body, v3. split; [exact Hc|]. rewrite F1, F2, F5, F6, F7, F8. unfold part_is, says_or_null.
  repeat split; eauto.
  - change (SpecTypes.primitive_name v1) with (typeIsPrimitive v1). destruct (typeIsPrimitive v1); auto.
  - eexists. split; [eassumption|]. destruct P3 as [P3|(_ & P3)]; auto.
  - eexists. split; [eassumption|]. destruct P4 as [P4|(_ & P4)]; auto.
  - clear -Hf. revert Hf. unfold Field_make, property_fits, isArrayType. rewrite is_array_iff, is_no_array_iff. setoid_rewrite is_container_iff. change SpecTypes.primitive_name with typeIsPrimitive. destruct (typeIsPrimitive v1) eqn:Ep; [intros [= <-]; auto|].
    destruct (isArray v1) as [[]| | | |] eqn:Ea; try discriminate; cbn [rbind].
    + destruct (subTypes_of v3); try discriminate; cbn [rbind]. intros [= <-]. cbn. auto 6.
    + destruct (String.eqb_spec v1 "*") as [->|Hs].
      * destruct v3 as [|front rs']; [intros [= <-]; cbn; auto 6|].
        destruct (isContainer front) as [[]| | | |] eqn:Ef; try discriminate; cbn [rbind].
        destruct (subTypes_of (front :: rs')); try discriminate; cbn [rbind]. intros [= <-]. cbn. do 3 right. left. eauto 6.
      * destruct (listType v1); try discriminate; cbn [rbind]. intros [= <-]. cbn. auto 10.
Qed.
Lemma object_sound : sound (build_object (Some OBJECT)).
Proof.
  intros t u d e d' Ha Ho H. unfold build_object in H. apply (body_inv 3 t u) in H; try assumption; [|reflexivity|intros; discriminate].
  destruct H as (body & u' & d0 & d1 & Hc & O0 & H & Hend).
  here_ O0. subst d0. binv H. apply symbol_inv in H0 as [-> P0]. injection H as <- <-. split; [apply Hend; eapply on_among; eassumption|].
  cbn [accepted]. exists body. unfold part_is. eauto.
Qed.
Lemma choice_sound : sound (build_choice (Some CHOICE)).
Proof.
  intros t u d e d' Ha Ho H. unfold build_choice in H. apply (body_inv 7 t u) in H; try assumption; [|reflexivity|intros; discriminate].
  destruct H as (body & u' & d0 & d1 & Hc & O0 & H & Hend).
  here_ O0. subst d0. binv H. apply string_inv in H0 as [-> [P0|[P0 _]]]; [|discriminate]. injection H as <- <-. split; [apply Hend; eapply on_among; eassumption|].
  cbn [accepted]. exists body. unfold part_is. eauto.
Qed.

Lemma as_descriptor_inv e d s d' : as_descriptor e d = Ok s d' -> e = EDescriptor s /\ d' = d.
Proof. destruct e; try discriminate. intros [= <- <-]. auto. Qed.
Lemma as_field_inv e d s d' : as_field e d = Ok s d' -> e = EField s /\ d' = d.
Proof. destruct e; try discriminate. intros [= <- <-]. auto. Qed.
Lemma as_type_inv e d s d' : as_type e d = Ok s d' -> e = EType s /\ d' = d.
Proof. destruct e; try discriminate. intros [= <- <-]. auto. Qed.
Lemma as_choice_inv e d s d' : as_choice e d = Ok s d' -> e = EChoice s /\ d' = d.
Proof. destruct e; try discriminate. intros [= <- <-]. auto. Qed.
Lemma as_schema_inv e d s d' : as_schema e d = Ok s d' -> e = ESchema s /\ d' = d.
Proof. destruct e; try discriminate. intros [= <- <-]. auto. Qed.

(** A list of nested elements. *)
Lemma elements_inv {X} (as_ : element -> PM X) (Q : tree -> X -> Prop) l t r u xs d' :
  (forall t e d x d1, as_ e d = Ok x d1 -> accepted t e -> Q t x /\ d1 = d) ->
  auto_list_enter false (fun _ => while_next (fun acc => let! e := rec in let! x := as_ e in ret (acc ++ [x])%list) []) (Data (At l t r) u) = Ok xs d' ->
  d' = Data (At l t r) u /\ Forall2 Q (tree_children t) xs.
Proof.
  intros Has H. apply (loop_inv (fun acc t b => exists x, b = (acc ++ [x])%list /\ Q t x)) in H.
  - destruct H as [-> H]. split; [reflexivity|]. apply (steps_collect Q) in H as (ys & -> & H). exact H.
  - intros a l' t' r' u' b d1 K. apply bind_inv in K as (e & d2 & K1 & K2). apply Hrec in K1 as [-> K1].
    apply bind_inv in K2 as (x & d3 & K2 & K3). destruct (Has _ _ _ _ _ K2 K1) as [HQ ->]. injection K3 as <- <-. eauto.
Qed.

Lemma composite_sound : sound (build_composite rec (Some COMPOSITE_TYPE)).
Proof.
  intros t u d e d' Ha Ho H. unfold build_composite in H. apply (body_inv 5 t u) in H; try assumption; [|reflexivity|intros; discriminate].
  destruct H as (body & u' & d0 & d1 & Hc & O0 & H & Hend).
  here_ O0. subst d0. binv H. apply string_inv in H0 as [-> [P0|[P0 _]]]; [|discriminate]. binv H. apply next_inv in H0 as ->.
  apply on_next in O0. here_ O0. rewrite E in H, O0. binv H. apply string_inv in H0 as [-> P1]. binv H. apply next_inv in H0 as ->.
  apply on_next in O0. here_ O0. rewrite E0 in H, O0. binv H. apply strings_inv in H0 as [-> P2]. binv H. apply next_inv in H0 as ->.
  apply on_next in O0. here_ O0. rewrite E1 in H, O0. binv H. apply Hrec in H0 as [-> P3]. binv H. apply as_descriptor_inv in H0 as [-> ->].
  binv H. apply next_inv in H0 as ->.
  apply on_next in O0. here_ O0. rewrite E2 in H, O0. binv H. apply (elements_inv as_field accepted_field) in H0 as [-> P4].
  2:{ intros tt1 ee1 dd1 xx1 dd2 K1 K2. apply as_field_inv in K1 as [-> ->]. auto. }
  injection H as <- <-. split; [apply Hend; eapply on_among; eassumption|].
  cbn [accepted accepted_type]. exists body. unfold part_is. cbn [c_name c_label c_provides c_descriptor c_fields accepted] in *.
  split; [exact Hc|]. split; [eauto|]. split.
  { eexists. split; [eassumption|]. unfold says_or_null. destruct P1 as [P1|(_ & P1)]; auto. }
  split; [eauto|]. split; eauto.
Qed.

Lemma Restricted_make_fits desc n lb ps src chs r : Restricted_make desc n lb ps src chs = Ret r ->
  r_name r = n /\ r_label r = lb /\ r_provides r = ps /\ r_source r = src /\ r_descriptor r = desc /\ kind_fits chs r.
Proof.
  unfold Restricted_make, kind_fits. rewrite is_array_iff, is_no_array_iff. destruct (String.eqb_spec src "list") as [->|].
  - destruct chs as [|c chs].
    + destruct (isArray n) as [[]| | | |] eqn:Ea; try discriminate; cbn [rbind].
      * rewrite array_part_right. cbn [rbind]. intros [= <-]. cbn [r_name r_label r_provides r_source r_descriptor r_kind r_of r_choices]. rewrite Ea, unbox_spec. repeat split. do 2 right. left. repeat split.
      * rewrite list_parts_right. destruct (list_parts n) as [l a] eqn:Et. cbn [rbind]. intros [= <-]. cbn [r_name r_label r_provides r_source r_descriptor r_kind r_of r_choices]. rewrite Ea, Et. repeat split. do 3 right. repeat split.
    + intros [= <-]. cbn. repeat split. right. left. repeat split. discriminate.
  - destruct (String.eqb_spec src "map") as [->|]; [|discriminate].
    rewrite map_parts_right. destruct (map_parts n) as [[[m k] v]|] eqn:Et; [|discriminate]. cbn [rbind]. intros [= <-]. cbn [r_name r_label r_provides r_source r_descriptor r_kind r_of r_choices]. rewrite Et. repeat split. left. repeat split. eauto.
Qed.

Lemma restricted_sound : sound (build_restricted rec (Some RESTRICTED_TYPE)).
Proof.
  intros t u d e d' Ha Ho H. unfold build_restricted in H. apply (body_inv 6 t u) in H; try assumption; [|reflexivity|intros; discriminate].
  destruct H as (body & u' & d0 & d1 & Hc & O0 & H & Hend).
  here_ O0. subst d0. binv H. destruct (read_string_inv _ _ _ _ H0 _ _ _ _ eq_refl) as [-> [P0|[P0 _]]]; [|discriminate].
  apply on_next in O0. here_ O0. rewrite E in H, O0. binv H. destruct (read_string_inv _ _ _ _ H1 _ _ _ _ eq_refl) as [-> P1].
  apply on_next in O0. here_ O0. rewrite E0 in H, O0. binv H. apply strings_inv in H2 as [-> P2]. binv H. apply next_inv in H2 as ->.
  apply on_next in O0. here_ O0. rewrite E1 in H, O0. binv H. destruct (read_string_inv _ _ _ _ H2 _ _ _ _ eq_refl) as [-> [P3|[P3 _]]]; [|discriminate].
  apply on_next in O0. here_ O0. rewrite E2 in H, O0. binv H. apply Hrec in H3 as [-> P4]. binv H. apply as_descriptor_inv in H3 as [-> ->].
  binv H. apply next_inv in H3 as ->.
  apply on_next in O0. here_ O0. rewrite E3 in H, O0. binv H. apply (elements_inv as_choice (fun t c => accepted_choice c t)) in H3 as [-> P5].
  2:{ intros tt1 ee1 dd1 xx1 dd2 K1 K2. apply as_choice_inv in K1 as [-> ->]. auto. }
  binv H. apply lift_inv in H3 as [Hr ->].
  injection H as <- <-. split; [apply Hend; eapply on_among; eassumption|].
  apply Restricted_make_fits in Hr as (R1 & R2 & R3 & R4 & R5 & R6).
  cbn [accepted accepted_type]. eexists body, _, _. unfold part_is. rewrite R1, R2, R3, R4, R5. cbn [accepted] in *.
  split; [assumption|]. split; [eauto|]. split; [reflexivity|]. split.
  { eexists. split; [eassumption|]. unfold calls_or_null. destruct P1 as [P1|(_ & P1)]; auto. }
  split; [eauto|]. split; [eauto|]. split; [eauto|]. split; [|eassumption].
  eexists. split; [eassumption|]. clear -P5. induction P5; constructor; auto.
Qed.

Lemma schema_sound : sound (build_schema rec (Some SCHEMA)).
Proof.
  intros t u d e d' Ha Ho H. unfold build_schema in H. binv H. destruct (validate_inv 2 _ _ _ _ _ ltac:(reflexivity) Ho H0) as [-> Hcode].
  apply on_next in Ho. here_ Ho. rewrite E in H, Ho. binv H.
  pose (R := fun (acc : list (list notation)) (t : tree) b => exists x, accepted_type t x /\ Permutation (List.concat b) (x :: List.concat acc)).
  assert (Hsteps : forall acc ts b, steps R acc ts b -> exists xs, Forall2 accepted_type ts xs /\ Permutation (List.concat b) (xs ++ List.concat acc)).
  { clear. intros acc ts b H. induction H as [a|a t b ts c (x & Hx & Hp) _ (xs & Hxs & Hq)].
    - exists []. split; [constructor|reflexivity].
    - exists (x :: xs). split; [auto|]. rewrite Hq, Hp. cbn. symmetry. apply Permutation_middle. }
  pose (R2 := fun (acc : list (list notation)) (g : tree) b => steps R acc (tree_children g) b).
  apply (loop_inv R2) in H1.
  - destruct H1 as [-> H1]. injection H as <- <-. split; [eapply on_among; eassumption|].
    assert (H2 : exists xs, Forall2 accepted_type (flat_map tree_children (tree_children t0)) xs /\ Permutation (List.concat v0) (xs ++ List.concat [])).
    { revert H1. generalize (@nil (list notation)). generalize (tree_children t0). clear -Hsteps. intros ts acc H.
      induction H as [a|a g b ts c Hg _ (xs & Hxs & Hp)].
      - exists []. split; [constructor|reflexivity].
      - apply Hsteps in Hg as (ys & Hys & Hq). exists (ys ++ xs)%list. split; [cbn; now apply Forall2_app|].
        rewrite Hp, Hq, app_assoc. apply Permutation_app_tail, Permutation_app_comm. }
    destruct H2 as (xs & Hxs & Hp2). cbn in Hp2. rewrite app_nil_r in Hp2. cbn [accepted]. exists t0, xs.
    split; [split; [exact Ha|split; [exact Hcode|exact Hp]]|]. split; [exact Hxs|exact Hp2].
  - intros acc l1 g r1 u1 b d1 K. unfold R2. apply (loop_inv R) in K; [exact K|].
    clear -Hrec. intros acc l1 g r1 u1 b d1 K. apply bind_inv in K as (e & d2 & K1 & K2). apply Hrec in K1 as [-> K1].
    apply bind_inv in K2 as (x & d3 & K2 & K3). apply as_type_inv in K2 as [-> ->]. apply lift_inv in K3 as [K3 ->].
    split; [reflexivity|]. exists x. split; [exact K1|]. now apply insert_keeps.
Qed.

Lemma described_inv d x d' : attest_is_described d = Ok x d' -> forall l t r u, d = Data (At l t r) u -> d' = d /\ tree_atom t = ADescribed.
Proof.
  intros H l [a cs] r u ->. unfold attest_is_described, is_type, pn_dtype in H. cbn [here] in H. destruct a; try discriminate; injection H as _ <-; auto.
Qed.

Lemma envelope_sound : sound (build_envelope rec (Some ENVELOPE)).
Proof.
  intros t u d e d' Ha Ho H. unfold build_envelope in H. 
  assert (K : exists v d1, (validateAndNext (Some ENVELOPE) ;; auto_enter false (
      let! outerType := consumeBlob in next_ ;; let! e := rec in let! s := as_schema e in next_ ;; ret (s, outerType))) d = Ok v d1
      /\ (let (s, outerType) := v in Ok (EEnvelope {| e_schema := s; e_descriptor := outerType |}) d1) = Ok e d').
  { apply bind_inv in H as (x & d2 & H1 & H2). apply bind_inv in H2 as (v & d3 & H2 & H3). exists v, d3. split; [|destruct v; exact H3].
    unfold bind at 1. rewrite H1. exact H2. }
  destruct K as (v & d1 & K & Hv).
  apply (body_inv 1 t u) in K; try assumption; [|reflexivity|intros; discriminate].
  destruct K as (body & u' & d0 & d2 & Hc & O0 & K & Hend).
  here_ O0. subst d0. binv K. unfold consumeBlob in H0. apply bind_inv in H0 as (x & d3 & H1 & H2).
  destruct (described_inv _ _ _ H1 _ _ _ _ eq_refl) as [-> Hd]. destruct t0 as [a cs]. apply enter_inv in H2; [|intros; discriminate].
  destruct H2 as (c & cs' & d4 & -> & H2 & ->). apply symbol_inv in H2 as [-> P0].
  rewrite (exit_among l a (c :: cs') r u') in K by (split; reflexivity).
  binv K. apply next_inv in H0 as ->. apply on_next in O0. here_ O0. rewrite E in K, O0.
  binv K. apply Hrec in H0 as [-> P1]. binv K. apply as_schema_inv in H0 as [-> ->]. binv K. apply next_inv in H0 as ->. injection K as <- <-.
  injection Hv as <- <-. apply on_next in O0. split; [apply Hend; eapply on_among; eassumption|].
  cbn [accepted]. exists body. unfold part_is. cbn [e_descriptor e_schema]. split; [exact Hc|]. split; [|eauto].
  eexists. split; [eassumption|]. split; [exact Hd|]. exists c. split; [reflexivity|exact P0].
Qed.

Lemma ignored_sound code : In code [8; 9; 10; 11]%N -> sound (build_ignored (Some code)).
Proof.
  intros Hin t u d e d' Ha Ho H. unfold build_ignored in H. binv H.
  assert (Hlt : (code < 2 ^ 48)%N) by (cbn in Hin; destruct Hin as [<-|[<-|[<-|[<-|[]]]]]; reflexivity).
  destruct (validate_inv code _ _ _ _ _ Hlt Ho H0) as [-> Hcode].
  injection H as <- <-. apply on_next in Ho. here_ Ho. split; [eapply on_among; eassumption|].
  cbn. exists code, t0. split; [exact Hin|]. split; [exact Ha|split; [exact Hcode|exact Hp]].
Qed.

Lemma build_id_sound id : sound (build_id rec id).
Proof.
  intros t u d e d' Ha Ho H. unfold build_id, registered, registry in H. cbn [lookup] in H.
  repeat match type of H with context[if ?b then _ else _] => destruct b end; unfold build in H; cbn [d_kind d_val] in H; try discriminate.
  - eapply envelope_sound; eassumption.
  - eapply schema_sound; eassumption.
  - eapply object_sound; eassumption.
  - eapply field_sound; eassumption.
  - eapply composite_sound; eassumption.
  - eapply restricted_sound; eassumption.
  - eapply choice_sound; eassumption.
  - eapply (ignored_sound 8); try eassumption; cbn; auto.
  - eapply (ignored_sound 9); try eassumption; cbn; auto.
  - eapply (ignored_sound 10); try eassumption; cbn; auto.
  - eapply (ignored_sound 11); try eassumption; cbn; auto.
Qed.
End Build.

Theorem accepts_only : forall fuel l t r u e d',
  dispatchDescribed fuel (Data (At l t r) u) = Ok e d' -> d' = Data (At l t r) u /\ accepted t e.
Proof.
  induction fuel as [|fuel IH]; intros l t r u e d' H; cbn [dispatchDescribed] in H; [discriminate|].
  apply bind_inv in H as (x & d1 & H1 & H2). destruct (described_inv _ _ _ H1 _ _ _ _ eq_refl) as [-> Hd].
  destruct t as [a cs]. apply enter_inv in H2; [|intros; discriminate]. destruct H2 as (c & cs' & d2 & -> & H2 & ->).
  apply bind_inv in H2 as (y & d3 & H2 & H3).
  assert (d3 = Data (At [] c cs') (Frame l a r :: u)) as ->.
  { unfold is_ulong, require in H2. match type of H2 with context[if ?b then _ else _] => destruct b end; [|discriminate]. now injection H2 as _ <-. }
  eapply (build_id_sound (dispatchDescribed fuel) IH) in H3; [|exact Hd|apply on_first].
  destruct H3 as [H3 H4]. split; [now apply exit_among|exact H4].
Qed.
