(** The schema parser ends as SpecParse.v says. *)
From Coq Require Import Lia.
From Verif Require Import Base Proton ProtonProofs TypeNames SpecTypes TypeNamesProofs SpecNames NamesProofs Ordering OrderingProofs Schema SchemaProofs Descriptors
  SpecDescriptors DescriptorsProofs SpecAccept AcceptProofs SpecReadScript SpecParse.
Import List ListNotations.
Open Scope string_scope.

(** ** Names *)
Lemma substring_all s : substring 0 (String.length s) s = s.
Proof. induction s as [|c s IH]; [reflexivity|]. cbn. now rewrite IH. Qed.
Lemma substring_front a b : substring 0 (String.length a) (a ++ b) = a.
Proof. induction a as [|c a IH]; [destruct b; reflexivity|]. cbn. now rewrite IH. Qed.
Lemma length_both a b : String.length (a ++ b) = String.length a + String.length b.
Proof. induction a as [|c a IH]; [reflexivity|]. cbn. now rewrite IH. Qed.
Lemma finishes_spec p s : finishes p s = true <-> finishes_with p s.
Proof.
  unfold finishes, finishes_with. rewrite String.eqb_eq. split; [eauto|]. intros [l ->]. f_equal.
  rewrite length_both, Nat.add_sub, substring_front. reflexivity.
Qed.
Lemma array_cases s : (isArray s = Undef /\ unclear s = true) \/ (unclear s = false /\ isArray s = Ret (array_name s)).
Proof.
  destruct (isArray_spec s) as [[H1 H2]|[[H1 H2]|(H1 & H2 & H3 & H4 & H5 & H6)]].
  - left. split; [exact H1|]. destruct H2 as [->|[->| ->]]; reflexivity.
  - right. split.
    + unfold unclear, memb. cbn. destruct (String.eqb_spec s ""); [subst; vm_compute in H1; discriminate|].
      destruct (String.eqb_spec s "]"); [subst; vm_compute in H1; discriminate|]. destruct (String.eqb_spec s "p]"); [subst; vm_compute in H1; discriminate|reflexivity].
    + rewrite H1. f_equal. symmetry. unfold array_name. rewrite Bool.orb_true_iff, !finishes_spec. exact H2.
  - right. split.
    + unfold unclear, memb. cbn. now rewrite (proj2 (String.eqb_neq _ _) H4), (proj2 (String.eqb_neq _ _) H5), (proj2 (String.eqb_neq _ _) H6).
    + rewrite H1. f_equal. symmetry. apply Bool.not_true_iff_false. unfold array_name. rewrite Bool.orb_true_iff, !finishes_spec. tauto.
Qed.

Lemma apart_map s : taken_apart (map_parts s) = result_of (mapType s).
Proof. rewrite map_parts_right. destruct (map_parts s); reflexivity. Qed.
Lemma subtypes_are rs : subtypes_of rs = result_of (subTypes_of rs).
Proof.
  induction rs as [|r rs IH]; [reflexivity|]. cbn [subtypes_of subTypes_of]. rewrite IH, all_mentioned_right. destruct (all_mentioned r); [|reflexivity].
  cbn [taken_apart also rbind]. destruct (subTypes_of rs); reflexivity.
Qed.
Lemma container_name_is r : array_name r || list_name r || map_name r = array_name r || isList r || isMap r.
Proof. rewrite list_name_is, map_name_is. reflexivity. Qed.
Lemma property_made n t rs df lb mand mult : result_of (Field_make n t rs df lb mand mult) = property_of n t rs df lb mand mult /\
  forall x, Field_make n t rs df lb mand mult <> NoFuel /\ Field_make n t rs df lb mand mult <> Abrt /\ (Field_make n t rs df lb mand mult = Exc x -> x = RuntimeError \/ x = OutOfRange).
Proof.
  unfold Field_make, property_of. change SpecTypes.primitive_name with typeIsPrimitive. destruct (typeIsPrimitive t); [repeat split; discriminate|]. unfold isArrayType.
  destruct (array_cases t) as [[-> ->]|[-> ->]]; cbn [rbind]; [repeat split; discriminate|]. destruct (array_name t).
  - rewrite subtypes_are. destruct (subTypes_fuel rs) as [->|[l ->]]; cbn; repeat split; try discriminate. intros [= <-]. auto.
  - destruct (String.eqb_spec t "*") as [->|Hs]; cbn [negb].
    + destruct rs as [|r rs]; [repeat split; discriminate|]. unfold isContainer.
      destruct (array_cases r) as [[-> ->]|[-> ->]]; cbn [rbind]; [repeat split; discriminate|].
      rewrite container_name_is, subtypes_are. destruct (array_name r || isList r || isMap r); [|cbn; repeat split; try discriminate; intros [= <-]; auto].
      destruct (subTypes_fuel (r :: rs)) as [->|[l ->]]; cbn [rbind result_of also]; repeat split; try discriminate. intros [= <-]. auto.
    + destruct (listType_cases t) as (a & b & -> & _). cbn. repeat split; discriminate.
Qed.
Lemma container_made d n lb p src ch : result_of (Restricted_make d n lb p src ch) = container_of d n lb p src ch /\
  forall x, Restricted_make d n lb p src ch <> NoFuel /\ Restricted_make d n lb p src ch <> Abrt /\ (Restricted_make d n lb p src ch = Exc x -> x = RuntimeError \/ x = OutOfRange).
Proof.
  unfold Restricted_make, container_of. destruct (String.eqb_spec src "list") as [->|H1]; cbn [String.eqb Ascii.eqb Bool.eqb negb].
  - destruct ch as [|c ch]; [|repeat split; discriminate].
    destruct (array_cases n) as [[-> ->]|[-> ->]]; cbn [rbind]; [repeat split; discriminate|]. destruct (array_name n).
    + rewrite array_part_right. cbn [rbind result_of]. rewrite unbox_spec. repeat split; discriminate.
    + rewrite list_parts_right. destruct (list_parts n). cbn. repeat split; discriminate.
  - destruct (String.eqb_spec src "map") as [->|H2]; cbn [negb].
    + rewrite apart_map. destruct (mapType_cases n) as [(a & k & v & -> & _)| ->]; cbn; repeat split; try discriminate. intros [= <-]. auto.
    + cbn. repeat split; try discriminate. intros [= <-]. auto.
Qed.
Lemma lift_ends {A} (m : res A) d : m <> NoFuel -> m <> Abrt -> ends_at (lift m d) (result_of m) d.
Proof. unfold ends_at, lift, result_of. destruct m; intros H1 H2; try reflexivity; contradiction. Qed.

(** Ordering a type fails only because a score does. *)
Section Insert.
  Context (T : Type) (dep : T -> T -> res nat).
  Hypothesis mild : forall a b, (exists n, dep a b = Ret n) \/ dep a b = Undef.
  Definition fine {A} (r : res A) : Prop := (exists a, r = Ret a) \/ r = Undef.
  Definition mostly {A} (r : res A) : Prop := r = NoFuel \/ fine r.
  Lemma scan_level_fine p i : forall lvl ip, fine (scan_level T dep p i lvl ip).
  Proof.
    induction lvl as [|j lvl IH]; intros ip; cbn [scan_level]; [left; eauto|].
    destruct (mild j p) as [[n ->]| ->]; cbn [rbind]; [|now right]. destruct n as [|[|[|n]]]; auto. left. eauto.
  Qed.
  Lemma scan_fine p : forall levels i ip, fine (scan T dep p i levels ip).
  Proof.
    induction levels as [|lvl levels IH]; intros i ip; cbn [scan]; [left; eauto|].
    destruct (scan_level_fine p i lvl ip) as [[[ip' stop] ->]| ->]; cbn [rbind]; [|now right]. destruct stop; [left; eauto|apply IH].
  Qed.
  Lemma shuffle_mostly rec p : (forall e l, mostly (rec e l)) -> forall members pre kept behind, mostly (shuffle T dep rec p members pre kept behind).
  Proof.
    intros Hrec. induction members as [|e members IH]; intros pre kept behind; cbn [shuffle]; [right; left; eauto|].
    destruct (mild p e) as [[n ->]| ->]; cbn [rbind]; [|right; now right]. destruct n as [|[|[|n]]]; auto.
    destruct (Hrec e behind) as [->|[[b ->]| ->]]; cbn [rbind]; auto; [now left|right; now right].
  Qed.
  Lemma insert_at_mostly fuel : forall p levels, mostly (insert_at T dep fuel p levels).
  Proof.
    induction fuel as [|fuel IH]; intros p levels; cbn [insert_at]; [now left|].
    destruct (scan_fine p levels 0 0) as [[ip ->]| ->]; cbn [rbind]; [|right; now right].
    destruct (skipn ip levels) as [|lvl behind]; [right; left; eauto|].
    destruct (shuffle_mostly _ p IH lvl [] [] behind) as [->|[[[[pre kept] b] ->]| ->]]; cbn [rbind]; [now left|right; left; eauto|right; now right].
  Qed.
End Insert.
Lemma resolved_mild f : fine (resolvedType f).
Proof. unfold resolvedType. destruct (f_kind f), (f_requires f); try (left; eauto; fail). all: now right. Qed.
Lemma any_resolved_mild n fs : fine (any_resolved n fs).
Proof.
  induction fs as [|f fs IH]; cbn [any_resolved]; [left; eauto|]. destruct (resolved_mild f) as [[t ->]| ->]; cbn [rbind]; [|now right].
  destruct (String.eqb t n); auto. left. eauto.
Qed.
Lemma any_subtype_mild n fs : fine (any_subtype n fs).
Proof.
  induction fs as [|f fs IH]; cbn [any_subtype]; [left; eauto|]. destruct (is_restricted_t f).
  - destruct (memb n (f_subTypes f)); auto. left. eauto.
  - destruct (resolved_mild f) as [[t ->]| ->]; cbn [rbind]; [|now right]. destruct (String.eqb t n); auto. left. eauto.
Qed.
Lemma dependsOn_mild a b : fine (dependsOn a b).
Proof.
  destruct b as [r|r], a as [s|s]; cbn [dependsOn].
  - unfold composite_rhs_composite. destruct (any_subtype_mild (c_name s) (c_fields r)) as [[x ->]| ->]; cbn [rbind]; [|now right]. destruct x; [left; eauto|].
    destruct (any_resolved_mild (c_name r) (c_fields s)) as [[x ->]| ->]; cbn [rbind]; [left; eauto|now right].
  - unfold composite_rhs_restricted. destruct (any_resolved_mild (r_name s) (c_fields r)) as [[x ->]| ->]; cbn [rbind]; [|now right]. destruct x; left; eauto.
  - unfold restricted_rhs_composite. destruct (match r_kind r with list_t | array_t => _ | _ => _ end); [left; eauto|].
    destruct (any_resolved_mild (r_name r) (c_fields s)) as [[x ->]| ->]; cbn [rbind]; [left; eauto|now right].
  - left. eauto.
Qed.
Lemma insert_fine t levels : fine (insert notation dependsOn t levels).
Proof.
  destruct (insert_at_mostly notation dependsOn dependsOn_mild (S (length (List.concat levels))) t levels) as [H|H]; [|exact H].
  elim (insert_fuel notation dependsOn dependsOn_fuel t levels H).
Qed.

(** ** Among the children of a node *)
Definition does {A} (p : tree) (k : nat) (u : list frame) (o : outcome data A) (r : ending A) : Prop :=
  match r with
  | Got a => exists d, o = Ok a d /\ on p k u d
  | Thrown e => exists d, o = Throw e d /\ among p u d
  | Undefined => o = UB
  end.
Lemma does_bind {A B} p k k' u (m : PM A) (f : A -> PM B) d r g : does p k u (m d) r ->
  (forall a d', on p k u d' -> does p k' u (f a d') (g a)) -> does p k' u (bind m f d) (also r g).
Proof.
  intros H K. unfold bind. destruct r as [a|e|]; cbn [does also] in H |- *.
  - destruct H as (d' & -> & H). now apply K.
  - destruct H as (d' & -> & H). eauto.
  - now rewrite H.
Qed.
Lemma does_next {B} p k k' u (f : unit -> PM B) d r : on p k u d ->
  (forall d', on p (S k) u d' -> does p k' u (f tt d') r) -> does p k' u (bind next_ f d) r.
Proof. intros H K. apply K. now apply on_next. Qed.
Lemma does_ends {A} p k u (o : outcome data A) r d : on p k u d -> ends_at o r d -> does p k u o r.
Proof. intros H ->. destruct r; cbn [does]; eauto using on_among. Qed.
Lemma does_got {A} p k u d (a : A) : on p k u d -> does p k u (Ok a d) (Got a).
Proof. cbn. eauto. Qed.

Ltac part_ H := let l := fresh "l" in let t := fresh "t" in let r := fresh "r" in let E := fresh "E" in let Hp := fresh "Hp" in
  destruct (on_part _ _ _ _ H) as (l & t & r & E & Hp).
Lemma text_does p k u d : on p k u d -> does p k u (get_string false d) (text_of (part k p)).
Proof. intros H. part_ H. apply (does_ends _ _ _ _ _ d); [exact H|]. rewrite Hp, E. destruct t as [[] cs]; reflexivity. Qed.
Lemma text_or_null_does p k u d : on p k u d -> does p k u (get_string true d) (text_or_null_of (part k p)).
Proof. intros H. part_ H. apply (does_ends _ _ _ _ _ d); [exact H|]. rewrite Hp, E. destruct t as [[] cs]; reflexivity. Qed.
Lemma symbol_does p k u d : on p k u d -> does p k u (get_symbol d) (symbol_of (part k p)).
Proof. intros H. part_ H. apply (does_ends _ _ _ _ _ d); [exact H|]. rewrite Hp, E. destruct t as [[] cs]; reflexivity. Qed.
Lemma truth_does p k u d : on p k u d -> does p k u (get_boolean d) (truth_of (part k p)).
Proof. intros H. part_ H. apply (does_ends _ _ _ _ _ d); [exact H|]. rewrite Hp, E. destruct t as [[] cs]; reflexivity. Qed.
Lemma name_does p k u d : on p k u d -> does p (S k) u (readAndNext_string false d) (name_of (part k p)).
Proof.
  intros H. part_ H. pose proof (on_next _ _ _ _ H) as H'. pose proof (on_among _ _ _ _ H') as H''.
  rewrite Hp. unfold readAndNext_string, auto_next, finally. rewrite E in H', H'' |- *. destruct t as [[] cs]; cbn [does name_of cur_atom here]; eauto.
Qed.
Lemma name_or_null_does p k u d : on p k u d -> does p (S k) u (readAndNext_string true d) (name_or_null_of (part k p)).
Proof.
  intros H. part_ H. pose proof (on_next _ _ _ _ H) as H'. pose proof (on_among _ _ _ _ H') as H''.
  rewrite Hp. unfold readAndNext_string, auto_next, finally. rewrite E in H', H'' |- *. destruct t as [[] cs]; cbn [does name_or_null_of cur_atom here]; eauto.
Qed.

(** ** Loops *)
Fixpoint rounds {A} (f : A -> tree -> ending A) (acc : A) (ts : list tree) : ending A :=
  match ts with [] => Got acc | t :: ts' => also (f acc t) (fun a => rounds f a ts') end.
Lemma also_also {A B C} (r : ending A) (f : A -> ending B) (g : B -> ending C) : also (also r f) g = also r (fun a => also (f a) g).
Proof. destruct r; reflexivity. Qed.
Lemma also_same {A B} (r : ending A) (f g : A -> ending B) : (forall a, f a = g a) -> also r f = also r g.
Proof. destruct r; cbn; auto. Qed.
Lemma also_id {A} (r : ending A) : also r Got = r.
Proof. destruct r; reflexivity. Qed.
Lemma rounds_each {A} (f : tree -> ending A) ts : forall acc,
  rounds (fun acc t => let& x := f t in Got (acc ++ [x])%list) acc ts = let& xs := each f ts in Got (acc ++ xs)%list.
Proof.
  induction ts as [|t ts IH]; intros acc; cbn [rounds each also]; [now rewrite app_nil_r|].
  rewrite !also_also. apply also_same. intros x. cbn [also]. rewrite IH, also_also. apply also_same. intros xs. cbn [also]. now rewrite <- app_assoc.
Qed.
Lemma rounds_app {A} (f : A -> tree -> ending A) ts us : forall acc, rounds f acc (ts ++ us) = let& a := rounds f acc ts in rounds f a us.
Proof. induction ts as [|t ts IH]; intros acc; cbn [rounds app also]; [reflexivity|]. rewrite also_also. apply also_same. exact IH. Qed.
Lemma rounds_rounds {A} (f : A -> tree -> ending A) gs : forall acc,
  rounds (fun acc g => rounds f acc (tree_children g)) acc gs = rounds f acc (flat_map tree_children gs).
Proof. induction gs as [|g gs IH]; intros acc; cbn [rounds flat_map]; [reflexivity|]. rewrite rounds_app. apply also_same. exact IH. Qed.
Lemma rounds_grouped f ts : forall groups, rounds (fun acc t => let& x := f t in result_of (insert notation dependsOn x acc)) groups ts = grouped f groups ts.
Proof.
  induction ts as [|t ts IH]; intros groups; cbn [rounds grouped]; [reflexivity|]. rewrite also_also. apply also_same. intros x. apply also_same. exact IH.
Qed.

Definition ahead (d : data) : list tree := match here d with Before cs => cs | At _ _ r => r end.
Lemma while_does {A} (f : A -> tree -> ending A) (body : A -> PM A) : forall n acc d,
  (forall a l t r u, In t (ahead d) -> ends_at (body a (Data (At l t r) u)) (f a t) (Data (At l t r) u)) -> length (ahead d) <= n ->
  match rounds f acc (ahead d) with
  | Got a => exists d', while_loop n body acc d = Ok a d' /\ siblings (here d') = siblings (here d) /\ ups d' = ups d
  | Thrown e => exists d', while_loop n body acc d = Throw e d' /\ siblings (here d') = siblings (here d) /\ ups d' = ups d
  | Undefined => while_loop n body acc d = UB
  end.
Proof.
  induction n as [|n IH]; intros acc d Hb Hn.
  - destruct d as [[[|c cs]|l t [|t' r]] u]; cbn [ahead here length] in *; try lia; cbn; eauto.
  - assert (Hstep : forall c d', ahead d = c :: ahead d' -> (exists l r u, d' = Data (At l c r) u) -> pn_next_ok d = true -> pn_next d = d' ->
        siblings (here d') = siblings (here d) -> ups d' = ups d ->
        match rounds f acc (ahead d) with
        | Got a => exists d', while_loop (S n) body acc d = Ok a d' /\ siblings (here d') = siblings (here d) /\ ups d' = ups d
        | Thrown e => exists d', while_loop (S n) body acc d = Throw e d' /\ siblings (here d') = siblings (here d) /\ ups d' = ups d
        | Undefined => while_loop (S n) body acc d = UB
        end).
    { intros c d' Ha (l & r & u & Hd) Hok Hnext Hs Hu. rewrite Ha in Hb, Hn |- *. cbn [rounds length] in *. cbn [while_loop]. rewrite Hok, Hnext. unfold bind.
      pose proof (Hb acc l c r u (or_introl eq_refl)) as Hc. rewrite <- Hd in Hc. rewrite Hc.
      destruct (f acc c) as [a|e|]; cbn [also]; [|eauto|reflexivity].
      specialize (IH a d' ltac:(intros; apply Hb; cbn; auto) ltac:(lia)). rewrite Hs, Hu in IH. exact IH. }
    destruct d as [[[|c cs]|l t [|t' r]] u].
    + cbn. eauto.
    + apply (Hstep c (Data (At [] c cs) u)); eauto.
    + cbn. eauto.
    + apply (Hstep t' (Data (At (t :: l) t' r) u)); eauto.
Qed.
Lemma loop_ends {A} (f : A -> tree -> ending A) (body : A -> PM A) acc l t r u :
  (forall a l t' r u, In t' (tree_children t) -> ends_at (body a (Data (At l t' r) u)) (f a t') (Data (At l t' r) u)) ->
  ends_at (auto_list_enter false (fun _ => while_next body acc) (Data (At l t r) u)) (rounds f acc (tree_children t)) (Data (At l t r) u).
Proof.
  intros Hb. destruct t as [a cs]. unfold auto_list_enter, while_next, finally, ends_at. cbn [pn_enter here ups].
  pose proof (while_does f body (length cs) acc (Data (Before cs) (Frame l a r :: u)) Hb (le_n _)) as H. cbn [ahead here siblings tree_children ups] in H |- *.
  destruct (rounds f acc cs) as [x|e|].
  - destruct H as (d' & -> & H1 & H2). f_equal. unfold pn_exit. now rewrite H2, H1.
  - destruct H as (d' & -> & H1 & H2). f_equal. unfold pn_exit. now rewrite H2, H1.
  - now rewrite H.
Qed.
Lemma loop_does {A} (f : A -> tree -> ending A) (body : A -> PM A) acc p k u d : on p k u d ->
  (forall a l t r u, In t (members (part k p)) -> ends_at (body a (Data (At l t r) u)) (f a t) (Data (At l t r) u)) ->
  does p k u (auto_list_enter false (fun _ => while_next body acc) d) (rounds f acc (members (part k p))).
Proof.
  intros H Hb. part_ H. apply (does_ends _ _ _ _ _ d); [exact H|]. rewrite Hp in *. rewrite E. cbn [members]. now apply loop_ends.
Qed.
Lemma texts_does p k u d : on p k u d ->
  does p k u (auto_list_enter false (fun _ => while_next push_string []) d) (texts_of (part k p)).
Proof.
  intros H. replace (texts_of (part k p)) with (rounds (fun acc t => let& x := text_of (Some t) in Got (acc ++ [x])%list) [] (members (part k p))).
  2:{ rewrite rounds_each. unfold texts_of. apply also_id. }
  apply loop_does; [exact H|]. intros a l t r u' _. unfold push_string, bind. destruct t as [[] cs]; reflexivity.
Qed.
Lemma elements_does {X} rec inner (as_ : element -> PM X) (is_ : element -> ending X) p k u d : on p k u d ->
  (forall l t r u, In t (members (part k p)) -> ends_at (rec (Data (At l t r) u)) (inner t) (Data (At l t r) u)) ->
  (forall e d, ends_at (as_ e d) (is_ e) d) ->
  does p k u (auto_list_enter false (fun _ => while_next (fun acc => let! e := rec in let! x := as_ e in ret (acc ++ [x])%list) []) d)
    (each (fun t => let& e := inner t in is_ e) (members (part k p))).
Proof.
  intros H Hrec Has.
  replace (each (fun t => let& e := inner t in is_ e) (members (part k p))) with
    (rounds (fun acc t => let& x := (let& e := inner t in is_ e) in Got (acc ++ [x])%list) [] (members (part k p))).
  2:{ rewrite rounds_each. apply also_id. }
  apply loop_does; [exact H|]. intros a l t r u' Ht. unfold ends_at, bind. rewrite (Hrec l t r u' Ht). destruct (inner t) as [e|e|]; cbn [also]; try reflexivity.
  rewrite Has. destruct (is_ e); reflexivity.
Qed.

(** ** Elements *)
Lemma enter_ends {X} (m : PM X) k l a cs r u res :
  (cs = [] -> (forall u, m (Data (Before []) u) = Throw RuntimeError (Data (Before []) u)) /\ res = Thrown RuntimeError) ->
  (forall d, on (Node a cs) 0 (Frame l a r :: u) d -> does (Node a cs) k (Frame l a r :: u) (m d) res) ->
  ends_at (auto_enter false m (Data (At l (Node a cs) r) u)) res (Data (At l (Node a cs) r) u).
Proof.
  intros H0 H. unfold auto_enter, finally, ends_at, w_enter. cbn [pn_enter here ups]. destruct cs as [|c cs]; cbn [pn_next here ups].
  - destruct (H0 eq_refl) as [-> ->]. reflexivity.
  - specialize (H _ (on_first a c cs _)). destruct res as [x|e|]; cbn [does] in H.
    + destruct H as (d & -> & H). f_equal. apply on_among in H. now apply exit_among.
    + destruct H as (d & -> & H). f_equal. now apply exit_among.
    + now rewrite H.
Qed.

(** The code has been checked already. *)
Lemma validate_ends code c cs u l r : tree_atom c = AULong (vendor code) -> (code < 2 ^ 48)%N -> c = Node (AULong (vendor code)) cs ->
  validateAndNext (Some code) (Data (At l c r) u) = Ok tt (pn_next (Data (At l c r) u)).
Proof.
  intros _ Hc ->. unfold validateAndNext, is_type, pn_dtype. cbn [here atom_type pn_type_eqb negb pn_get_ulong cur_atom].
  pose proof (corda_code_vendor code Hc) as E. unfold corda_code in E. rewrite E, N.eqb_refl. reflexivity.
Qed.

Section Build.
Context (rec : PM element) (inner : tree -> ending element) (limit : nat).
Hypothesis Hrec : forall l t r u, height t < limit -> ends_at (rec (Data (At l t r) u)) (inner t) (Data (At l t r) u).

Lemma part_in k p t : part k p = Some t -> In t (tree_children p).
Proof. unfold part. apply nth_error_In. Qed.
Lemma part_height k p t : part k p = Some t -> height t < height p.
Proof. intros H. apply part_in, heights_in in H. destruct p as [a cs]. rewrite height_node. cbn [tree_children] in H. lia. Qed.
Lemma members_height k p t : In t (members (part k p)) -> height t < height p.
Proof.
  destruct (part k p) as [q|] eqn:E; cbn [members]; [|intros []]. intros H. apply part_height in E. apply heights_in in H. destruct q as [a cs].
  rewrite height_node in E. cbn [tree_children] in H. lia.
Qed.

Lemma rec_does p k u d : on p k u d -> height p < S limit -> does p k u (rec d) (present (part k p) inner).
Proof.
  intros H Hh. part_ H. apply (does_ends _ _ _ _ _ d); [exact H|]. rewrite Hp, E. cbn [present]. apply Hrec. apply part_height in Hp. lia.
Qed.
Lemma cast_does {X} (as_ : element -> PM X) (is_ : element -> ending X) p k u d e : (forall e d, ends_at (as_ e d) (is_ e) d) -> on p k u d -> does p k u (as_ e d) (is_ e).
Proof. intros H Ho. apply (does_ends _ _ _ _ _ d); auto. Qed.
Lemma descriptor_cast e d : ends_at (as_descriptor e d) (a_fingerprint e) d.
Proof. destruct e; reflexivity. Qed.
Lemma field_cast e d : ends_at (as_field e d) (a_property e) d.
Proof. destruct e; reflexivity. Qed.
Lemma choice_cast e d : ends_at (as_choice e d) (a_choice e) d.
Proof. destruct e; reflexivity. Qed.
Lemma type_cast e d : ends_at (as_type e d) (a_type e) d.
Proof. destruct e; reflexivity. Qed.
Lemma schema_cast e d : ends_at (as_schema e d) (a_schema e) d.
Proof. destruct e; reflexivity. Qed.

(** A builder, started on the code of [t]. *)
Definition builds (t : tree) (m : PM element) (parse_ : tree -> ending element) : Prop :=
  forall u d, on t 0 u d -> exists k, does t k u (m d) (present (part 1 t) parse_).

Lemma body_builds code t c cs cs' (m : PM element) parse_ k : (code < 2 ^ 48)%N -> t = Node ADescribed (Node (AULong (vendor code)) cs :: cs') ->
  part 1 t = Some c ->
  (tree_children c = [] -> (forall u, m (Data (Before []) u) = Throw RuntimeError (Data (Before []) u)) /\ parse_ c = Thrown RuntimeError) ->
  (forall u d, on c 0 u d -> does c k u (m d) (parse_ c)) ->
  builds t (validateAndNext (Some code) ;; auto_enter false m)%m parse_.
Proof.
  intros Hc Ht Hp H0 H u d Ho. exists 1. rewrite Hp. cbn [present]. destruct Ho as (l & x & r & -> & Hs & Hl).
  assert (Hl0 : l = []) by (cbn in Hl; destruct l; [reflexivity|discriminate]). subst l. rewrite Ht in Hs. cbn [rev app tree_children] in Hs. injection Hs as -> ->.
  unfold bind. rewrite (validate_ends code _ cs) by auto.
  assert (Ho : on t 1 u (pn_next (Data (At [] (Node (AULong (vendor code)) cs) cs') u))). { apply on_next. rewrite Ht. apply on_first. }
  destruct (on_part _ _ _ _ Ho) as (l & x & r & E & Hx). rewrite Hp in Hx. injection Hx as <-.
  apply (does_ends _ _ _ _ _ _ Ho). rewrite E. destruct c as [a ccs]. apply (enter_ends m k); auto.
Qed.

Ltac steps := repeat first
  [ apply does_got; assumption
  | eapply does_next; [eassumption|intros ?d ?Ho]
  | eapply does_bind; [first [apply text_does | apply text_or_null_does | apply symbol_does | apply truth_does | apply name_does | apply name_or_null_does | apply texts_does]; eassumption|intros ?x ?d ?Ho] ].

Lemma field_builds t c cs cs' : t = Node ADescribed (Node (AULong (vendor 4)) cs :: cs') -> part 1 t = Some c ->
  builds t (build_field (Some FIELD)) parse_property.
Proof.
  intros Ht Hp. unfold build_field. apply (body_builds 4 t c cs cs' _ _ 6); auto; [reflexivity| |].
  - intros Hn. split; [reflexivity|]. unfold parse_property, part. rewrite Hn. reflexivity.
  - intros u d Ho. unfold parse_property. steps. eapply does_bind; [|intros f dd Hoo].
    match goal with |- does _ _ _ (lift (Field_make ?a ?b ?c ?d ?e ?f ?g) ?s) _ =>
      eapply (does_ends _ _ _ _ _ s); [eassumption|]; destruct (property_made a b c d e f g) as [<- H]; apply lift_ends; apply H; exact RuntimeError end.
    steps.
Qed.
Lemma object_builds t c cs cs' : t = Node ADescribed (Node (AULong (vendor 3)) cs :: cs') -> part 1 t = Some c ->
  builds t (build_object (Some OBJECT)) parse_fingerprint.
Proof.
  intros Ht Hp. unfold build_object. apply (body_builds 3 t c cs cs' _ _ 0); auto; [reflexivity| |].
  - intros Hn. split; [reflexivity|]. unfold parse_fingerprint, part. rewrite Hn. reflexivity.
  - intros u d Ho. unfold parse_fingerprint. steps.
Qed.
Lemma choice_builds t c cs cs' : t = Node ADescribed (Node (AULong (vendor 7)) cs :: cs') -> part 1 t = Some c ->
  builds t (build_choice (Some CHOICE)) parse_choice.
Proof.
  intros Ht Hp. unfold build_choice. apply (body_builds 7 t c cs cs' _ _ 0); auto; [reflexivity| |].
  - intros Hn. split; [reflexivity|]. unfold parse_choice, part. rewrite Hn. reflexivity.
  - intros u d Ho. unfold parse_choice. steps.
Qed.
Lemma class_builds t c cs cs' : t = Node ADescribed (Node (AULong (vendor 5)) cs :: cs') -> part 1 t = Some c -> height c < S limit ->
  builds t (build_composite rec (Some COMPOSITE_TYPE)) (parse_class inner).
Proof.
  intros Ht Hp Hh. unfold build_composite. apply (body_builds 5 t c cs cs' _ _ 4); auto; [reflexivity| |].
  - intros Hn. split; [reflexivity|]. unfold parse_class, part. rewrite Hn. reflexivity.
  - intros u d Ho. unfold parse_class. steps. eapply does_bind; [apply rec_does; eassumption|intros e ? ?].
    eapply does_bind; [apply (cast_does _ a_fingerprint _ _ _ _ _ descriptor_cast); eassumption|intros ? ? ?]. steps.
    eapply does_bind; [apply (elements_does rec inner as_field a_property); [eassumption| |exact field_cast]|intros ? ? ?; steps].
    intros ? ? ? ? Hx. apply Hrec. apply members_height in Hx. lia.
Qed.
Lemma container_builds t c cs cs' : t = Node ADescribed (Node (AULong (vendor 6)) cs :: cs') -> part 1 t = Some c -> height c < S limit ->
  builds t (build_restricted rec (Some RESTRICTED_TYPE)) (parse_container inner).
Proof.
  intros Ht Hp Hh. unfold build_restricted. apply (body_builds 6 t c cs cs' _ _ 5); auto; [reflexivity| |].
  - intros Hn. split; [reflexivity|]. unfold parse_container, part. rewrite Hn. reflexivity.
  - intros u d Ho. unfold parse_container. steps. eapply does_bind; [apply rec_does; eassumption|intros e ? ?].
    eapply does_bind; [apply (cast_does _ a_fingerprint _ _ _ _ _ descriptor_cast); eassumption|intros ? ? ?]. steps.
    eapply does_bind; [apply (elements_does rec inner as_choice a_choice); [eassumption| |exact choice_cast]|intros ? ? ?].
    + intros ? ? ? ? Hx. apply Hrec. apply members_height in Hx. lia.
    + eapply does_bind; [|intros ? ? ?].
      match goal with |- does _ _ _ (lift (Restricted_make ?a ?b ?c ?d ?e ?f) ?s) _ =>
        eapply (does_ends _ _ _ _ _ s); [eassumption|]; destruct (container_made a b c d e f) as [<- H']; apply lift_ends; apply H'; exact RuntimeError end.
      steps.
Qed.
Lemma ignored_builds code t c cs cs' : (code < 2 ^ 48)%N -> t = Node ADescribed (Node (AULong (vendor code)) cs :: cs') -> part 1 t = Some c ->
  builds t (build_ignored (Some code)) (fun _ => Got ENull).
Proof.
  intros Hc Ht Hp u d Ho. exists 1. rewrite Hp. cbn [present]. pose proof (on_next _ _ _ _ Ho) as Hn. destruct Ho as (l & x & r & -> & Hs & Hl).
  assert (Hl0 : l = []) by (cbn in Hl; destruct l; [reflexivity|discriminate]). subst l. rewrite Ht in Hs. cbn [rev app tree_children] in Hs. injection Hs as -> ->.
  unfold build_ignored, bind. rewrite (validate_ends code _ cs) by auto. apply does_got. exact Hn.
Qed.
Lemma schema_builds t c cs cs' : t = Node ADescribed (Node (AULong (vendor 2)) cs :: cs') -> part 1 t = Some c -> height c < S limit ->
  builds t (build_schema rec (Some SCHEMA)) (parse_schema inner).
Proof.
  intros Ht Hp Hh u d Ho. exists 1. rewrite Hp. cbn [present]. pose proof (on_next _ _ _ _ Ho) as Hn. destruct Ho as (l & x & r & -> & Hs & Hl).
  assert (Hl0 : l = []) by (cbn in Hl; destruct l; [reflexivity|discriminate]). subst l. rewrite Ht in Hs. cbn [rev app tree_children] in Hs. injection Hs as -> ->.
  unfold build_schema. unfold bind at 1. rewrite (validate_ends 2 _ cs) by (auto; reflexivity). unfold parse_schema.
  eapply does_bind; [|intros groups d' Ho'; apply does_got; exact Ho'].
  rewrite <- rounds_grouped, <- rounds_rounds. part_ Hn. rewrite Hp in Hp0. injection Hp0 as <-. apply (does_ends _ _ _ _ _ _ Hn). rewrite E.
  apply (loop_ends (fun acc g => rounds _ acc (tree_children g))). intros acc l1 g r1 u1 Hg. apply loop_ends. intros acc' l2 y r2 u2 Hy.
  unfold ends_at, bind. rewrite Hrec.
  2:{ destruct c as [a ccs]. rewrite height_node in Hh. apply heights_in in Hy. apply heights_in in Hg. destruct g as [ga gcs]. rewrite height_node in Hg.
      cbn [tree_children] in Hy, Hg. lia. }
  destruct (inner y) as [e|e|]; cbn [also]; try reflexivity. rewrite type_cast. destruct (a_type e) as [x|x|]; cbn [also]; try reflexivity.
  destruct (insert_fine x acc') as [[gs H]|H]; rewrite H; reflexivity.
Qed.
Lemma envelope_builds t c cs cs' : t = Node ADescribed (Node (AULong (vendor 1)) cs :: cs') -> part 1 t = Some c -> height c < S limit ->
  builds t (build_envelope rec (Some ENVELOPE)) (parse_envelope inner).
Proof.
  intros Ht Hp Hh u d Ho. exists 1. rewrite Hp. cbn [present]. pose proof (on_next _ _ _ _ Ho) as Hn. destruct Ho as (l & x & r & -> & Hs & Hl).
  assert (Hl0 : l = []) by (cbn in Hl; destruct l; [reflexivity|discriminate]). subst l. rewrite Ht in Hs. cbn [rev app tree_children] in Hs. injection Hs as -> ->.
  unfold build_envelope. unfold bind at 1. rewrite (validate_ends 1 _ cs) by (auto; reflexivity).
  replace (parse_envelope inner c) with (let& x := (let& fp := present (part 0 c) (fun payload =>
    match tree_atom payload with ADescribed => symbol_of (part 0 payload) | _ => Thrown RuntimeError end) in
    let& e := present (part 1 c) inner in let& s := a_schema e in Got (s, fp)) in
    let (s, fp) := (x : schema * string) in Got (EEnvelope {| e_schema := s; e_descriptor := fp |})).
  2:{ unfold parse_envelope. rewrite also_also. apply also_same. intros fp. rewrite also_also. apply also_same. intros e. rewrite also_also. reflexivity. }
  eapply does_bind; [|intros [s fp] d' Ho'; apply does_got; exact Ho'].
  part_ Hn. rewrite Hp in Hp0. injection Hp0 as <-. apply (does_ends _ _ _ _ _ _ Hn). rewrite E. destruct c as [a ccs].
  apply (enter_ends _ 2).
  - intros ->. split; reflexivity.
  - intros d0 O0. eapply does_bind; [|intros fp d1 O1].
    + part_ O0. apply (does_ends _ _ _ _ _ _ O0). rewrite Hp0, E0. cbn [present]. unfold consumeBlob, bind, ends_at.
      destruct t0 as [b bcs]. unfold attest_is_described, require, is_type, pn_dtype. cbn [here tree_atom].
      destruct b; try reflexivity. cbn [atom_type pn_type_eqb]. apply (enter_ends get_symbol 0).
      * intros ->. split; reflexivity.
      * intros d2 O2. now apply symbol_does.
    + steps. eapply does_bind; [apply rec_does; eassumption|intros e ? ?].
      eapply does_bind; [apply (cast_does _ a_schema _ _ _ _ _ schema_cast); eassumption|intros ? ? ?]. steps.
Qed.

Lemma id_builds code t c cs cs' : t = Node ADescribed (Node (AULong code) cs :: cs') -> part 1 t = Some c -> height c < S limit ->
  builds t (build_id rec code) (parse_element inner code).
Proof.
  intros Ht Hp Hh. unfold build_id, registered, registry, parse_element. cbn [lookup].
  rewrite !corda_code_vendor by reflexivity. cbn [existsb].
  unfold ENVELOPE, SCHEMA, OBJECT, FIELD, COMPOSITE_TYPE, RESTRICTED_TYPE, CHOICE, REFERENCED_OBJECT, TRANSFORM_SCHEMA, TRANSFORM_ELEMENT, TRANSFORM_ELEMENT_KEY.
  repeat match goal with |- context[N.eqb code ?v] => destruct (N.eqb_spec code v) as [->|]; cbn [orb] end; unfold build; cbn [d_kind d_val].
  - intros u d Ho. exists 0. rewrite Hp. cbn. exists d. split; [reflexivity|]. eapply on_among; eassumption.
  - eapply envelope_builds; eassumption.
  - eapply schema_builds; eassumption.
  - eapply object_builds; eassumption.
  - eapply field_builds; eassumption.
  - eapply class_builds; eassumption.
  - eapply container_builds; eassumption.
  - eapply choice_builds; eassumption.
  - eapply (ignored_builds 8); try eassumption; reflexivity.
  - eapply (ignored_builds 9); try eassumption; reflexivity.
  - eapply (ignored_builds 10); try eassumption; reflexivity.
  - eapply (ignored_builds 11); try eassumption; reflexivity.
  - intros u d Ho. exists 0. rewrite Hp. reflexivity.
Qed.
End Build.

Theorem parses_exactly : forall fuel l t r u, height t < fuel -> ends_at (dispatchDescribed fuel (Data (At l t r) u)) (parse fuel t) (Data (At l t r) u).
Proof.
  induction fuel as [|fuel IH]; intros l t r u Hh; [lia|]. cbn [dispatchDescribed parse]. unfold bind at 1. destruct t as [a cs].
  unfold attest_is_described, require, is_type at 1, pn_dtype at 1. cbn [here].
  destruct a; try reflexivity. cbn [atom_type pn_type_eqb].
  destruct cs as [|[b bcs] cs]; [reflexivity|].
  destruct b as [| | | | | | | | |code| | | | | | | | | | | | | | |];
    try (apply (enter_ends _ 0); [discriminate|]; intros d O0; destruct O0 as (l1 & t1 & r1 & -> & Hs & Hl); destruct l1; [|discriminate]; cbn in Hs; injection Hs as -> ->; cbn;
         eexists; split; [reflexivity|split; reflexivity]).
  assert (Hp : exists c, part 1 (Node ADescribed (Node (AULong code) bcs :: cs)) = Some c).
  { unfold part. cbn [tree_children]. destruct cs; cbn; eauto. }
  destruct Hp as [c Hp]. assert (Hc : height c < S fuel). { apply part_height in Hp. lia. }
  destruct (id_builds (dispatchDescribed fuel) (parse fuel) fuel IH code _ c bcs cs eq_refl Hp Hc (Frame l ADescribed r :: u) _ (on_first _ _ _ _)) as [k H].
  apply (enter_ends _ k); [discriminate|]. intros d O0. destruct O0 as (l1 & t1 & r1 & -> & Hs & Hl).
  assert (Hl0 : l1 = []) by (cbn in Hl; destruct l1; [reflexivity|discriminate]). subst l1. cbn [rev app tree_children] in Hs. injection Hs as -> ->. exact H.
Qed.

(** ** Trees that are safe to parse *)
Definition kind_of (v : N) (e : element) : Prop :=
  match e with
  | EEnvelope _ => v = vendor 1 | ESchema _ => v = vendor 2 | EDescriptor _ => v = vendor 3 | EField _ => v = vendor 4
  | EType _ => v = vendor 5 \/ v = vendor 6 | EChoice _ => v = vendor 7 | ENull => exists n, In n [8; 9; 10; 11]%N /\ v = vendor n
  end.
Definition solid (f : field) : Prop := exists s, resolvedType f = Ret s.
Definition solid_type (t : notation) : Prop := match t with TComposite c => Forall solid (c_fields c) | TRestricted _ => True end.
Definition solid_element (e : element) : Prop :=
  match e with
  | EField f => solid f | EType t => solid_type t
  | ESchema s => Forall solid_type (List.concat (s_types s)) | EEnvelope x => Forall solid_type (List.concat (s_types (e_schema x)))
  | _ => True
  end.
Definition fits {A} (r : ending A) (P : A -> Prop) : Prop := match r with Got a => P a | Thrown _ => True | Undefined => False end.
Lemma fits_also {A B} (r : ending A) (f : A -> ending B) (P : A -> Prop) (Q : B -> Prop) : fits r P -> (forall a, r = Got a -> P a -> fits (f a) Q) -> fits (also r f) Q.
Proof. destruct r; cbn; auto. Qed.
Lemma fits_more {A} (r : ending A) (P Q : A -> Prop) : fits r P -> (forall a, P a -> Q a) -> fits r Q.
Proof. destruct r; cbn; auto. Qed.
Lemma fits_each {A} (f : tree -> ending A) (P : A -> Prop) ts : (forall t, In t ts -> fits (f t) P) -> fits (each f ts) (Forall P).
Proof.
  induction ts as [|t ts IH]; intros H; cbn [each]; [constructor|]. apply (fits_also _ _ P); [apply H; cbn; auto|]. intros x _ Hx.
  apply (fits_also _ _ (Forall P)); [apply IH; intros; apply H; cbn; auto|]. intros xs _ Hxs. cbn. auto.
Qed.

Lemma resolved_solid n fs : Forall solid fs -> exists b, any_resolved n fs = Ret b.
Proof.
  induction 1 as [|f fs [s Hs] _ IH]; cbn [any_resolved]; [eauto|]. rewrite Hs. cbn [rbind]. destruct (String.eqb s n); eauto.
Qed.
Lemma subtype_solid n fs : Forall solid fs -> exists b, any_subtype n fs = Ret b.
Proof.
  induction 1 as [|f fs [s Hs] _ IH]; cbn [any_subtype]; [eauto|]. destruct (is_restricted_t f); [destruct (memb n (f_subTypes f)); eauto|].
  rewrite Hs. cbn [rbind]. destruct (String.eqb s n); eauto.
Qed.
Lemma dependsOn_solid a b : solid_type a -> solid_type b -> exists n, dependsOn a b = Ret n.
Proof.
  destruct b as [r|r], a as [s|s]; cbn [dependsOn solid_type]; intros Ha Hb.
  - unfold composite_rhs_composite. destruct (subtype_solid (c_name s) _ Hb) as [x ->]. cbn [rbind]. destruct x; [eauto|].
    destruct (resolved_solid (c_name r) _ Ha) as [y ->]. cbn [rbind]. eauto.
  - unfold composite_rhs_restricted. destruct (resolved_solid (r_name s) _ Hb) as [x ->]. cbn [rbind]. destruct x; eauto.
  - unfold restricted_rhs_composite. destruct (match r_kind r with list_t | array_t => _ | _ => _ end); [eauto|].
    destruct (resolved_solid (r_name r) _ Ha) as [y ->]. cbn [rbind]. eauto.
  - eauto.
Qed.
Section Solid.
  Context (T : Type) (dep : T -> T -> res nat) (P : T -> Prop).
  Hypothesis solid_dep : forall a b, P a -> P b -> exists n, dep a b = Ret n.
  Hypothesis small : forall a b n, dep a b = Ret n -> n <= 2.
  Definition settled (r : res (list (list T))) : Prop := match r with Ret l => Forall P (List.concat l) | NoFuel => True | _ => False end.
  Lemma scan_level_solid p i : P p -> forall lvl ip, Forall P lvl -> exists x, scan_level T dep p i lvl ip = Ret x.
  Proof.
    intros Hp. induction lvl as [|j lvl IH]; intros ip H; cbn [scan_level]; [eauto|]. inversion_clear H.
    destruct (solid_dep j p) as [n ->]; auto. cbn [rbind]. destruct n as [|[|[|n]]]; eauto.
  Qed.
  Lemma scan_solid p : P p -> forall levels i ip, Forall P (List.concat levels) -> exists x, scan T dep p i levels ip = Ret x.
  Proof.
    intros Hp. induction levels as [|lvl levels IH]; intros i ip H; cbn [scan]; [eauto|]. cbn in H. apply Forall_app in H as [H1 H2].
    destruct (scan_level_solid p i Hp lvl ip H1) as [[ip' stop] ->]. cbn [rbind]. destruct stop; eauto.
  Qed.
  Lemma shuffle_solid rec p : P p -> (forall e l, P e -> Forall P (List.concat l) -> settled (rec e l)) -> forall members pre kept behind,
    Forall P members -> Forall P (List.concat pre) -> Forall P kept -> Forall P (List.concat behind) ->
    match shuffle T dep rec p members pre kept behind with
    | Ret (pre', kept', behind') => Forall P (List.concat pre') /\ Forall P kept' /\ Forall P (List.concat behind')
    | NoFuel => True | _ => False end.
  Proof.
    intros Hp Hrec. induction members as [|e members IH]; intros pre kept behind H1 H2 H3 H4; cbn [shuffle].
    - auto using Forall_rev.
    - inversion_clear H1. destruct (solid_dep p e) as [n ->]; auto. cbn [rbind]. destruct n as [|[|[|n]]].
      + apply IH; auto.
      + specialize (Hrec e behind H H4). destruct (rec e behind) as [b| | | |]; cbn [settled rbind] in Hrec |- *; try contradiction; try exact I. apply IH; auto.
      + apply IH; auto. rewrite concat_app. cbn. apply Forall_app. auto.
      + apply IH; auto.
  Qed.
  Lemma insert_solid fuel : forall p levels, P p -> Forall P (List.concat levels) -> settled (insert_at T dep fuel p levels).
  Proof.
    induction fuel as [|fuel IH]; intros p levels Hp H; cbn [insert_at]; [exact I|].
    destruct (scan_solid p Hp levels 0 0 H) as [ip ->]. cbn [rbind]. pose proof (firstn_skipn ip levels) as E.
    destruct (skipn ip levels) as [|lvl behind].
    - cbn. rewrite concat_app. cbn. apply Forall_app. auto.
    - rewrite <- E in H. rewrite concat_app in H. cbn in H. apply Forall_app in H as [H1 H]. apply Forall_app in H as [H2 H3].
      pose proof (shuffle_solid _ p Hp IH lvl [] [] behind H2 (Forall_nil _) (Forall_nil _) H3) as K.
      destruct (shuffle T dep (insert_at T dep fuel) p lvl [] [] behind) as [[[pre kept] b]| | | |]; cbn [rbind settled]; auto.
      destruct K as (K1 & K2 & K3). rewrite !concat_app, !Forall_app. repeat split; auto. cbn [List.concat]. rewrite app_nil_r. auto.
  Qed.
End Solid.
Lemma insert_settled t levels : solid_type t -> Forall solid_type (List.concat levels) ->
  fits (result_of (insert notation dependsOn t levels)) (fun l => Forall solid_type (List.concat l)).
Proof.
  intros H1 H2. pose proof (insert_solid notation dependsOn solid_type dependsOn_solid (S (length (List.concat levels))) t levels H1 H2) as K.
  pose proof (insert_fuel notation dependsOn dependsOn_fuel t levels) as F. unfold insert in *.
  destruct (insert_at notation dependsOn _ t levels); cbn in *; auto; contradiction.
Qed.

Lemma vendor_inj a b : vendor a = vendor b -> a = b.
Proof. unfold vendor. lia. Qed.
Lemma vendor_large a : vendor a <> 22%N.
Proof. unfold vendor. lia. Qed.
Lemma only_kind codes t v e : only codes t = true -> described_by t = Some v -> kind_of v e -> exists n, In n codes /\ v = vendor n.
Proof.
  unfold only. intros H Hd K. rewrite Hd in H. apply Bool.orb_true_iff in H as [H|H].
  - apply N.eqb_eq in H. subst v. exfalso. destruct e; cbn [kind_of] in K.
    5: destruct K as [K|K]. 8: destruct K as (n & _ & K). all: symmetry in K; revert K; apply vendor_large.
  - apply existsb_exists in H as (n & Hn & H). apply N.eqb_eq in H. eauto.
Qed.

Section Safe.
Context (inner : tree -> ending element) (limit : nat).
Hypothesis Hin : forall t, height t < limit -> everywhere placed t = true -> fits (inner t) (fun e => (exists v, described_by t = Some v /\ kind_of v e) /\ solid_element e).

Lemma everywhere_here P t : everywhere P t = true -> P t = true.
Proof. destruct t. cbn [everywhere]. intros H. now apply Bool.andb_true_iff in H as [H _]. Qed.
Lemma everywhere_in P t c : everywhere P t = true -> In c (tree_children t) -> everywhere P c = true.
Proof. destruct t as [a cs]. cbn [everywhere tree_children]. intros H Hc. apply Bool.andb_true_iff in H as [_ H]. rewrite forallb_forall in H. auto. Qed.
Lemma everywhere_part P t k c : everywhere P t = true -> part k t = Some c -> everywhere P c = true.
Proof. intros H Hp. apply part_in in Hp. eauto using everywhere_in. Qed.
Lemma everywhere_member P t k c : everywhere P t = true -> In c (members (part k t)) -> everywhere P c = true.
Proof. intros H Hc. destruct (part k t) as [p|] eqn:E; [|destruct Hc]. apply (everywhere_part _ _ _ _ H) in E. eauto using everywhere_in. Qed.

Lemma inner_only codes t : height t < limit -> everywhere placed t = true -> only codes t = true ->
  fits (inner t) (fun e => (exists v n, In n codes /\ v = vendor n /\ kind_of v e) /\ solid_element e).
Proof.
  intros H0 H1 H2. apply (fits_more _ _ _ (Hin t H0 H1)). intros e [(v & Hv & K) S]. split; [|exact S].
  destruct (only_kind _ _ _ _ H2 Hv K) as (n & Hn & E). eauto.
Qed.
Lemma text_fits o : fits (text_of o) (fun s => exists cs, o = Some (Node (AString s) cs)).
Proof. destruct o as [[[] cs]|]; cbn; eauto. Qed.
Lemma text_or_null_fits o : fits (text_or_null_of o) (fun _ => True).
Proof. destruct o as [[[] cs]|]; cbn; eauto. Qed.
Lemma symbol_fits o : fits (symbol_of o) (fun _ => True).
Proof. destruct o as [[[] cs]|]; cbn; eauto. Qed.
Lemma truth_fits o : fits (truth_of o) (fun _ => True).
Proof. destruct o as [[[] cs]|]; cbn; eauto. Qed.
Lemma name_fits o : fits (name_of o) (fun s => exists t, o = Some t /\ (tree_atom t = AString s \/ tree_atom t = ASymbol s)).
Proof. destruct o as [[[] cs]|]; cbn; eauto. Qed.
Lemma name_or_null_fits o : fits (name_or_null_of o) (fun _ => True).
Proof. destruct o as [[[] cs]|]; cbn; eauto. Qed.
Lemma each_texts ts : fits (each (fun t => text_of (Some t)) ts) (fun ss => map tree_atom ts = map AString ss).
Proof.
  induction ts as [|t ts IH]; cbn [each]; [reflexivity|]. apply (fits_also _ _ _ _ (text_fits (Some t))). intros s _ [cs [= ->]].
  apply (fits_also _ _ _ _ IH). intros ss _ Hss. cbn. now rewrite Hss.
Qed.
Lemma texts_fits o : fits (texts_of o) (fun ss => map tree_atom (members o) = map AString ss).
Proof. apply each_texts. Qed.

Lemma property_safe body : if_present clear (part 1 body) &&
         (negb (if_present is_wildcard (part 1 body)) ||
          match members (part 2 body) with [] => false | r :: _ => clear r end) = true ->
  fits (parse_property body) (fun e => exists f, e = EField f /\ solid f).
Proof.
  intros H. apply Bool.andb_true_iff in H as [H1 H2]. unfold parse_property.
  apply (fits_also _ _ _ _ (text_fits _)). intros name _ _.
  apply (fits_also _ _ _ _ (text_fits _)). intros type _ [tcs Ht]. rewrite Ht in H1, H2. cbn [if_present clear is_wildcard tree_atom] in H1, H2.
  apply (fits_also _ _ _ _ (texts_fits _)). intros requires _ Hr.
  apply (fits_also _ _ _ _ (text_or_null_fits _)). intros default _ _.
  apply (fits_also _ _ _ _ (text_or_null_fits _)). intros label _ _.
  apply (fits_also _ _ _ _ (truth_fits _)). intros mandatory _ _.
  apply (fits_also _ _ _ _ (truth_fits _)). intros multiple _ _.
  apply (fits_also _ _ solid); [|intros f _ Hf; cbn; eauto].
  unfold property_of, solid. change SpecTypes.primitive_name with typeIsPrimitive. destruct (typeIsPrimitive type) eqn:Ep; [cbn; eauto|]. apply Bool.negb_true_iff in H1. rewrite H1.
  destruct (array_name type).
  - rewrite subtypes_are. destruct (subTypes_fuel requires) as [->|[ss ->]]; cbn; eauto.
  - destruct (String.eqb type "*"); cbn [negb]; [|cbn; eauto]. cbn [negb orb] in H2.
    destruct (members (part 2 body)) as [|r rs]; [discriminate|]. destruct requires as [|q qs]; [discriminate|]. cbn [map] in Hr. injection Hr as Hr _.
    unfold clear in H2. rewrite Hr in H2. apply Bool.negb_true_iff in H2. rewrite H2. destruct (array_name q || list_name q || map_name q); [|exact I].
    rewrite subtypes_are. destruct (subTypes_fuel (q :: qs)) as [->|[ss ->]]; cbn; eauto.
Qed.
Lemma kind_exact n e : In n [1; 2; 3; 4; 5; 6; 7]%N -> kind_of (vendor n) e ->
  match e with
  | EEnvelope _ => n = 1%N | ESchema _ => n = 2%N | EDescriptor _ => n = 3%N | EField _ => n = 4%N
  | EType _ => n = 5%N \/ n = 6%N | EChoice _ => n = 7%N | ENull => False
  end.
Proof.
  intros Hn K. destruct e; cbn [kind_of] in K; try (apply vendor_inj in K; exact K).
  - destruct K as [K|K]; apply vendor_inj in K; auto.
  - destruct K as (m & Hm & K). apply vendor_inj in K. subst m. cbn in Hn, Hm. intuition congruence.
Qed.
Lemma fingerprint_safe o : (forall t, o = Some t -> height t < limit /\ everywhere placed t = true) -> if_present (only [3]%N) o = true ->
  fits (present o inner) (fun e => exists s, e = EDescriptor s).
Proof.
  intros H1 H2. destruct o as [t|]; cbn [present]; [|exact I]. apply (fits_more _ _ _ (inner_only [3]%N t (proj1 (H1 t eq_refl)) (proj2 (H1 t eq_refl)) H2)).
  intros e [(v & n & [<-|[]] & -> & K) _]. apply kind_exact in K; [|cbn; auto]. destruct e; try discriminate; eauto; destruct K; discriminate.
Qed.
Lemma class_safe body : height body < S limit -> everywhere placed body = true -> if_present (only [3]%N) (part 3 body) && forallb (only [4]%N) (members (part 4 body)) = true ->
  fits (parse_class inner body) (fun e => exists t, e = EType t /\ solid_type t).
Proof.
  intros Hh He H. apply Bool.andb_true_iff in H as [H1 H2]. rewrite forallb_forall in H2. unfold parse_class.
  apply (fits_also _ _ _ _ (text_fits _)). intros name _ _.
  apply (fits_also _ _ _ _ (text_or_null_fits _)). intros label _ _.
  apply (fits_also _ _ _ _ (texts_fits _)). intros provides _ _.
  eapply fits_also; [apply fingerprint_safe; [|exact H1]; intros t Ht; split; [apply part_height in Ht; lia|eauto using everywhere_part]|]. intros e _ [fp ->]. cbn [a_fingerprint also].
  apply (fits_also _ _ (Forall solid)); [|intros fs _ Hfs; cbn; eauto].
  apply fits_each. intros t Ht. eapply fits_also; [apply (inner_only [4]%N t); [apply members_height in Ht; lia|eauto using everywhere_member|auto]|].
  intros e _ [(v & n & [<-|[]] & -> & K) S]. apply kind_exact in K; [|cbn; auto]. destruct e; try discriminate; try exact S; destruct K; discriminate.
Qed.
Lemma container_safe body : height body < S limit -> everywhere placed body = true ->
  if_present clear_container (part 0 body) && if_present (only [3]%N) (part 4 body) && forallb (only [7]%N) (members (part 5 body)) = true ->
  fits (parse_container inner body) (fun e => exists t, e = EType t /\ solid_type t).
Proof.
  intros Hh He H. apply Bool.andb_true_iff in H as [H H3]. apply Bool.andb_true_iff in H as [H1 H2]. rewrite forallb_forall in H3. unfold parse_container.
  apply (fits_also _ _ _ _ (name_fits _)). intros name _ (t & Ht & Hn). rewrite Ht in H1.
  assert (Hc : unclear (makePrim name) = false). { cbn [if_present] in H1. unfold clear_container in H1. apply Bool.negb_true_iff. destruct Hn as [Hn|Hn]; rewrite Hn in H1; exact H1. }
  apply (fits_also _ _ _ _ (name_or_null_fits _)). intros label _ _.
  apply (fits_also _ _ _ _ (texts_fits _)). intros provides _ _.
  apply (fits_also _ _ _ _ (name_fits _)). intros source _ _.
  eapply fits_also; [apply fingerprint_safe; [|exact H2]; intros x Hx; split; [apply part_height in Hx; lia|eauto using everywhere_part]|]. intros e _ [fp ->]. cbn [a_fingerprint also].
  apply (fits_also _ _ (Forall (fun _ => True))).
  - apply fits_each. intros x Hx. eapply fits_also; [apply (inner_only [7]%N x); [apply members_height in Hx; lia|eauto using everywhere_member|auto]|].
    intros e _ [(v & n & [<-|[]] & -> & K) S]. apply kind_exact in K; [|cbn; auto 10]. destruct e; try discriminate; try exact I; destruct K; discriminate.
  - intros choices _ _. apply (fits_also _ _ (fun _ => True)); [|intros r _ _; exists (TRestricted r); split; [reflexivity|exact I]]. unfold container_of. destruct (String.eqb source "map").
    + destruct (map_parts (makePrim name)) as [[[a k] w]|]; exact I.
    + destruct (String.eqb source "list"); cbn [negb]; [|exact I]. destruct choices; [|exact I]. rewrite Hc. destruct (array_name (makePrim name)).
      * exact I.
      * exact I.
Qed.
Lemma grouped_safe ts : (forall t, In t ts -> height t < limit /\ everywhere placed t = true /\ only [5; 6]%N t = true) -> forall groups, Forall solid_type (List.concat groups) ->
  fits (grouped (fun t => let& e := inner t in a_type e) groups ts) (fun gs => Forall solid_type (List.concat gs)).
Proof.
  induction ts as [|t ts IH]; intros H groups Hg; cbn [grouped]; [exact Hg|]. destruct (H t) as (H0 & H1 & H2); [cbn; auto|].
  apply (fits_also _ _ solid_type).
  - eapply fits_also; [apply (inner_only [5; 6]%N t H0 H1 H2)|]. intros e _ [(v & n & Hn & -> & K) S].
    apply kind_exact in K; [|cbn in Hn |- *; intuition]. cbn in Hn. destruct e; try exact S; try contradiction; subst n; cbn in Hn; intuition discriminate.
  - intros x _ Hx. apply (fits_also _ _ _ _ (insert_settled x groups Hx Hg)). intros gs _ Hgs. apply IH; auto. intros; apply H; cbn; auto.
Qed.
Lemma schema_safe body : height body < S limit -> everywhere placed body = true -> forallb (only [5; 6]%N) (flat_map tree_children (tree_children body)) = true ->
  fits (parse_schema inner body) (fun e => exists s, e = ESchema s /\ Forall solid_type (List.concat (s_types s))).
Proof.
  intros Hh He H. rewrite forallb_forall in H. unfold parse_schema. eapply fits_also; [apply grouped_safe; [|constructor]|intros gs _ Hgs; cbn; eauto].
  intros t Ht. split; [|split; [|auto]]; apply in_flat_map in Ht as (g & Hg & Ht); [|eauto using everywhere_in].
  destruct body as [a cs]. rewrite height_node in Hh. apply heights_in in Ht. apply heights_in in Hg. destruct g as [ga gcs]. rewrite height_node in Hg. cbn [tree_children] in Ht, Hg. lia.
Qed.
Lemma envelope_safe body : height body < S limit -> everywhere placed body = true -> if_present (only [2]%N) (part 1 body) = true ->
  fits (parse_envelope inner body) (fun e => exists x, e = EEnvelope x /\ Forall solid_type (List.concat (s_types (e_schema x)))).
Proof.
  intros Hh He H. unfold parse_envelope. apply (fits_also _ _ (fun _ => True)).
  - destruct (part 0 body) as [p|]; cbn [present]; [|exact I]. destruct (tree_atom p); try exact I. apply symbol_fits.
  - intros fp _ _. destruct (part 1 body) as [s|] eqn:E; cbn [present]; [|exact I]. cbn [if_present] in H.
    eapply fits_also; [apply (inner_only [2]%N s); [apply part_height in E; lia|eauto using everywhere_part|auto]|].
    intros e _ [(v & n & [<-|[]] & -> & K) S]. apply kind_exact in K; [|cbn; auto]. destruct e; try discriminate; cbn; eauto; destruct K; discriminate.
Qed.
End Safe.

Theorem parse_safe : forall fuel t, height t < fuel -> everywhere placed t = true ->
  fits (parse fuel t) (fun e => (exists v, described_by t = Some v /\ kind_of v e) /\ solid_element e).
Proof.
  induction fuel as [|fuel IH]; intros t Hh He; [lia|]. cbn [parse].
  destruct t as [[] [|[[] bcs] cs]]; try exact I.
  pose proof (everywhere_here _ _ He) as Hp. unfold placed in Hp. set (t := Node ADescribed (Node (AULong n) bcs :: cs)) in *.
  change (described_by t) with (Some n) in *. destruct (part 1 t) as [body|] eqn:E; cbn [present]; [|exact I].
  apply Bool.andb_true_iff in Hp as [Ho Hp]. pose proof (everywhere_part _ _ _ _ He E) as Heb. pose proof (part_height _ _ _ E) as Hhb.
  assert (Hb : height body < S fuel) by lia. clear Hhb. unfold parse_element.
  destruct (N.eqb_spec n 22) as [->|H22]; [exact I|].
  destruct (N.eqb_spec n (vendor 1)) as [->|H1].
  { apply (fits_more _ _ _ (envelope_safe _ _ IH body Hb Heb Hp)). intros e (x & -> & Hx). cbn. eauto. }
  destruct (N.eqb_spec n (vendor 2)) as [->|H2].
  { apply (fits_more _ _ _ (schema_safe _ _ IH body Hb Heb Hp)). intros e (x & -> & Hx). cbn. eauto. }
  destruct (N.eqb_spec n (vendor 3)) as [->|H3].
  { apply (fits_also _ _ _ _ (symbol_fits _)). intros s _ _. cbn. eauto. }
  destruct (N.eqb_spec n (vendor 4)) as [->|H4].
  { apply (fits_more _ _ _ (property_safe body Hp)). intros e (x & -> & Hx). cbn. eauto. }
  destruct (N.eqb_spec n (vendor 5)) as [->|H5].
  { apply (fits_more _ _ _ (class_safe _ _ IH body Hb Heb Hp)). intros e (x & -> & Hx). cbn. eauto 6. }
  destruct (N.eqb_spec n (vendor 6)) as [->|H6].
  { apply (fits_more _ _ _ (container_safe _ _ IH body Hb Heb Hp)). intros e (x & -> & Hx). cbn. eauto 6. }
  destruct (N.eqb_spec n (vendor 7)) as [->|H7].
  { apply (fits_also _ _ _ _ (text_fits _)). intros s _ _. cbn. eauto. }
  assert (Hx : exists m, In m [8; 9; 10; 11]%N /\ n = vendor m).
  { unfold only in Ho. change (described_by t) with (Some n) in Ho. cbn [existsb] in Ho.
    rewrite (proj2 (N.eqb_neq _ _) H22), (proj2 (N.eqb_neq _ _) H1), (proj2 (N.eqb_neq _ _) H2), (proj2 (N.eqb_neq _ _) H3), (proj2 (N.eqb_neq _ _) H4),
      (proj2 (N.eqb_neq _ _) H5), (proj2 (N.eqb_neq _ _) H6), (proj2 (N.eqb_neq _ _) H7) in Ho. cbn [orb] in Ho.
    rewrite !Bool.orb_true_iff, !N.eqb_eq in Ho. cbn [In]. destruct Ho as [Ho|[Ho|[Ho|[Ho|Ho]]]]; [eauto 9..|discriminate]. }
  replace (existsb (fun m => (n =? vendor m)%N) [8; 9; 10; 11]%N) with true.
  { split; [|exact I]. exists n. split; [reflexivity|exact Hx]. }
  symmetry. apply existsb_exists. destruct Hx as (m & Hm & ->). exists m. split; [exact Hm|]. apply N.eqb_refl.
Qed.

(** ** The bound does not matter *)
Lemma each_ext {A} (f g : tree -> ending A) ts : (forall t, In t ts -> f t = g t) -> each f ts = each g ts.
Proof. induction ts as [|t ts IH]; intros H; cbn [each]; [reflexivity|]. rewrite (H t), IH; cbn; auto. intros; apply H; cbn; auto. Qed.
Lemma grouped_ext f g ts : (forall t, In t ts -> f t = g t) -> forall groups, grouped f groups ts = grouped g groups ts.
Proof.
  induction ts as [|t ts IH]; intros H groups; cbn [grouped]; [reflexivity|]. rewrite (H t) by (cbn; auto). apply also_same. intros x. apply also_same.
  intros gs. apply IH. intros; apply H; cbn; auto.
Qed.
Lemma element_ext f g code body : (forall t, height t < height body -> f t = g t) -> parse_element f code body = parse_element g code body.
Proof.
  intros H. assert (P : forall k, present (part k body) f = present (part k body) g).
  { intros k. destruct (part k body) as [p|] eqn:E; [|reflexivity]. apply H. eapply part_height; eassumption. }
  unfold parse_element.
  replace (parse_envelope g body) with (parse_envelope f body) by (unfold parse_envelope; rewrite P; reflexivity).
  replace (parse_schema g body) with (parse_schema f body).
  2:{ unfold parse_schema. f_equal. apply grouped_ext. intros t Ht. rewrite H; [reflexivity|]. apply in_flat_map in Ht as (q & Hq & Ht).
      destruct body as [a cs]. rewrite height_node. apply heights_in in Ht. apply heights_in in Hq. destruct q as [ga gcs]. rewrite height_node in Hq. cbn [tree_children] in Ht, Hq. lia. }
  replace (parse_class g body) with (parse_class f body).
  2:{ unfold parse_class. rewrite P. do 5 (apply also_same; intros). f_equal. apply each_ext. intros t Ht. rewrite H; [reflexivity|]. eapply members_height; eassumption. }
  replace (parse_container g body) with (parse_container f body).
  2:{ unfold parse_container. rewrite P. do 6 (apply also_same; intros). f_equal. apply each_ext. intros t Ht. rewrite H; [reflexivity|]. eapply members_height; eassumption. }
  reflexivity.
Qed.
Lemma parse_bound : forall n m t, height t < n -> height t < m -> parse n t = parse m t.
Proof.
  induction n as [|n IH]; intros m t Hn Hm; [lia|]. destruct m as [|m]; [lia|]. cbn [parse].
  destruct t as [[] [|[[] bcs] cs]]; try reflexivity. destruct (part 1 _) as [body|] eqn:E; cbn [present]; [|reflexivity].
  pose proof (part_height _ _ _ E). apply element_ext. intros t Ht. apply IH; lia.
Qed.
Theorem parsed_exactly : forall fuel l t r u, height t < fuel -> ends_at (dispatchDescribed fuel (Data (At l t r) u)) (parsed t) (Data (At l t r) u).
Proof. intros fuel l t r u H. unfold parsed. rewrite (parse_bound (S (height t)) fuel t) by lia. now apply parses_exactly. Qed.

(** ** Exceptions *)
Definition tame {A} (r : ending A) : Prop := forall e, r = Thrown e -> e = RuntimeError \/ e = OutOfRange.
Lemma tame_also {A B} (r : ending A) (f : A -> ending B) : tame r -> (forall a, tame (f a)) -> tame (also r f).
Proof. intros H K. destruct r; cbn [also]; [auto| |]; intros x; [intros [= <-]; now apply H|discriminate]. Qed.
Lemma tame_got {A} (a : A) : tame (Got a).
Proof. intros e. discriminate. Qed.
Lemma tame_undefined {A} : tame (@Undefined A).
Proof. intros e. discriminate. Qed.
Lemma tame_thrown {A} : tame (@Thrown A RuntimeError).
Proof. intros e [= <-]. auto. Qed.
Lemma tame_each {A} (f : tree -> ending A) ts : (forall t, tame (f t)) -> tame (each f ts).
Proof. intros H. induction ts as [|t ts IH]; cbn [each]; [apply tame_got|]. apply tame_also; [apply H|]. intros x. apply tame_also; [exact IH|]. intros. apply tame_got. Qed.
Lemma tame_grouped f ts : (forall t, tame (f t)) -> forall groups, tame (grouped f groups ts).
Proof.
  intros H. induction ts as [|t ts IH]; intros groups; cbn [grouped]; [apply tame_got|]. apply tame_also; [apply H|]. intros x. apply tame_also; [|exact IH].
  destruct (insert_fine x groups) as [[gs ->]| ->]; [apply tame_got|apply tame_undefined].
Qed.
Lemma tame_subtypes rs : tame (subtypes_of rs).
Proof. rewrite subtypes_are. destruct (subTypes_fuel rs) as [->|[l ->]]; cbn; [intros e [= <-]; auto|apply tame_got]. Qed.
Lemma tame_text o : tame (text_of o).
Proof. destruct o as [[[] cs]|]; first [apply tame_got | apply tame_thrown]. Qed.
Ltac tame_ := repeat first
  [ apply tame_got | apply tame_undefined | apply tame_thrown | apply tame_subtypes | apply tame_text | apply tame_also; [|intros ?x]
  | match goal with |- tame (if ?b then _ else _) => destruct b end
  | match goal with |- tame (match ?x with _ => _ end) => destruct x end
  | apply tame_each; intros ?t | apply tame_grouped; intros ?t ].
Lemma parse_tame : forall n t, tame (parse n t).
Proof.
  induction n as [|n IH]; intros t; cbn [parse]; [apply tame_undefined|]. destruct t as [[] [|[[] bcs] cs]]; try apply tame_thrown.
  destruct (part 1 _) as [body|]; cbn [present]; [|apply tame_thrown].
  assert (P : forall k, tame (present (part k body) (parse n))). { intros k. destruct (part k body); cbn [present]; [apply IH|apply tame_thrown]. }
  unfold parse_element. repeat match goal with |- tame (if ?b then _ else _) => destruct b end; try apply tame_thrown; try apply tame_got; try apply tame_undefined.
  - unfold parse_envelope, present at 1, symbol_of, a_schema. tame_. all: apply P.
  - unfold parse_schema, a_type. tame_. apply IH.
  - unfold parse_fingerprint, symbol_of. tame_.
  - unfold parse_property, texts_of, text_or_null_of, truth_of, property_of. cbv zeta beta. tame_.
  - unfold parse_class, texts_of, text_or_null_of, a_fingerprint, a_property. tame_. all: try apply P; apply IH.
  - unfold parse_container, name_of, texts_of, name_or_null_of, a_fingerprint, a_choice. tame_. all: try apply P; try apply IH.
    unfold container_of. cbv zeta beta. destruct (String.eqb _ "map").
    { destruct (map_parts (makePrim x)) as [[[a k] v]|]; cbn; [apply tame_got|intros e [= <-]; auto]. }
    destruct (String.eqb _ "list"); cbn [negb]; [|apply tame_thrown]. tame_.
  - unfold parse_choice. tame_.
Qed.
