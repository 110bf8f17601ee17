From Coq Require Import Lia Permutation.
From Verif Require Import Base Proton ProtonProofs TypeNames SpecTypes TypeNamesProofs MakePrimProofs SpecNames NamesProofs Ordering OrderingProofs
  Schema SpecSchema SchemaProofs Descriptors SpecDescriptors.
Import List ListNotations.
Open Scope string_scope.

(** ** Codes *)

Lemma land_zero_high a n k : (n < 2 ^ k)%N -> N.land (a * 2 ^ k) n = 0%N.
Proof.
  intros H. apply N.bits_inj_0. intros i. rewrite N.land_spec.
  destruct (N.ltb_spec i k) as [Hi|Hi].
  - rewrite N.mul_pow2_bits_low by exact Hi. reflexivity.
  - apply andb_false_iff. right. destruct (N.eq_dec n 0) as [->|Hn]; [apply N.bits_0|].
    apply N.bits_above_log2. apply N.log2_lt_pow2 in H; lia.
Qed.

Lemma corda_code_vendor n : (n < 2 ^ 48)%N -> corda_code n = vendor n.
Proof.
  intros H. unfold corda_code, vendor, DESCRIPTOR_TOP_32BITS. rewrite N.shiftl_mul_pow2, N.lor_comm.
  pose proof (land_zero_high 50530 n 48 H) as L.
  rewrite <- N.lxor_lor by exact L. symmetry. apply N.add_nocarry_lxor. exact L.
Qed.

Lemma stripCorda_mod id : stripCorda id = (id mod 2 ^ 32)%N.
Proof. apply N.land_ones. Qed.

Lemma strip_vendor n : (n < 2 ^ 32)%N -> stripCorda (vendor n) = n.
Proof.
  intros H. rewrite stripCorda_mod. unfold vendor.
  replace (50530 * 2 ^ 48 + n)%N with (n + (50530 * 2 ^ 16) * 2 ^ 32)%N.
  - rewrite N.mod_add by lia. apply N.mod_small. exact H.
  - replace (2 ^ 48)%N with (2 ^ 16 * 2 ^ 32)%N by reflexivity. lia.
Qed.

Definition code_table : list (N * string) :=
  [ (1%N, "ENVELOPE"); (2%N, "SCHEMA"); (3%N, "OBJECT_DESCRIPTOR"); (4%N, "FIELD");
    (5%N, "COMPOSITE_TYPE"); (6%N, "RESTRICTED_TYPE"); (7%N, "CHOICE");
    (8%N, "REFERENCED_OBJECT"); (9%N, "TRANSFORM_SCHEMA"); (10%N, "TRANSFORM_ELEMENT");
    (11%N, "TRANSFORM_ELEMENT_KEY") ].

Lemma described_known n s : In (n, s) code_table ->
  describedToString (vendor n) = s /\ describedToString32 n = s /\
  exists d, registered (vendor n) = Some d /\ d_symbol d = s.
Proof.
  intros H. simpl in H. repeat destruct H as [H|H]; try contradiction; injection H as <- <-;
  (split; [vm_compute; reflexivity|]); (split; [vm_compute; reflexivity|]);
  eexists; (split; [vm_compute; reflexivity|reflexivity]).
Qed.

Lemma described_unknown v : (forall n s, In (n, s) code_table -> v <> vendor n) ->
  describedToString v = "UNKNOWN" /\ (v <> 22%N -> registered v = None).
Proof.
  intros H.
  assert (K : forall n, In n [1;2;3;4;5;6;7;8;9;10;11]%N -> N.eqb v (N.lor n DESCRIPTOR_TOP_32BITS) = false).
  { intros n Hn. apply N.eqb_neq. fold (corda_code n). rewrite corda_code_vendor.
    - simpl in Hn. repeat destruct Hn as [Hn|Hn]; subst; try contradiction;
      (eapply H; simpl; eauto 15).
    - simpl in Hn. repeat destruct Hn as [Hn|Hn]; subst; try contradiction; reflexivity. }
  split.
  - unfold describedToString. rewrite !K by (simpl; tauto). reflexivity.
  - intros H22. unfold registered, registry, lookup, corda_code,
      ENVELOPE, SCHEMA, OBJECT, FIELD, COMPOSITE_TYPE, RESTRICTED_TYPE, CHOICE, REFERENCED_OBJECT,
      TRANSFORM_SCHEMA, TRANSFORM_ELEMENT, TRANSFORM_ELEMENT_KEY.
    rewrite !K by (simpl; tauto). apply N.eqb_neq in H22. rewrite H22. reflexivity.
Qed.

(** ** Loops *)

Section FoldM.
  Context {A X : Type}.
  Variable f : A -> X -> res A.
  Fixpoint foldM (xs : list X) (acc : A) : res A :=
    match xs with
    | [] => Ret acc
    | x :: xs' => let? acc' := f acc x in foldM xs' acc'
    end.
End FoldM.

Lemma foldM_snoc {X} (xs : list X) : forall acc,
  foldM (fun acc x => Ret (acc ++ [x])%list) xs acc = Ret (acc ++ xs)%list.
Proof.
  induction xs as [|x xs IH]; intros acc; simpl; [now rewrite app_nil_r|].
  rewrite IH, <- app_assoc. reflexivity.
Qed.

Lemma while_loop_list {A X} (tr : X -> tree) (f : A -> X -> res A) (body : A -> PM A) : forall xs,
  (forall acc l x r u, In x xs ->
     body acc (Data (At l (tr x) r) u) = lift (f acc x) (Data (At l (tr x) r) u)) ->
  forall n acc u, List.length xs <= n ->
  (forall l t, match while_loop n body acc (Data (At l t (map tr xs)) u) with
     | Ok a d => foldM f xs acc = Ret a /\ same_level (Data (At l t (map tr xs)) u) d
     | Throw e d => foldM f xs acc = Exc e /\ same_level (Data (At l t (map tr xs)) u) d
     | Abort => foldM f xs acc = Abrt
     | UB => foldM f xs acc = Undef
     | Fuel => foldM f xs acc = NoFuel
     end).
Proof.
  induction xs as [|x xs IH]; intros H n acc u Hn l t.
  - destruct n; simpl; auto using same_level_refl.
  - simpl in Hn. destruct n as [|n]; [lia|]. simpl.
    unfold bind, pn_next; simpl. rewrite H by (simpl; auto). destruct (f acc x) as [a|e| | |] eqn:E; simpl; auto.
    + specialize (IH (fun acc l y r u Hy => H acc l y r u (or_intror Hy)) n a u (le_S_n _ _ Hn) (t :: l) (tr x)).
      destruct (while_loop n body a _) as [b d|e d| | |]; auto; destruct IH as [I1 I2]; (split; [exact I1|]);
      (eapply same_level_trans; [|exact I2]); split; reflexivity.
    + split; [reflexivity|]. split; reflexivity.
Qed.

Lemma list_loop {A X} (tr : X -> tree) (f : A -> X -> res A) (body : A -> PM A) xs acc l r u :
  (forall acc l x r u, In x xs ->
     body acc (Data (At l (tr x) r) u) = lift (f acc x) (Data (At l (tr x) r) u)) ->
  auto_list_enter false (fun _ => while_next body acc) (Data (At l (list_of (map tr xs)) r) u)
  = lift (foldM f xs acc) (Data (At l (list_of (map tr xs)) r) u).
Proof.
  intros H. unfold auto_list_enter, finally, while_next. cbn [pn_enter list_of here siblings].
  set (d0 := Data (Before (map tr xs)) _).
  assert (K : match while_loop (List.length (map tr xs)) body acc d0 with
     | Ok a d => foldM f xs acc = Ret a /\ same_level d0 d
     | Throw e d => foldM f xs acc = Exc e /\ same_level d0 d
     | Abort => foldM f xs acc = Abrt
     | UB => foldM f xs acc = Undef
     | Fuel => foldM f xs acc = NoFuel
     end).
  { unfold d0. clear d0. destruct xs as [|x xs].
    - simpl. auto using same_level_refl.
    - simpl. unfold bind, pn_next; simpl. rewrite H by (simpl; auto).
      destruct (f acc x) as [a|e| | |] eqn:E; simpl; auto.
      + pose proof (while_loop_list tr f body xs (fun acc l y r u Hy => H acc l y r u (or_intror Hy))
                      (List.length (map tr xs)) a (Frame l AList r :: u)
                      (eq_ind_r (fun k => List.length xs <= k) (le_n _) (map_length tr xs)) [] (tr x)) as IH.
        destruct (while_loop _ body a _) as [b d|e d| | |]; auto; destruct IH as [I1 I2]; (split; [exact I1|]);
        (eapply same_level_trans; [|exact I2]); split; reflexivity.
      + split; [reflexivity|]. split; reflexivity. }
  destruct (while_loop _ body acc d0) as [a d|e d| | |].
  - destruct K as [-> [K1 K2]]. simpl. unfold pn_exit. rewrite K1, K2. reflexivity.
  - destruct K as [-> [K1 K2]]. simpl. unfold pn_exit. rewrite K1, K2. reflexivity.
  - rewrite K. reflexivity.
  - rewrite K. reflexivity.
  - rewrite K. reflexivity.
Qed.

Lemma string_loop ss l r u :
  auto_list_enter false (fun _ => while_next push_string []) (Data (At l (list_of (map str ss)) r) u)
  = Ok ss (Data (At l (list_of (map str ss)) r) u).
Proof.
  rewrite (list_loop str (fun acc s => Ret (acc ++ [s])%list)).
  - rewrite foldM_snoc. reflexivity.
  - reflexivity.
Qed.

(** ** Parsing wire trees *)

(** Where [t] is current, parsing it gives [r] and leaves the cursor there. *)
Definition parses (fuel : nat) (t : tree) (r : res element) : Prop := forall l rt u,
  dispatchDescribed fuel (Data (At l t rt) u) = lift r (Data (At l t rt) u).

(** Parsing the body of a described element. *)
Definition builds (fuel : nat) (code : N) (body : tree) (r : res element) : Prop := forall u,
  let d := Data (At [leaf (AULong (vendor code))] body []) u in
  match registered (vendor code) with
  | Some desc => match build (dispatchDescribed fuel) desc (Data (At [] (leaf (AULong (vendor code))) [body]) u) with
                 | Ok e d' => r = Ret e /\ d' = d
                 | Throw e d' => r = Exc e /\ d' = d
                 | Abort => r = Abrt
                 | UB => r = Undef
                 | Fuel => r = NoFuel
                 end
  | None => False
  end.

Lemma builds_parses fuel code body r : builds fuel code body r -> parses (S fuel) (described code body) r.
Proof.
  intros H l rt u. specialize (H (Frame l ADescribed rt :: u)). cbn zeta in H.
  cbn [dispatchDescribed]. unfold bind at 1. cbn [attest_is_described require is_type pn_dtype here described atom_type pn_type_eqb].
  unfold auto_enter, finally. cbn [w_enter pn_enter here described pn_next ups].
  unfold bind at 1. unfold is_ulong at 1. unfold require, is_type. cbn [pn_dtype here leaf atom_type pn_type_eqb].
  unfold pn_get_ulong, cur_atom. cbn [here leaf]. unfold build_id.
  destruct (registered (vendor code)) as [desc|]; [|destruct H].
  unfold leaf in *.
  destruct (build (dispatchDescribed fuel) desc _) as [e d'|e d'| | |].
  - destruct H as [-> ->]. reflexivity.
  - destruct H as [-> ->]. reflexivity.
  - subst r. reflexivity.
  - subst r. reflexivity.
  - subst r. reflexivity.
Qed.

Lemma bind_ok {S A B} (m : S -> outcome S A) (f : A -> S -> outcome S B) s a s' :
  m s = Ok a s' -> bind m f s = f a s'.
Proof. unfold bind. intros ->. reflexivity. Qed.

Definition field_result (w : wire_field) : res field :=
  Field_make (w_name w) (w_type w) (w_requires w) (text (w_default w)) (text (w_label w))
             (w_mandatory w) (w_multiple w).

Lemma step_next l t t' r u : next_ (Data (At l t (t' :: r)) u) = Ok tt (Data (At (t :: l) t' r) u).
Proof. reflexivity. Qed.
Lemma step_str b l s r u : get_string b (Data (At l (str s) r) u) = Ok s (Data (At l (str s) r) u).
Proof. reflexivity. Qed.
Lemma step_opt l o r u : get_string true (Data (At l (opt_str o) r) u) = Ok (text o) (Data (At l (opt_str o) r) u).
Proof. destruct o; reflexivity. Qed.
Lemma step_bool b l r u : get_boolean (Data (At l (leaf (ABool b)) r) u) = Ok b (Data (At l (leaf (ABool b)) r) u).
Proof. reflexivity. Qed.
Lemma step_symbol s l r u : get_symbol (Data (At l (leaf (ASymbol s)) r) u) = Ok s (Data (At l (leaf (ASymbol s)) r) u).
Proof. reflexivity. Qed.
Lemma step_read b l s t r u : readAndNext_string b (Data (At l (str s) (t :: r)) u) = Ok s (Data (At (str s :: l) t r) u).
Proof. reflexivity. Qed.
Lemma step_read_opt l o t r u :
  readAndNext_string true (Data (At l (opt_str o) (t :: r)) u) = Ok (text o) (Data (At (opt_str o :: l) t r) u).
Proof. destruct o; reflexivity. Qed.
Lemma step_validate code v l t r u : N.eqb v (N.lor code DESCRIPTOR_TOP_32BITS) = true ->
  validateAndNext (Some code) (Data (At l (leaf (AULong v)) (t :: r)) u)
  = Ok tt (Data (At (leaf (AULong v) :: l) t r) u).
Proof. unfold validateAndNext, pn_get_ulong. simpl. intros ->. reflexivity. Qed.

(** Run the next statement of a builder on a known tree. *)
Ltac run := erewrite bind_ok by first
   [ apply step_next | apply step_str | apply step_opt | apply step_bool | apply step_symbol
   | apply step_read | apply step_read_opt | apply string_loop
   | apply step_validate; reflexivity ]; cbv beta.

Lemma enter_step {A} a t cs l r u (m : PM A) : auto_enter false m (Data (At l (Node a (t :: cs)) r) u)
  = finally m pn_exit (Data (At [] t cs) (Frame l a r :: u)).
Proof. reflexivity. Qed.

Lemma field_parses fuel w : parses (S fuel) (field_tree w) (let? f := field_result w in Ret (EField f)).
Proof.
  apply builds_parses. intros u. cbn zeta.
  change (registered (vendor 4)) with (Some {| d_kind := KField; d_symbol := "FIELD"; d_val := Some FIELD |}).
  cbn [build d_kind d_val]. unfold build_field. run. unfold list_of at 1. rewrite enter_step. unfold finally.
  repeat run. unfold field_result.
  destruct (Field_make _ _ _ _ _ _ _); simpl; auto.
Qed.

Lemma fingerprint_parses fuel fp more : parses (S fuel) (fingerprint_tree fp more) (Ret (EDescriptor fp)).
Proof.
  apply builds_parses. intros u. cbn zeta.
  change (registered (vendor 3)) with (Some {| d_kind := KObject; d_symbol := "OBJECT_DESCRIPTOR"; d_val := Some OBJECT |}).
  cbn [build d_kind d_val]. unfold build_object. run. unfold list_of at 1. rewrite enter_step. unfold finally.
  run. simpl. auto.
Qed.

Lemma choice_parses fuel c : parses (S fuel) (choice_tree c) (Ret (EChoice c)).
Proof.
  apply builds_parses. intros u. cbn zeta.
  change (registered (vendor 7)) with (Some {| d_kind := KChoice; d_symbol := "CHOICE"; d_val := Some CHOICE |}).
  cbn [build d_kind d_val]. unfold build_choice. run. unfold list_of at 1. rewrite enter_step. unfold finally.
  run. simpl. auto.
Qed.

(** The fields of a class, in order; the first failure wins. *)
Fixpoint mapM {X Y} (f : X -> res Y) (xs : list X) : res (list Y) :=
  match xs with
  | [] => Ret []
  | x :: xs' => let? y := f x in let? ys := mapM f xs' in Ret (y :: ys)
  end.

Lemma mapM_Forall2 {X Y} (f : X -> res Y) xs ys : mapM f xs = Ret ys <-> Forall2 (fun x y => f x = Ret y) xs ys.
Proof.
  revert ys. induction xs as [|x xs IH]; intros ys; simpl.
  - split; [intros [= <-]; constructor|intros H; inversion H; reflexivity].
  - split.
    + destruct (f x) as [y| | | |] eqn:E; try discriminate. cbn [rbind].
      destruct (mapM f xs) as [ys'| | | |]; try discriminate. intros [= <-]. constructor; [exact E|].
      now apply IH.
    + intros H. inversion H as [|x' y xs' ys' H1 H2]; subst. rewrite H1. cbn [rbind]. apply IH in H2. rewrite H2.
      reflexivity.
Qed.

Lemma foldM_mapM {X Y} (f : X -> res Y) xs : forall acc,
  foldM (fun acc x => let? y := f x in Ret (acc ++ [y])%list) xs acc
  = (let? ys := mapM f xs in Ret (acc ++ ys)%list).
Proof.
  induction xs as [|x xs IH]; intros acc; simpl; [now rewrite app_nil_r|].
  destruct (f x) as [y| | | |]; cbn [rbind]; auto. rewrite IH.
  destruct (mapM f xs); cbn [rbind]; auto. rewrite <- app_assoc. reflexivity.
Qed.

Lemma fields_loop fuel ws l r u :
  auto_list_enter false (fun _ => while_next (fun acc =>
      let! e := dispatchDescribed (S fuel) in
      let! f := as_field e in
      ret (acc ++ [f])%list) []) (Data (At l (list_of (map field_tree ws)) r) u)
  = lift (mapM field_result ws) (Data (At l (list_of (map field_tree ws)) r) u).
Proof.
  rewrite (list_loop field_tree (fun acc w => let? f := field_result w in Ret (acc ++ [f])%list)).
  - rewrite foldM_mapM. destruct (mapM field_result ws); reflexivity.
  - intros acc l' w r' u' _. unfold bind at 1. rewrite (field_parses fuel w).
    destruct (field_result w); reflexivity.
Qed.

Lemma choices_loop fuel cs l r u :
  auto_list_enter false (fun _ => while_next (fun acc =>
      let! e := dispatchDescribed (S fuel) in
      let! f := as_choice e in
      ret (acc ++ [f])%list) []) (Data (At l (list_of (map choice_tree cs)) r) u)
  = Ok cs (Data (At l (list_of (map choice_tree cs)) r) u).
Proof.
  rewrite (list_loop choice_tree (fun acc w => Ret (acc ++ [w])%list)).
  - rewrite foldM_snoc. reflexivity.
  - intros acc l' w r' u' _. unfold bind at 1. rewrite (choice_parses fuel w). reflexivity.
Qed.

Definition class_result (c : wire_class) : res composite :=
  let? fs := mapM field_result (wc_fields c) in
  Ret {| c_name := wc_name c; c_label := text (wc_label c); c_provides := wc_provides c;
         c_descriptor := wc_fingerprint c; c_fields := fs |}.

Lemma step_fingerprint fuel fp more l r u :
  dispatchDescribed (S fuel) (Data (At l (fingerprint_tree fp more) r) u)
  = Ok (EDescriptor fp) (Data (At l (fingerprint_tree fp more) r) u).
Proof. apply (fingerprint_parses fuel fp more). Qed.
Lemma step_as_descriptor fp (d : data) : as_descriptor (EDescriptor fp) d = Ok fp d.
Proof. reflexivity. Qed.

Ltac run2 := first [run | erewrite bind_ok by first
   [ apply step_fingerprint | apply step_as_descriptor | apply choices_loop ]; cbv beta].

Lemma class_parses fuel c : parses (S (S fuel)) (class_tree c)
  (let? x := class_result c in Ret (EType (TComposite x))).
Proof.
  apply builds_parses. intros u. cbn zeta.
  change (registered (vendor 5)) with (Some {| d_kind := KComposite; d_symbol := "COMPOSITE_TYPE"; d_val := Some COMPOSITE_TYPE |}).
  cbn [build d_kind d_val]. unfold build_composite. run. unfold list_of at 1. rewrite enter_step. unfold finally.
  repeat run2. unfold bind at 1. rewrite fields_loop. unfold class_result.
  destruct (mapM field_result (wc_fields c)); simpl; auto.
Qed.

Definition container_result (r : wire_container) : res restricted :=
  Restricted_make (wr_fingerprint r) (makePrim (wr_name r)) (text (wr_label r)) (wr_provides r)
                  (wr_source r) (wr_choices r).

Lemma container_parses fuel c : parses (S (S fuel)) (container_tree c)
  (let? x := container_result c in Ret (EType (TRestricted x))).
Proof.
  apply builds_parses. intros u. cbn zeta.
  change (registered (vendor 6)) with (Some {| d_kind := KRestricted; d_symbol := "RESTRICTED_TYPE"; d_val := Some RESTRICTED_TYPE |}).
  cbn [build d_kind d_val]. unfold build_restricted. run. unfold list_of at 1. rewrite enter_step. unfold finally.
  repeat run2. unfold container_result.
  destruct (Restricted_make _ _ _ _ _ _); simpl; auto.
Qed.

Definition type_result (t : wire_type) : res notation :=
  match t with
  | WClass c => let? x := class_result c in Ret (TComposite x)
  | WContainer r => let? x := container_result r in Ret (TRestricted x)
  end.

Lemma type_parses fuel t : parses (S (S fuel)) (type_tree t) (let? x := type_result t in Ret (EType x)).
Proof.
  destruct t as [c|r]; simpl type_tree; simpl type_result; intros l rt u.
  - rewrite (class_parses fuel c). destruct (class_result c); reflexivity.
  - rewrite (container_parses fuel r). destruct (container_result r); reflexivity.
Qed.

(** Inserting the types of the groups one after the other. *)
Definition add_type (acc : list (list notation)) (t : wire_type) : res (list (list notation)) :=
  let? x := type_result t in insert notation dependsOn x acc.
Definition schema_result (groups : list (list wire_type)) : res schema :=
  let? levels := foldM add_type (List.concat groups) [] in Ret (schema_of levels).

Lemma foldM_app {A X} (f : A -> X -> res A) xs ys : forall acc,
  foldM f (xs ++ ys) acc = (let? a := foldM f xs acc in foldM f ys a).
Proof. induction xs as [|x xs IH]; intros acc; simpl; [reflexivity|]. destruct (f acc x); cbn [rbind]; auto. Qed.
Lemma foldM_concat {A X} (f : A -> X -> res A) xss : forall acc,
  foldM (fun acc xs => foldM f xs acc) xss acc = foldM f (List.concat xss) acc.
Proof.
  induction xss as [|xs xss IH]; intros acc; simpl; [reflexivity|]. rewrite foldM_app.
  destruct (foldM f xs acc); cbn [rbind]; auto.
Qed.

Lemma schema_parses fuel groups : parses (S (S (S fuel))) (schema_tree groups)
  (let? x := schema_result groups in Ret (ESchema x)).
Proof.
  apply builds_parses. intros u. cbn zeta.
  change (registered (vendor 2)) with (Some {| d_kind := KSchema; d_symbol := "SCHEMA"; d_val := Some SCHEMA |}).
  cbn [build d_kind d_val]. unfold build_schema. run. unfold bind at 1.
  rewrite (list_loop (fun g => list_of (map type_tree g)) (fun acc g => foldM add_type g acc)).
  - rewrite foldM_concat. unfold schema_result.
    destruct (foldM add_type (List.concat groups) []); simpl; auto.
  - intros acc l g r u' _. apply list_loop. intros acc' l' t r' u'' _. unfold bind at 1.
    rewrite (type_parses fuel t). unfold add_type. destruct (type_result t); reflexivity.
Qed.

Definition envelope_result (fp : string) (groups : list (list wire_type)) : res envelope :=
  let? s := schema_result groups in Ret {| e_schema := s; e_descriptor := fp |}.

Lemma envelope_parses fuel fp body groups more : parses (S (S (S (S fuel))))
  (envelope_tree (payload_tree fp body) groups more)
  (let? x := envelope_result fp groups in Ret (EEnvelope x)).
Proof.
  apply builds_parses. intros u. cbn zeta.
  change (registered (vendor 1)) with (Some {| d_kind := KEnvelope; d_symbol := "ENVELOPE"; d_val := Some ENVELOPE |}).
  cbn [build d_kind d_val]. unfold build_envelope. run. unfold bind at 1. unfold list_of at 1. rewrite enter_step.
  unfold finally at 1.
  erewrite bind_ok by (unfold consumeBlob; erewrite bind_ok by reflexivity; unfold payload_tree at 1; rewrite enter_step; reflexivity).
  cbv beta. cbn [pn_exit ups siblings here rev_append]. fold (payload_tree fp body). run.
  unfold bind at 1. rewrite (schema_parses fuel groups). unfold envelope_result.
  destruct (schema_result groups); simpl; auto.
  destruct more; simpl; auto.
Qed.

(** ** What the writers make *)

(** [f] writes the trees [ts]. *)
Definition writes (f : data -> data) (ts : list tree) : Prop :=
  forall d, f d = fold_left (fun d t => pn_put_tree t d) ts d.

Lemma writes_id : writes (fun d => d) [].
Proof. intros d. reflexivity. Qed.
Lemma writes_put a : writes (pn_put a) [leaf a].
Proof. intros d. reflexivity. Qed.
Lemma writes_then f g ts us : writes f ts -> writes g us -> writes (fun d => g (f d)) (ts ++ us).
Proof. intros Hf Hg d. rewrite fold_left_app, <- Hf, <- Hg. reflexivity. Qed.
Lemma writes_inside a f ts : writes f ts -> writes (fun d => inside f (pn_put a d)) [Node a ts].
Proof.
  intros H d. unfold inside, w_enter.
  assert (E : exists l u, pn_put a d = Data (At l (leaf a) (match here d with At _ _ r => tl r | Before r => tl r end)) u
     /\ pn_put_tree (Node a ts) d = Data (At l (Node a ts) (match here d with At _ _ r => tl r | Before r => tl r end)) u).
  { destruct d as [[cs|l t r] u]; eexists; eexists; split; reflexivity. }
  destruct E as (l & u & E1 & E2). cbn [fold_left]. rewrite E1, E2. cbn [pn_enter here leaf pn_next ups]. rewrite H.
  destruct (put_forest_empty ts (Frame l a (match here d with At _ _ r => tl r | Before r => tl r end) :: u)) as [K1 K2].
  unfold pn_exit. rewrite K1, K2. reflexivity.
Qed.
Lemma writes_strings ss : writes (put_strings ss) (map str ss).
Proof. intros d. unfold put_strings. revert d. induction ss as [|s ss IH]; intros d; simpl; [reflexivity|]. apply IH. Qed.
Lemma writes_append t : writes (pn_append (decoded t)) [t].
Proof. intros d. reflexivity. Qed.
Lemma writes_append_all ts : writes (append_all (map decoded ts)) ts.
Proof. intros d. unfold append_all. revert d. induction ts as [|s ts IH]; intros d; simpl; [reflexivity|]. apply IH. Qed.
Lemma writes_ext f g ts : writes f ts -> (forall d, g d = f d) -> writes g ts.
Proof. intros H E d. rewrite E. apply H. Qed.
Lemma writes_eq f ts us : writes f ts -> ts = us -> writes f us.
Proof. intros H <-. exact H. Qed.

Lemma writes_fresh f t : writes f [t] -> f pn_data = decoded t.
Proof. intros H. rewrite H. reflexivity. Qed.

(** A described element with a list body. *)
Lemma writes_described code f ts : writes f ts ->
  writes (fun d => inside (fun d => inside f (pn_put AList (pn_put (AULong (corda_code code)) d))) (pn_put ADescribed d))
         [Node ADescribed [leaf (AULong (corda_code code)); list_of ts]].
Proof.
  intros H. apply (writes_inside ADescribed _ [leaf (AULong (corda_code code)); list_of ts]).
  apply (writes_then (pn_put (AULong (corda_code code))) (fun d => inside f (pn_put AList d))
           [leaf (AULong (corda_code code))] [list_of ts]); [apply writes_put|].
  apply writes_inside. exact H.
Qed.

Theorem field_makeProton_spec n t rs df lb mand mult :
  field_makeProton n t rs df lb mand mult = decoded (field_tree {| w_name := n; w_type := t;
    w_requires := rs; w_default := Some df; w_label := Some lb; w_mandatory := mand; w_multiple := mult |}).
Proof.
  apply (writes_fresh (fun d => inside (fun d => inside (fun d => _) (pn_put AList (pn_put (AULong (corda_code FIELD)) d))) (pn_put ADescribed d))).
  apply (writes_described FIELD).
  apply (writes_then (fun d => _) (pn_put (ABool mult)) [_;_;_;_;_;_] [_]); [|apply writes_put].
  apply (writes_then (fun d => _) (pn_put (ABool mand)) [_;_;_;_;_] [_]); [|apply writes_put].
  apply (writes_then (fun d => _) (pn_put (AString lb)) [_;_;_;_] [_]); [|apply writes_put].
  apply (writes_then (fun d => _) (pn_put (AString df)) [_;_;_] [_]); [|apply writes_put].
  apply (writes_then (fun d => _) (fun d => inside (put_strings rs) (pn_put AList d)) [_;_] [_]).
  - apply (writes_then (pn_put (AString n)) (pn_put (AString t)) [_] [_]); apply writes_put.
  - apply writes_inside, writes_strings.
Qed.

Lemma writes_descriptor fp : writes (put_descriptor fp) [fingerprint_tree fp [leaf ANull]].
Proof.
  apply (writes_described OBJECT).
  apply (writes_then (pn_put (ASymbol fp)) (pn_put ANull) [_] [_]); apply writes_put.
Qed.

Theorem composite_makeProton_spec n provides fp ws lb :
  composite_makeProton n provides fp (map (fun w => decoded (field_tree w)) ws) lb
  = decoded (class_tree {| wc_name := n; wc_label := Some lb; wc_provides := provides;
                           wc_fingerprint := fp; wc_fields := ws |}).
Proof.
  rewrite <- (map_map field_tree decoded).
  apply (writes_fresh (fun d => inside (fun d => inside (fun d => _) (pn_put AList (pn_put (AULong (corda_code COMPOSITE_TYPE)) d))) (pn_put ADescribed d))).
  apply (writes_described COMPOSITE_TYPE).
  apply (writes_then (fun d => _) (fun d => inside (append_all (map decoded (map field_tree ws))) (pn_put AList d)) [_;_;_;_] [_]);
    [|apply writes_inside, writes_append_all].
  apply (writes_then (fun d => _) (put_descriptor fp) [_;_;_] [_]); [|apply writes_descriptor].
  apply (writes_then (fun d => _) (fun d => inside (put_strings provides) (pn_put AList d)) [_;_] [_]);
    [|apply writes_inside, writes_strings].
  apply (writes_then (pn_put (AString n)) (pn_put (AString lb)) [_] [_]); apply writes_put.
Qed.

Theorem restricted_makeProton_spec n src fp :
  restricted_makeProton n src fp
  = decoded (container_tree {| wr_name := n; wr_label := Some ""; wr_provides := []; wr_source := src;
                               wr_fingerprint := fp; wr_choices := [] |}).
Proof.
  apply (writes_fresh (fun d => inside (fun d => inside (fun d => _) (pn_put AList (pn_put (AULong (corda_code RESTRICTED_TYPE)) d))) (pn_put ADescribed d))).
  apply (writes_described RESTRICTED_TYPE).
  apply (writes_then (fun d => _) (fun d => inside (fun d => d) (pn_put AList d)) [_;_;_;_;_] [_]);
    [|apply writes_inside, writes_id].
  apply (writes_then (fun d => _) (put_descriptor fp) [_;_;_;_] [_]); [|apply writes_descriptor].
  apply (writes_then (fun d => _) (pn_put (AString src)) [_;_;_] [_]); [|apply writes_put].
  apply (writes_then (fun d => _) (fun d => inside (fun d => d) (pn_put AList d)) [_;_] [_]);
    [|apply writes_inside, writes_id].
  apply (writes_then (pn_put (AString n)) (pn_put (AString "")) [_] [_]); apply writes_put.
Qed.

Theorem schema_makeProton_spec ts :
  schema_makeProton (map (fun t => decoded (type_tree t)) ts) = decoded (schema_tree [ts]).
Proof.
  rewrite <- (map_map type_tree decoded).
  apply (writes_fresh (fun d => inside (fun d => inside (fun d => _) (pn_put AList (pn_put (AULong (corda_code SCHEMA)) d))) (pn_put ADescribed d))).
  apply (writes_described SCHEMA). apply writes_inside, writes_append_all.
Qed.

Theorem envelope_makeProton_spec payload groups :
  envelope_makeProton (decoded payload) (decoded (schema_tree groups))
  = decoded (envelope_tree payload groups [leaf ANull]).
Proof.
  apply (writes_fresh (fun d => inside (fun d => inside (fun d => _) (pn_put AList (pn_put (AULong (corda_code ENVELOPE)) d))) (pn_put ADescribed d))).
  apply (writes_described ENVELOPE).
  apply (writes_then (fun d => _) (pn_put ANull) [_;_] [_]); [|apply writes_put].
  apply (writes_then (pn_append _) (pn_append _) [_] [_]); apply writes_append.
Qed.

(** ** Levels: every builder keeps the cursor *)

Lemma subTypes_fuel rs : subTypes_of rs = Exc OutOfRange \/ exists l, subTypes_of rs = Ret l.
Proof.
  induction rs as [|r rs IH]; simpl; [eauto|].
  destruct (nestedGenericTypes_total r) as [[l ->]| ->]; cbn [rbind]; [|auto].
  destruct IH as [->|[l' ->]]; cbn [rbind]; eauto.
Qed.

(** The names on which isArray reads out of range (C08). *)
Definition odd_name (s : string) : Prop := s = "" \/ s = "]" \/ s = "p]".

Lemma isArray_cases s : (exists b, isArray s = Ret b) \/ (isArray s = Undef /\ odd_name s).
Proof. destruct (isArray_spec s) as [[H K]|[[H K]|[H K]]]; eauto. Qed.

Lemma Field_make_cases n t rs df lb mand mult :
  (exists f, Field_make n t rs df lb mand mult = Ret f) \/
  (exists e, Field_make n t rs df lb mand mult = Exc e) \/
  (Field_make n t rs df lb mand mult = Undef /\ (odd_name t \/ exists r, In r rs /\ odd_name r)).
Proof.
  unfold Field_make. destruct (typeIsPrimitive t); [eauto|].
  change (isArrayType t) with (isArray t).
  destruct (isArray_cases t) as [[b ->]|[-> H]]; cbn [rbind]; [|eauto 6].
  destruct b.
  - destruct (subTypes_fuel rs) as [->|[l ->]]; cbn [rbind]; eauto.
  - destruct (String.eqb t "*").
    + destruct rs as [|front rs']; [eauto|]. unfold isContainer.
      destruct (isArray_cases front) as [[b ->]|[-> H]]; cbn [rbind].
      * destruct (b || isList front || isMap front); [|eauto].
        destruct (subTypes_fuel (front :: rs')) as [->|[l ->]]; cbn [rbind]; eauto.
      * right; right. split; [reflexivity|]. right. exists front. simpl; auto.
    + destruct (listType_cases t) as (a & b & -> & _). cbn [rbind]. eauto.
Qed.

Lemma arrayType_cases s : exists a, arrayType s = Ret a.
Proof. unfold arrayType. destruct (find_char "[" s); [unfold substr; simpl|]; eauto. Qed.

Lemma Restricted_make_cases d n lb p src ch :
  (exists r, Restricted_make d n lb p src ch = Ret r) \/
  (exists e, Restricted_make d n lb p src ch = Exc e) \/
  (Restricted_make d n lb p src ch = Undef /\ odd_name n).
Proof.
  unfold Restricted_make. destruct (String.eqb src "list").
  - destruct ch as [|c ch]; [|eauto]. destruct (isArray_cases n) as [[b ->]|[-> H]]; cbn [rbind]; [|auto].
    destruct b.
    + destruct (arrayType_cases n) as [a ->]. cbn [rbind]. eauto.
    + destruct (listType_cases n) as (a & b & -> & _). cbn [rbind]. eauto.
  - destruct (String.eqb src "map"); [|eauto].
    destruct (mapType_cases n) as [(a & k & v & -> & _)| ->]; cbn [rbind]; eauto.
Qed.

Lemma any_resolved_fuel n fs : any_resolved n fs <> NoFuel.
Proof.
  induction fs as [|f fs IH]; simpl; [discriminate|]. unfold resolvedType.
  destruct (f_kind f), (f_requires f); cbn [rbind]; try discriminate;
  match goal with |- context [String.eqb ?a ?b] => destruct (String.eqb a b) end; auto; discriminate.
Qed.
Lemma any_subtype_fuel n fs : any_subtype n fs <> NoFuel.
Proof.
  induction fs as [|f fs IH]; simpl; [discriminate|]. destruct (is_restricted_t f).
  - destruct (memb n (f_subTypes f)); auto. discriminate.
  - unfold resolvedType. destruct (f_kind f), (f_requires f); cbn [rbind]; try discriminate;
    match goal with |- context [String.eqb ?a ?b] => destruct (String.eqb a b) end; auto; discriminate.
Qed.
Lemma dependsOn_fuel j p : dependsOn j p <> NoFuel.
Proof.
  destruct p as [p|p], j as [j|j]; simpl; [| | |discriminate].
  - unfold composite_rhs_composite. pose proof (any_subtype_fuel (c_name j) (c_fields p)) as H1.
    pose proof (any_resolved_fuel (c_name p) (c_fields j)) as H2.
    destruct any_subtype as [[]| | | |]; cbn [rbind]; try congruence.
    destruct any_resolved as [[]| | | |]; cbn [rbind]; congruence.
  - unfold composite_rhs_restricted. pose proof (any_resolved_fuel (r_name j) (c_fields p)) as H2.
    destruct any_resolved as [[]| | | |]; cbn [rbind]; try congruence.
  - unfold restricted_rhs_composite. destruct (match r_kind p with list_t => _ | map_t => _ | enum_t => _ | array_t => _ end); [discriminate|].
    pose proof (any_resolved_fuel (r_name p) (c_fields j)) as H2.
    destruct any_resolved as [[]| | | |]; cbn [rbind]; congruence.
Qed.

Lemma validate_probing n v : probing n (validateAndNext v).
Proof.
  intros d _. unfold validateAndNext.
  destruct d as [[cs|l [a cs] r] u].
  - simpl. auto using same_level_refl.
  - destruct (negb (is_type TULong (Data (At l (Node a cs) r) u))); [auto using same_level_refl|].
    destruct v as [v|]; [|auto using same_level_refl].
    destruct (N.eqb _ _); [|auto using same_level_refl].
    split; [apply next_same|]. apply next_at. exact I.
Qed.
Lemma next_steady n : steady n next_.
Proof. intros d _ Ha. simpl. split; [apply next_same|now apply next_at]. Qed.

Lemma get_string_restoring n b : restoring n (get_string b).
Proof.
  intros d _ _. unfold get_string. destruct (cur_atom d) as [[]|]; auto. destruct b; auto.
Qed.

Lemma while_loop_loose {A} n (body : A -> PM A) : (forall acc, restoring n (body acc)) ->
  forall k acc d, below n d -> remaining d <= k ->
  match while_loop k body acc d with
  | Ok _ d' => same_level d d' | Throw _ d' => same_level d d' | Fuel => False | _ => True
  end.
Proof.
  intros Hbody. induction k as [|k IH]; intros acc d Hb Hk; simpl; destruct (pn_next_ok d) eqn:E;
    auto using same_level_refl.
  - apply next_remaining in E. lia.
  - unfold bind.
    pose proof (same_level_below _ _ _ (next_same d) Hb) as Hb'.
    specialize (Hbody acc (pn_next d) (below_belowc _ _ Hb') (next_ok_at d E)).
    destruct (body acc (pn_next d)) as [a d'|e d'| | |]; auto; subst d'; [|apply next_same].
    apply next_remaining in E. specialize (IH a (pn_next d) Hb' ltac:(lia)).
    destruct (while_loop k body a (pn_next d)); auto; eapply same_level_trans; eauto using next_same.
Qed.
Lemma while_next_loose {A} n (body : A -> PM A) acc : (forall acc, restoring n (body acc)) ->
  loose n (while_next body acc).
Proof. intros H d Hb. apply while_loop_loose with (n := n); auto. apply remaining_le. Qed.

Lemma push_string_restoring n acc : restoring n (push_string acc).
Proof. apply restoring_bind; [apply get_string_restoring|]. intros s. apply ret_restoring. Qed.
Lemma strings_restoring n : restoring n (auto_list_enter false (fun _ => while_next push_string [])).
Proof. apply auto_list_enter_restoring. intros _ _. apply while_next_loose. intros acc. apply push_string_restoring. Qed.

Lemma ub_restoring {A} n : restoring n (@ub data A).
Proof. intros d _ _. exact I. Qed.
Lemma cast_restoring n e : restoring n (as_schema e) /\ restoring n (as_descriptor e) /\ restoring n (as_field e) /\
  restoring n (as_type e) /\ restoring n (as_choice e).
Proof. destruct e; repeat split; first [apply ret_restoring|apply ub_restoring]. Qed.

Section Levels.
  Variable F : nat.
  Variable rec : PM element.
  Hypothesis rec_restoring : forall k, k < F -> restoring k rec.
  Hypothesis rec_probing : forall k, k < F -> probing k rec.

  Ltac st := first
    [ apply steady_bind; [|intros ?]
    | apply probing_steady; first [apply get_string_probing | apply get_symbol_probing | apply get_boolean_probing
        | apply validate_probing | apply readAndNext_string_probing | apply rec_probing; lia ]
    | apply next_steady
    | apply ret_steady
    | apply restoring_steady; first [apply strings_restoring | apply cast_restoring] ].

  Lemma object_steady k v : k <= F -> steady k (build_object v).
  Proof.
    intros Hk. st; [st|]. apply restoring_steady, auto_enter_restoring. intros Hn. apply loose_bind; [apply get_symbol_probing|].
    intros a0. st.
  Qed.
  Lemma choice_steady k v : k <= F -> steady k (build_choice v).
  Proof.
    intros Hk. st; [st|]. apply restoring_steady, auto_enter_restoring. intros Hn. apply loose_bind; [apply get_string_probing|].
    intros a0. st.
  Qed.
  Lemma field_steady k v : k <= F -> steady k (build_field v).
  Proof.
    intros Hk. st; [st|]. apply restoring_steady, auto_enter_restoring. intros Hn. apply loose_bind; [apply get_string_probing|].
    intros name. repeat st.
    apply restoring_steady, lift_restoring. intros E.
    destruct (Field_make_cases name a1 a3 a5 a7 a9 a11) as [[x H]|[[x H]|[H _]]]; rewrite H in E; discriminate.
  Qed.
  Lemma loop_restoring {A B} k (cast : element -> PM A) (add : B -> A -> PM B) acc : k < F ->
    (forall e, restoring k (cast e)) -> (forall b a, restoring k (add b a)) ->
    restoring k (let! e := rec in let! f := cast e in add acc f).
  Proof.
    intros Hk Hc Ha. apply restoring_bind; [apply rec_restoring; lia|]. intros e.
    apply restoring_bind; [apply Hc|]. intros a. apply Ha.
  Qed.
  Lemma composite_steady k v : k <= F -> steady k (build_composite rec v).
  Proof.
    intros Hk. st; [st|]. apply restoring_steady, auto_enter_restoring. intros Hn. apply loose_bind; [apply get_string_probing|].
    intros name. repeat st.
    apply restoring_steady, auto_list_enter_restoring. intros _ Hn2. apply while_next_loose. intros acc.
    apply (loop_restoring _ as_field (fun acc f => ret (acc ++ [f])%list)); [lia|intros e; apply cast_restoring|].
    intros b a'. apply ret_restoring.
  Qed.
  Lemma restricted_steady k v : k <= F -> steady k (build_restricted rec v).
  Proof.
    intros Hk. st; [st|]. apply restoring_steady, auto_enter_restoring. intros Hn.
    apply loose_bind; [apply readAndNext_string_probing|].
    intros name. repeat st.
    - apply restoring_steady, auto_list_enter_restoring. intros _ Hn2. apply while_next_loose. intros acc.
      apply (loop_restoring _ as_choice (fun acc f => ret (acc ++ [f])%list)); [lia|intros e; apply cast_restoring|].
      intros b a'. apply ret_restoring.
    - apply restoring_steady, lift_restoring. intros E.
      match type of E with Restricted_make ?a ?b ?c ?d ?e ?f = _ =>
        destruct (Restricted_make_cases a b c d e f) as [[x H]|[[x H]|[H _]]]; rewrite H in E; discriminate end.
  Qed.
  Lemma schema_steady k v : k <= F -> steady k (build_schema rec v).
  Proof.
    intros Hk. st; [st|]. st; [|st].
    apply restoring_steady, auto_list_enter_restoring. intros _ Hn. apply while_next_loose. intros acc.
    apply auto_list_enter_restoring. intros _ Hn2. apply while_next_loose. intros acc2.
    apply (loop_restoring _ as_type (fun acc t => lift (insert notation dependsOn t acc))); [lia|intros e; apply cast_restoring|].
    intros b a'. apply lift_restoring. apply insert_fuel. exact dependsOn_fuel.
  Qed.
  Lemma envelope_steady k v : k <= F -> steady k (build_envelope rec v).
  Proof.
    intros Hk. st; [st|]. st; [|destruct a0; st].
    apply restoring_steady, auto_enter_restoring. intros Hn. apply loose_bind.
    - apply probing_bind; [apply require_probing; discriminate|]. intros _.
      apply restoring_steady, auto_enter_restoring. intros Hn2. apply probing_loose, get_symbol_probing.
    - intros o. repeat st.
  Qed.
  Lemma ignored_steady k v : steady k (build_ignored v).
  Proof. repeat st. Qed.

  Lemma build_steady k desc : k <= F -> steady k (build rec desc).
  Proof.
    intros Hk. unfold build. destruct (d_kind desc); auto using ignored_steady, object_steady, choice_steady,
      field_steady, composite_steady, restricted_steady, schema_steady, envelope_steady.
    apply probing_steady, throw_probing.
  Qed.
End Levels.

Lemma dispatch_levels : forall F k, k < F -> restoring k (dispatchDescribed F) /\ probing k (dispatchDescribed F).
Proof.
  induction F as [|F IH]; intros k Hk; [lia|]. cbn [dispatchDescribed].
  assert (HE : restoring k (auto_enter false (is_ulong ;;
        fun d => build_id (dispatchDescribed F) (pn_get_ulong d) d))).
  { apply auto_enter_restoring. intros Hn. apply loose_bind; [apply require_probing; discriminate|]. intros _ d Hb Ha.
    unfold build_id. destruct (registered (pn_get_ulong d)) as [desc|]; [|exact I].
    apply (build_steady F (dispatchDescribed F)) with (k := k - 1); auto; try lia;
    intros j Hj; apply IH; exact Hj. }
  split.
  - apply restoring_bind; [apply require_restoring|]. intros _. exact HE.
  - apply probing_bind; [apply require_probing; discriminate|]. intros _. apply restoring_steady. exact HE.
Qed.

Theorem dispatch_restores : forall fuel l t r u, height t < fuel ->
  match dispatchDescribed fuel (Data (At l t r) u) with
  | Ok _ d => d = Data (At l t r) u
  | Throw _ d => d = Data (At l t r) u
  | Fuel => False
  | _ => True
  end.
Proof.
  intros fuel l t r u H. apply (proj1 (dispatch_levels fuel (height t) H)); [exact (le_n _)|exact I].
Qed.

(** ** Statements for the property file *)

Theorem codes_survive : forall n, (n < 2 ^ 32)%N -> stripCorda (corda_code n) = n /\ corda_code n = vendor n.
Proof.
  intros n H. assert (H48 : (n < 2 ^ 48)%N) by (eapply N.lt_trans; [exact H|reflexivity]).
  rewrite corda_code_vendor by exact H48. auto using strip_vendor.
Qed.

Lemma Field_make_fields n t rs df lb mand mult f : Field_make n t rs df lb mand mult = Ret f ->
  f_name f = n /\ f_type f = t /\ (typeIsPrimitive t = false -> f_requires f = rs) /\
  (typeIsPrimitive t = true -> f_requires f = []) /\
  f_default f = df /\ f_label f = lb /\ f_mandatory f = mand /\ f_multiple f = mult.
Proof.
  unfold Field_make. destruct (typeIsPrimitive t); [intros [= <-]; repeat split; discriminate|].
  destruct (isArrayType t) as [[]| | | |]; try discriminate; cbn [rbind].
  - destruct (subTypes_of rs); try discriminate; cbn [rbind]. intros [= <-]; repeat split; discriminate.
  - destruct (String.eqb t "*").
    + destruct rs as [|front rs']; [intros [= <-]; repeat split; discriminate|].
      destruct (isContainer front) as [[]| | | |]; try discriminate; cbn [rbind].
      destruct (subTypes_of (front :: rs')); try discriminate; cbn [rbind]. intros [= <-]; repeat split; discriminate.
    + destruct (listType t); try discriminate; cbn [rbind]. intros [= <-]; repeat split; discriminate.
Qed.

Theorem field_round_trip : forall fuel n t rs df lb mand mult f l r u,
  Field_make n t rs df lb mand mult = Ret f ->
  exists tr, field_makeProton n t rs df lb mand mult = decoded tr /\
    dispatchDescribed (S fuel) (Data (At l tr r) u) = Ok (EField f) (Data (At l tr r) u) /\
    f_name f = n /\ f_type f = t /\ (typeIsPrimitive t = false -> f_requires f = rs) /\
    f_default f = df /\ f_label f = lb /\ f_mandatory f = mand /\ f_multiple f = mult.
Proof.
  intros fuel n t rs df lb mand mult f l r u H. eexists. split; [apply field_makeProton_spec|].
  rewrite field_parses. unfold field_result. cbn [w_name w_type w_requires w_default w_label w_mandatory w_multiple text].
  rewrite H. split; [reflexivity|]. apply Field_make_fields in H. tauto.
Qed.

(** Which fields are accepted at all. *)
Theorem Field_make_accepts : forall n t rs df lb mand mult,
  typeIsPrimitive t = true \/
  (isArray t = Ret false /\ t <> "*") \/
  (t = "*" /\ rs = []) \/
  (t = "*" /\ (exists r rs', rs = r :: rs' /\ isContainer r = Ret true) /\
   Forall (fun r => exists parts, nestedGenericTypes r = Ret parts) rs) \/
  (isArray t = Ret true /\ Forall (fun r => exists parts, nestedGenericTypes r = Ret parts) rs) ->
  exists f, Field_make n t rs df lb mand mult = Ret f.
Proof.
  intros n t rs df lb mand mult H. unfold Field_make. destruct (typeIsPrimitive t) eqn:Ep; [eauto|].
  change (isArrayType t) with (isArray t).
  assert (HS : Forall (fun r => exists parts, nestedGenericTypes r = Ret parts) rs -> exists l, subTypes_of rs = Ret l).
  { clear. induction 1 as [|r rs [p Hp] _ [l IH]]; simpl; [eauto|]. rewrite Hp. cbn [rbind]. rewrite IH. cbn [rbind]. eauto. }
  destruct H as [H|[[H1 H2]|[[-> ->]|[(-> & (r & rs' & -> & Hc) & Hf)|[H1 Hf]]]]]; [congruence| | | |].
  - rewrite H1. cbn [rbind]. apply String.eqb_neq in H2. rewrite H2.
    destruct (listType_cases t) as (a & b & -> & _). cbn [rbind]. eauto.
  - cbn. eauto.
  - destruct (HS Hf) as [l Hl]. change (isArray "*") with (Ret false). cbn [rbind]. rewrite String.eqb_refl, Hc.
    cbn [rbind]. rewrite Hl. cbn [rbind]. eauto.
  - rewrite H1. cbn [rbind]. destruct (HS Hf) as [l ->]. cbn [rbind]. eauto.
Qed.

Theorem field_wire : forall fuel w f l r u, field_result w = Ret f ->
  dispatchDescribed (S fuel) (Data (At l (field_tree w) r) u) = Ok (EField f) (Data (At l (field_tree w) r) u) /\
  f_name f = w_name w /\ f_type f = w_type w /\ (typeIsPrimitive (w_type w) = false -> f_requires f = w_requires w) /\
  f_default f = text (w_default w) /\ f_label f = text (w_label w) /\
  f_mandatory f = w_mandatory w /\ f_multiple f = w_multiple w.
Proof.
  intros fuel w f l r u H. rewrite field_parses, H. split; [reflexivity|]. apply Field_make_fields in H. tauto.
Qed.

Lemma requires_dropped : exists n t rs df lb mand mult f,
  Field_make n t rs df lb mand mult = Ret f /\ f_requires f <> rs.
Proof. exists "x", "int", ["y"], "", "", true, false. eexists. split; [reflexivity|discriminate]. Qed.

Theorem class_wire : forall fuel c fs l r u,
  Forall2 (fun w f => field_result w = Ret f) (wc_fields c) fs ->
  dispatchDescribed (S (S fuel)) (Data (At l (class_tree c) r) u)
  = Ok (EType (TComposite {| c_name := wc_name c; c_label := text (wc_label c); c_provides := wc_provides c;
                             c_descriptor := wc_fingerprint c; c_fields := fs |}))
       (Data (At l (class_tree c) r) u).
Proof.
  intros fuel c fs l r u H. rewrite class_parses. unfold class_result. apply mapM_Forall2 in H. rewrite H. reflexivity.
Qed.

Theorem class_round_trip : forall fuel name provides fp ws lb fs l r u,
  Forall2 (fun w f => field_result w = Ret f) ws fs ->
  exists tr, composite_makeProton name provides fp (map (fun w => decoded (field_tree w)) ws) lb = decoded tr /\
    dispatchDescribed (S (S fuel)) (Data (At l tr r) u)
    = Ok (EType (TComposite {| c_name := name; c_label := lb; c_provides := provides;
                               c_descriptor := fp; c_fields := fs |})) (Data (At l tr r) u).
Proof.
  intros fuel name provides fp ws lb fs l r u H. eexists. split; [apply composite_makeProton_spec|].
  rewrite (class_wire fuel _ fs l r u); [reflexivity|exact H].
Qed.

Theorem container_round_trip : forall fuel name src fp rr l r u,
  Restricted_make fp (makePrim name) "" [] src [] = Ret rr ->
  exists tr, restricted_makeProton name src fp = decoded tr /\
    dispatchDescribed (S (S fuel)) (Data (At l tr r) u) = Ok (EType (TRestricted rr)) (Data (At l tr r) u) /\
    r_name rr = makePrim name /\ r_descriptor rr = fp /\ r_source rr = src.
Proof.
  intros fuel name src fp rr l r u H. eexists. split; [apply restricted_makeProton_spec|].
  rewrite container_parses. unfold container_result. cbn [wr_name wr_label wr_provides wr_source wr_fingerprint wr_choices text].
  rewrite H. split; [reflexivity|]. revert H. unfold Restricted_make.
  destruct (String.eqb src "list").
  - destruct (isArray (makePrim name)) as [[]| | | |]; try discriminate; cbn [rbind].
    + destruct (arrayType (makePrim name)); try discriminate; cbn [rbind]. intros [= <-]. auto.
    + destruct (listType (makePrim name)) as [[a b]| | | |]; try discriminate; cbn [rbind]. intros [= <-]. auto.
  - destruct (String.eqb src "map"); [|discriminate].
    destruct (mapType (makePrim name)) as [[[a b] c]| | | |]; try discriminate; cbn [rbind]. intros [= <-]. auto.
Qed.

Theorem not_described_throws : forall fuel l t r u, tree_atom t <> ADescribed ->
  dispatchDescribed (S fuel) (Data (At l t r) u) = Throw RuntimeError (Data (At l t r) u).
Proof.
  intros fuel l [a cs] r u H. cbn [tree_atom] in H. unfold dispatchDescribed, attest_is_described, bind, require, is_type.
  cbn [pn_dtype here]. destruct a; try reflexivity. congruence.
Qed.
Theorem bad_code_throws : forall fuel l cs r u,
  match cs with Node (AULong _) _ :: _ => False | _ => True end ->
  dispatchDescribed (S fuel) (Data (At l (Node ADescribed cs) r) u)
  = Throw RuntimeError (Data (At l (Node ADescribed cs) r) u).
Proof.
  intros fuel l cs r u H. cbn [dispatchDescribed]. erewrite bind_ok by reflexivity. cbv beta. unfold auto_enter, finally.
  destruct cs as [|[[] cs'] cs]; try reflexivity. destruct H.
Qed.
Theorem unknown_code_ub : forall fuel l code cs more r u, registered code = None ->
  dispatchDescribed (S fuel) (Data (At l (Node ADescribed (Node (AULong code) cs :: more)) r) u) = UB.
Proof.
  intros fuel l code cs more r u H. cbn [dispatchDescribed]. erewrite bind_ok by reflexivity. cbv beta.
  rewrite enter_step. unfold finally. erewrite bind_ok by reflexivity. cbv beta.
  unfold pn_get_ulong, cur_atom. cbn [here]. unfold build_id. rewrite H. reflexivity.
Qed.
Theorem generic_code_throws : forall fuel l cs more r u,
  dispatchDescribed (S fuel) (Data (At l (Node ADescribed (Node (AULong 22) cs :: more)) r) u)
  = Throw RuntimeError (Data (At l (Node ADescribed (Node (AULong 22) cs :: more)) r) u).
Proof. reflexivity. Qed.
(** The name of a class is followed by a field instead of a fingerprint. *)
Theorem wrong_kind_ub : forall fuel l name label provides w more f r u, field_result w = Ret f ->
  dispatchDescribed (S (S fuel)) (Data (At l (described 5 (list_of (str name :: opt_str label
    :: list_of (map str provides) :: field_tree w :: more))) r) u) = UB.
Proof.
  intros fuel l name label provides w more f r u H.
  assert (K : parses (S (S fuel)) (described 5 (list_of (str name :: opt_str label
    :: list_of (map str provides) :: field_tree w :: more))) Undef); [|apply K].
  apply builds_parses. intros u'. cbn zeta.
  change (registered (vendor 5)) with (Some {| d_kind := KComposite; d_symbol := "COMPOSITE_TYPE"; d_val := Some COMPOSITE_TYPE |}).
  cbn [build d_kind d_val]. unfold build_composite. run. unfold list_of at 1. rewrite enter_step. unfold finally.
  do 6 run. unfold bind at 1. rewrite (field_parses fuel w), H. reflexivity.
Qed.

(** Fingerprints and enum constants: any body is parsed or rejected. *)
Definition defined {S A} (o : outcome S A) : Prop :=
  match o with Ok _ _ => True | Throw _ _ => True | _ => False end.

Lemma defined_finally {S A} (m : S -> outcome S A) f s : defined (m s) -> defined (finally m f s).
Proof. unfold finally. destruct (m s); auto. Qed.
Lemma defined_bind {S A B} (m : S -> outcome S A) (f : A -> S -> outcome S B) s :
  match m s with Ok a s' => defined (f a s') | Throw _ _ => True | _ => False end -> defined (bind m f s).
Proof. unfold bind. destruct (m s); auto. Qed.

Lemma described_defined fuel code body l r u :
  (forall u, match registered (vendor code) with
     | Some desc => defined (build (dispatchDescribed fuel) desc (Data (At [] (leaf (AULong (vendor code))) [body]) u))
     | None => False end) ->
  defined (dispatchDescribed (S fuel) (Data (At l (described code body) r) u)).
Proof.
  intros H. cbn [dispatchDescribed]. erewrite bind_ok by reflexivity. cbv beta. unfold described. rewrite enter_step.
  apply defined_finally. erewrite bind_ok by reflexivity. cbv beta. unfold pn_get_ulong, cur_atom. cbn [here leaf].
  unfold build_id. specialize (H (Frame l ADescribed r :: u)). destruct (registered (vendor code)); [exact H|destruct H].
Qed.

Lemma total_get_string b d : defined (get_string b d).
Proof. unfold get_string. destruct (cur_atom d) as [[]|]; simpl; auto. destruct b; simpl; auto. Qed.
Lemma total_get_symbol d : defined (get_symbol d).
Proof. unfold get_symbol. destruct (cur_atom d) as [[]|]; simpl; auto. Qed.
Lemma total_get_boolean d : defined (get_boolean d).
Proof. unfold get_boolean. destruct (cur_atom d) as [[]|]; simpl; auto. Qed.

Theorem fingerprint_defined : forall fuel body l r u,
  defined (dispatchDescribed (S fuel) (Data (At l (described 3 body) r) u)).
Proof.
  intros. apply described_defined. intros u'.
  change (registered (vendor 3)) with (Some {| d_kind := KObject; d_symbol := "OBJECT_DESCRIPTOR"; d_val := Some OBJECT |}).
  cbn [build d_kind d_val]. unfold build_object. run. apply defined_finally. apply defined_bind.
  pose proof (total_get_symbol (w_enter (Data (At [leaf (AULong (vendor 3))] body []) u'))) as K.
  destruct (get_symbol _); simpl in *; auto.
Qed.
Theorem choice_defined : forall fuel body l r u,
  defined (dispatchDescribed (S fuel) (Data (At l (described 7 body) r) u)).
Proof.
  intros. apply described_defined. intros u'.
  change (registered (vendor 7)) with (Some {| d_kind := KChoice; d_symbol := "CHOICE"; d_val := Some CHOICE |}).
  cbn [build d_kind d_val]. unfold build_choice. run. apply defined_finally. apply defined_bind.
  pose proof (total_get_string false (w_enter (Data (At [leaf (AULong (vendor 7))] body []) u'))) as K.
  destruct (get_string false _); simpl in *; auto.
Qed.
Theorem empty_type_ub : exists t, dispatchDescribed 5 (Data (At [] t []) []) = UB /\
  t = field_tree {| w_name := "x"; w_type := ""; w_requires := []; w_default := None; w_label := None;
                    w_mandatory := true; w_multiple := false |}.
Proof. eexists. split; [|reflexivity]. rewrite (field_parses 4). reflexivity. Qed.

(** Envelopes. *)
Lemma add_types_spec ws ts acc : Forall2 (fun w t => type_result w = Ret t) ws ts ->
  foldM add_type ws acc = inserts notation dependsOn ts acc.
Proof.
  intros H. revert acc. induction H as [|w t ws ts H1 H2 IH]; intros acc; simpl; [reflexivity|].
  unfold add_type at 1. rewrite H1. cbn [rbind]. destruct (insert notation dependsOn t acc); cbn [rbind]; auto.
Qed.

Theorem envelope_wire : forall fuel fp body groups more ts l r u,
  Forall2 (fun w t => type_result w = Ret t) (List.concat groups) ts -> Forall entry_ok ts ->
  exists e, dispatchDescribed (S (S (S (S fuel)))) (Data (At l (envelope_tree (payload_tree fp body) groups more) r) u)
    = Ok (EEnvelope e) (Data (At l (envelope_tree (payload_tree fp body) groups more) r) u) /\
  e_descriptor e = fp /\ Permutation (List.concat (s_types (e_schema e))) ts.
Proof.
  intros fuel fp body groups more ts l r u H2 Hok.
  destruct (inserts_conserve ts Hok) as (levels & Hi & Hp & _).
  rewrite envelope_parses. unfold envelope_result, schema_result. rewrite (add_types_spec _ _ _ H2), Hi. cbn [rbind lift].
  eexists. split; [reflexivity|]. split; [reflexivity|exact Hp].
Qed.

Theorem envelope_round_trip : forall fuel fp body ws ts l r u,
  Forall2 (fun w t => type_result w = Ret t) ws ts -> Forall entry_ok ts ->
  exists tr e, envelope_makeProton (decoded (payload_tree fp body))
                 (schema_makeProton (map (fun t => decoded (type_tree t)) ws)) = decoded tr /\
    dispatchDescribed (S (S (S (S fuel)))) (Data (At l tr r) u) = Ok (EEnvelope e) (Data (At l tr r) u) /\
    e_descriptor e = fp /\ Permutation (List.concat (s_types (e_schema e))) ts /\
    tree_children (nth 1 (tree_children tr) tr) = [payload_tree fp body; schema_tree [ws]; leaf ANull].
Proof.
  intros fuel fp body ws ts l r u H2 Hok.
  assert (H2' : Forall2 (fun w t => type_result w = Ret t) (List.concat [ws]) ts) by (simpl; rewrite app_nil_r; exact H2).
  destruct (envelope_wire fuel fp body [ws] [leaf ANull] ts l r u H2' Hok) as (e & H & He & Hp).
  exists (envelope_tree (payload_tree fp body) [ws] [leaf ANull]), e.
  rewrite schema_makeProton_spec, envelope_makeProton_spec. repeat (split; [first [reflexivity|assumption]|]). reflexivity.
Qed.

(** The assertions of the wrapper. *)
Theorem require_exact : forall ty l t r u,
  (atom_type (tree_atom t) = ty -> require ty (Data (At l t r) u) = Ok tt (Data (At l t r) u)) /\
  (atom_type (tree_atom t) <> ty -> require ty (Data (At l t r) u) = Throw RuntimeError (Data (At l t r) u)).
Proof.
  intros ty l [a cs] r u. unfold require, is_type. cbn [pn_dtype here tree_atom].
  assert (K : forall x y, pn_type_eqb x y = true <-> x = y).
  { intros x y. destruct x, y; simpl; split; congruence. }
  destruct (pn_type_eqb (atom_type a) ty) eqn:E.
  - apply K in E. split; [reflexivity|congruence].
  - split; [|reflexivity]. intros H. apply K in H. congruence.
Qed.
Theorem attest_string_exact : forall allowNull l t r u,
  attest_is_string allowNull (Data (At l t r) u) = Ok tt (Data (At l t r) u) <->
  (allowNull = false \/ atom_type (tree_atom t) = TString \/ atom_type (tree_atom t) = TNull).
Proof.
  intros b l [a cs] r u. unfold attest_is_string, is_type. cbn [pn_dtype here tree_atom].
  destruct a, b; simpl; split; auto; try discriminate; intros H; repeat destruct H as [H|H]; discriminate.
Qed.

(** ** Meanings *)

(** [acceptable] in terms of the model's functions. *)
Lemma acceptable_iff w : acceptable w <->
  (primitive_name (w_type w) = true \/
   (isArray (w_type w) = Ret false /\ w_type w <> "*") \/
   (w_type w = "*" /\ w_requires w = []) \/
   (w_type w = "*" /\ (exists r rs, w_requires w = r :: rs /\ isContainer r = Ret true) /\
     Forall (fun r => exists parts, nestedGenericTypes r = Ret parts) (w_requires w)) \/
   (isArray (w_type w) = Ret true /\ Forall (fun r => exists parts, nestedGenericTypes r = Ret parts) (w_requires w))).
Proof.
  unfold acceptable. cbv zeta. rewrite is_array_iff, is_no_array_iff. setoid_rewrite is_container_iff.
  assert (P : Forall (fun r => exists parts, names_in r parts) (w_requires w) <-> Forall (fun r => exists parts, nestedGenericTypes r = Ret parts) (w_requires w)).
  { split; apply Forall_impl; intros r [ps H]; exists ps; now apply mentions_exactly. }
  rewrite P. reflexivity.
Qed.
Lemma acceptable_result w : acceptable w -> exists f, field_result w = Ret f /\ field_means w f.
Proof.
  intros H. apply acceptable_iff in H. destruct (Field_make_accepts (w_name w) (w_type w) (w_requires w) (text (w_default w)) (text (w_label w))
                        (w_mandatory w) (w_multiple w) H) as [f Hf].
  exists f. split; [exact Hf|]. pose proof (Field_make_fields _ _ _ _ _ _ _ _ Hf) as (A1 & A2 & A3 & A4 & A5 & A6 & A7 & A8).
  unfold field_means. repeat (split; [try assumption|]).
  - change (primitive_name (w_type w)) with (typeIsPrimitive (w_type w)). destruct (typeIsPrimitive (w_type w)); auto.
  - repeat eexists. exact Hf.
Qed.

Theorem field_parsed : forall fuel w l r u, acceptable w ->
  exists f, dispatchDescribed (S fuel) (Data (At l (field_tree w) r) u) = Ok (EField f) (Data (At l (field_tree w) r) u)
            /\ field_means w f.
Proof.
  intros fuel w l r u H. destruct (acceptable_result w H) as (f & Hf & Hm). exists f. split; [|exact Hm].
  rewrite field_parses, Hf. reflexivity.
Qed.

Lemma acceptable_results ws : Forall acceptable ws ->
  exists fs, Forall2 (fun w f => field_result w = Ret f) ws fs /\ Forall2 field_means ws fs.
Proof.
  induction 1 as [|w ws Hw _ (fs & I1 & I2)]; [exists []; split; constructor|].
  destruct (acceptable_result w Hw) as (f & Hf & Hm). exists (f :: fs). split; constructor; auto.
Qed.

Theorem class_parsed : forall fuel c l r u, Forall acceptable (wc_fields c) ->
  exists x, dispatchDescribed (S (S fuel)) (Data (At l (class_tree c) r) u)
            = Ok (EType (TComposite x)) (Data (At l (class_tree c) r) u) /\ class_means c x.
Proof.
  intros fuel c l r u H. destruct (acceptable_results _ H) as (fs & H1 & H2). eexists.
  split; [apply class_wire; exact H1|]. repeat split; auto.
Qed.

Lemma unboxed_idem n : unboxed_name (unboxed_name n) = unboxed_name n.
Proof.
  unfold unboxed_name at 2 3. destruct (find _ boxed_table) as [[b v]|] eqn:E; [|].
  - apply find_some in E as [E _]. simpl in E.
    repeat destruct E as [E|E]; try contradiction; injection E as <- <-; reflexivity.
  - unfold unboxed_name. rewrite E. reflexivity.
Qed.
Lemma unboxed_print_done g t : unboxed_name (print g (unboxed_exp t)) = print g (unboxed_exp t).
Proof.
  rewrite unboxed_print. destruct t; simpl; auto. rewrite unboxed_idem. reflexivity.
Qed.
Lemma names_map f t : names (map_names f t) = map f (names t).
Proof. induction t; simpl; auto. rewrite map_app. congruence. Qed.
Lemma readable_plain e : readable e -> wf_names e.
Proof. intros H. eapply Forall_impl; [|exact H]. simpl. tauto. Qed.
Lemma readable_plain_unboxed e : readable e -> wf_names (unboxed_exp e).
Proof.
  intros H. unfold wf_names, unboxed_exp. rewrite names_map. apply Forall_map.
  eapply Forall_impl; [|exact H]. simpl. intros n [Hn _]. now apply unboxed_plain.
Qed.
Lemma readable_makePrim g e : blanks g -> readable e -> makePrim (print g e) = print g (unboxed_exp e).
Proof. intros Hg H. apply makePrim_spec; [exact Hg|]. eapply Forall_impl; [|exact H]. simpl. tauto. Qed.

Lemma last_of (a b : string) (x y : ascii) : (a ++ String x "" = b ++ String y "")%string -> x = y.
Proof.
  intros H. apply (f_equal chars) in H. rewrite !chars_app in H. simpl in H. apply app_inj_tail in H. tauto.
Qed.
Lemma not_array s : isArray (s ++ ">") = Ret false.
Proof.
  destruct (isArray_spec (s ++ ">")) as [[_ K]|[[_ K]|[K _]]]; [exfalso|exfalso|exact K].
  - destruct K as [K|[K|K]].
    + destruct s; discriminate.
    + apply (last_of s "" ">" "]") in K. discriminate.
    + apply (last_of s "p" ">" "]") in K. discriminate.
  - destruct K as [[r K]|[r K]].
    + change "[]" with ("[" ++ "]") in K. rewrite <- app_assoc_s in K. apply (last_of s (r ++ "[") ">" "]") in K. discriminate.
    + change "[p]" with ("[p" ++ "]") in K. rewrite <- app_assoc_s in K. apply (last_of s (r ++ "[p") ">" "]") in K. discriminate.
Qed.

Lemma container_result_spec g e c : blanks g -> readable e -> wr_name c = print g e ->
  wr_source c = source_of e -> wr_choices c = [] -> (forall n, e <> TName n) ->
  exists x, container_result c = Ret x /\ container_means g e c x.
Proof.
  intros Hg Hr Hn Hs Hc He. unfold container_result. rewrite Hn, Hs, Hc, (readable_makePrim g e Hg Hr).
  unfold container_means. rewrite Hs. pose proof (readable_plain_unboxed e Hr) as Hp.
  destruct e as [n|t|k v]; [exfalso; eapply He; reflexivity| |].
  - cbn [source_of]. unfold Restricted_make. cbn [String.eqb Ascii.eqb Bool.eqb].
    change (print g (unboxed_exp (TListOf t))) with ("java.util.List<" ++ print g (unboxed_exp t) ++ ">")%string.
    pose proof (not_array ("java.util.List<" ++ print g (unboxed_exp t))) as Ha. rewrite app_assoc_s in Ha.
    rewrite Ha. cbn [rbind].
    change ("java.util.List<" ++ print g (unboxed_exp t) ++ ">")%string
      with ("java.util.List" ++ "<" ++ print g (unboxed_exp t) ++ ">")%string.
    rewrite listType_spec by (unfold has; simpl; intuition discriminate). cbn [rbind].
    rewrite unboxed_print_done. eexists. split; [reflexivity|]. cbn. repeat split; reflexivity.
  - cbn [source_of]. unfold Restricted_make. cbn [String.eqb Ascii.eqb Bool.eqb].
    assert (Hk : wf_names (unboxed_exp k)).
    { apply readable_plain_unboxed. unfold readable in *. simpl in Hr. now apply Forall_app in Hr. }
    assert (Hv : wf_names (unboxed_exp v)).
    { apply readable_plain_unboxed. unfold readable in *. simpl in Hr. now apply Forall_app in Hr. }
    change (print g (unboxed_exp (TMapOf k v)))
      with ("java.util.Map" ++ "<" ++ print g (unboxed_exp k) ++ "," ++ g ++ print g (unboxed_exp v) ++ ">")%string.
    rewrite mapType_spec; [|unfold has; simpl; intuition discriminate|now apply print_bracketed|now apply print_no_blank|
                            exact Hg|now apply print_no_blank].
    cbn [rbind]. rewrite !unboxed_print_done. eexists. split; [reflexivity|]. cbn. repeat split; reflexivity.
Qed.

Theorem container_parsed : forall fuel g e c l r u, blanks g -> readable e -> (forall n, e <> TName n) ->
  wr_name c = print g e -> wr_source c = source_of e -> wr_choices c = [] ->
  exists x, dispatchDescribed (S (S fuel)) (Data (At l (container_tree c) r) u)
            = Ok (EType (TRestricted x)) (Data (At l (container_tree c) r) u) /\ container_means g e c x.
Proof.
  intros fuel g e c l r u Hg Hr He Hn Hs Hc.
  destruct (container_result_spec g e c Hg Hr Hn Hs Hc He) as (x & Hx & Hm). exists x. split; [|exact Hm].
  rewrite container_parses, Hx. reflexivity.
Qed.

Theorem written_field : forall w, w_default w <> None -> w_label w <> None ->
  field_makeProton (w_name w) (w_type w) (w_requires w) (text (w_default w)) (text (w_label w))
                   (w_mandatory w) (w_multiple w) = decoded (field_tree w).
Proof.
  intros [n t rs [df|] [lb|] mand mult]; simpl; try congruence. intros _ _. apply field_makeProton_spec.
Qed.
Theorem written_class : forall c, wc_label c <> None ->
  composite_makeProton (wc_name c) (wc_provides c) (wc_fingerprint c)
    (map (fun w => decoded (field_tree w)) (wc_fields c)) (text (wc_label c)) = decoded (class_tree c).
Proof. intros [n [lb|] ps fp ws]; simpl; try congruence. intros _. apply composite_makeProton_spec. Qed.
Theorem written_container : forall c, wr_label c = Some "" -> wr_provides c = [] -> wr_choices c = [] ->
  restricted_makeProton (wr_name c) (wr_source c) (wr_fingerprint c) = decoded (container_tree c).
Proof. intros [n lb ps src fp ch]; simpl. intros -> -> ->. apply restricted_makeProton_spec. Qed.

Lemma enum_result c : wr_source c = "list" -> wr_choices c <> [] ->
  exists x, container_result c = Ret x /\ enum_means c x.
Proof.
  intros Hs Hc. unfold container_result, Restricted_make. rewrite Hs. destruct (wr_choices c) as [|ch chs] eqn:E; [congruence|].
  cbn [String.eqb Ascii.eqb Bool.eqb]. eexists. split; [reflexivity|]. repeat split; cbn; congruence.
Qed.
Lemma array_result e c : wr_source c = "list" -> wr_choices c = [] -> array_name e c ->
  exists x, container_result c = Ret x /\ array_means e c x.
Proof.
  intros Hs Hc [He Hn]. unfold container_result, Restricted_make. rewrite Hs, Hc.
  cbn [String.eqb Ascii.eqb Bool.eqb].
  assert (Ha : isArray (makePrim (wr_name c)) = Ret true).
  { destruct (isArray_spec (makePrim (wr_name c))) as [[_ K]|[[K _]|(_ & K1 & K2 & _)]].
    - exfalso. destruct K as [K|[K|K]]; rewrite K in Hn.
      + destruct Hn as [E|E]; destruct e; discriminate.
      + destruct Hn as [E|E]; destruct e as [|x [|y e]]; discriminate.
      + destruct Hn as [E|E]; destruct e as [|x [|y [|z e]]]; discriminate.
    - exact K.
    - exfalso. destruct Hn as [E|E]; [apply K1|apply K2]; exists e; exact E. }
  rewrite Ha. cbn [rbind].
  assert (Hat : arrayType (makePrim (wr_name c)) = Ret e).
  { destruct (arrayType_spec e He) as [A1 A2]. destruct Hn as [-> | ->]; assumption. }
  rewrite Hat. cbn [rbind]. eexists. split; [reflexivity|]. unfold array_means. cbn. rewrite unbox_spec.
  repeat split; congruence.
Qed.

Lemma type_result_spec w : readable_type w ->
  exists t, type_result w = Ret t /\ type_means w t /\ entry_ok t.
Proof.
  destruct w as [c|c]; simpl readable_type.
  - intros [Hf Hn].
    assert (Ha : Forall acceptable (wc_fields c)) by (eapply Forall_impl; [|exact Hf]; simpl; tauto).
    destruct (acceptable_results _ Ha) as (fs & H1 & H2).
    unfold type_result, class_result. rewrite (proj2 (mapM_Forall2 _ _ _) H1). cbn [rbind]. eexists. split; [reflexivity|].
    split; [repeat split; auto|]. split; [|split]; simpl.
    + clear -H2. induction H2 as [|w f ws fs H _ IH]; constructor; [apply H|exact IH].
    + intros f Hin Ht. clear -H2 Hf Hin Ht.
      revert Hf Hin. induction H2 as [|w f' ws fs H _ IH]; intros Hf Hin; [destruct Hin|].
      inversion Hf as [|? ? [_ Hw] Hf']; subst. destruct Hin as [-> |Hin]; [|exact (IH Hf' Hin)].
      destruct H as (_ & H2 & H3 & _). rewrite Ht in H2. rewrite <- H2 in *. rewrite H3. apply Hw. reflexivity.
    + exact Hn.
  - intros H.
    assert (K : exists x, container_result c = Ret x /\ type_means (WContainer c) (TRestricted x)).
    { destruct H as [(g & e & Hg & Hr & He & Hn & Hs & Hc)|[[Hs Hc]|(Hs & Hc & e & He)]].
      - destruct (container_result_spec g e c Hg Hr Hn Hs Hc He) as (x & Hx & Hm). exists x. simpl. eauto 9.
      - destruct (enum_result c Hs Hc) as (x & Hx & Hm). exists x. simpl. auto.
      - destruct (array_result e c Hs Hc He) as (x & Hx & Hm). exists x. simpl. eauto 8. }
    destruct K as (x & Hx & Hm). exists (TRestricted x). unfold type_result. rewrite Hx. split; [reflexivity|].
    split; [exact Hm|]. repeat split. simpl. repeat eexists. exact Hx.
Qed.

Lemma type_results ws : Forall readable_type ws ->
  exists ts, Forall2 (fun w t => type_result w = Ret t) ws ts /\ Forall2 type_means ws ts /\ Forall entry_ok ts.
Proof.
  induction 1 as [|w ws Hw _ (ts & I1 & I2 & I3)]; [exists []; repeat split; constructor|].
  destruct (type_result_spec w Hw) as (t & H1 & H2 & H3). exists (t :: ts). repeat split; constructor; auto.
Qed.

Theorem type_parsed : forall fuel w l r u, readable_type w ->
  exists t, dispatchDescribed (S (S fuel)) (Data (At l (type_tree w) r) u)
            = Ok (EType t) (Data (At l (type_tree w) r) u) /\ type_means w t.
Proof.
  intros fuel w l r u H. destruct (type_result_spec w H) as (t & H1 & H2 & _). exists t. split; [|exact H2].
  rewrite type_parses, H1. reflexivity.
Qed.

Theorem envelope_parsed : forall fuel fp body groups more l r u, Forall readable_type (List.concat groups) ->
  exists e ts, dispatchDescribed (S (S (S (S fuel)))) (Data (At l (envelope_tree (payload_tree fp body) groups more) r) u)
    = Ok (EEnvelope e) (Data (At l (envelope_tree (payload_tree fp body) groups more) r) u) /\
  e_descriptor e = fp /\ Forall2 type_means (List.concat groups) ts /\
  Permutation (List.concat (s_types (e_schema e))) ts.
Proof.
  intros fuel fp body groups more l r u H. destruct (type_results _ H) as (ts & H1 & H2 & H3).
  destruct (envelope_wire fuel fp body groups more ts l r u H1 H3) as (e & A1 & A2 & A3).
  exists e, ts. auto.
Qed.

Theorem written_envelope : forall payload ws,
  envelope_makeProton (decoded payload) (schema_makeProton (map (fun t => decoded (type_tree t)) ws))
  = decoded (envelope_tree payload [ws] [leaf ANull]).
Proof. intros. rewrite schema_makeProton_spec, envelope_makeProton_spec. reflexivity. Qed.

(** Deciding [plain], for examples. *)
Definition hasb (c : ascii) (s : string) : bool := existsb (Ascii.eqb c) (chars s).
Definition plainb (n : string) : bool :=
  negb (hasb "<" n) && negb (hasb ">" n) && negb (hasb "," n) && negb (starts_with " " n) &&
  negb (starts_with "java.util.List" n) && negb (starts_with "java.util.Map" n).
Lemma hasb_spec c s : hasb c s = false -> ~ has c s.
Proof.
  unfold hasb, has. intros H Hin. assert (K : existsb (Ascii.eqb c) (chars s) = true).
  { apply existsb_exists. exists c. split; [exact Hin|apply Ascii.eqb_refl]. }
  congruence.
Qed.
Lemma plainb_spec n : plainb n = true -> plain n.
Proof.
  unfold plainb. rewrite !andb_true_iff, !negb_true_iff. intros [[[[[H1 H2] H3] H4] H5] H6].
  unfold plain. repeat split; auto using hasb_spec;
  intros K; apply starts_with_spec in K; congruence.
Qed.
