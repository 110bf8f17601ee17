(** Proofs for C100. *)
From Coq Require Import Sorting.Sorted Permutation Lia.
From Verif Require Import SpecTypes Base Proton TypeNames SpecDescriptors Writer SpecWriter WriterProofs CordaFile Tools SpecTools SpecAmqp AmqpProofs
  SpecIdentity SpecPrograms Programs ProgramsProofs.
Import List ListNotations.
Open Scope string_scope.

(** ** Same payload, same object *)
Lemma prim_tree_inj v w : prim_ok v -> prim_ok w -> prim_tree v = prim_tree w -> v = w.
Proof.
  destruct v, w; cbn [prim_ok prim_tree]; unfold leaf, str; intros Hv Hw E; try discriminate; try (injection E as ->; reflexivity).
  injection E as E. f_equal. destruct (Z.ltb_spec z 0), (Z.ltb_spec z0 0); lia.
Qed.
Lemma prim_tree_null v : prim_tree v <> leaf ANull.
Proof. destruct v; discriminate. Qed.

Lemma flat_pairs_inj {A B} (f g : A -> B) (l m : list A) :
  flat_map (fun a => [f a; g a]) l = flat_map (fun a => [f a; g a]) m -> Forall2 (fun a b => f a = f b /\ g a = g b) l m.
Proof.
  revert m; induction l as [|a l IH]; intros [|b m] E; cbn in E; try discriminate; constructor.
  - now injection E as -> -> _.
  - apply IH. now injection E.
Qed.
Lemma map_inj_F2 {A B} (f g : A -> B) l m : map f l = map g m -> Forall2 (fun a b => f a = g b) l m.
Proof.
  revert m; induction l as [|a l IH]; intros [|b m] E; cbn in E; try discriminate; constructor.
  - now injection E.
  - apply IH. now injection E.
Qed.
Lemma target_null o : is_target o = true -> wire o <> leaf ANull.
Proof. destruct o as [| | | | |[o|]]; try discriminate. Qed.

Section Typed.
Context (P : program).
Lemma wire_inj i : forall t j, of_type P t i -> of_type P t j -> well_formed i -> well_formed j -> wire i = wire j -> same i j.
Proof.
  induction i using item_induction; intros u j Hi Hj Wi Wj E.
  - destruct u; try contradiction. destruct j as [w|q w|n fp ps|n fp es|n fp kvs|[o|]]; try contradiction.
    cbn in Hi, Hj, E. rewrite (prim_tree_inj v w) by tauto. constructor.
  - destruct u; try contradiction. destruct j as [w|q w|n fp ps|n fp es|n fp kvs|[o|]]; try contradiction.
    cbn in Hi, Hj. destruct Hi as [-> Hi], Hj as [-> Hj]. destruct v as [v|], w as [w|]; cbn [wire] in E.
    + rewrite (prim_tree_inj v w) by tauto. constructor.
    + now destruct (prim_tree_null v).
    + now destruct (prim_tree_null w).
    + constructor.
  - apply object_type in Hi as (c & -> & -> & -> & Hm). destruct j as [w|q w|n fp qs|n fp es|n fp kvs|[o|]]; try contradiction.
    apply object_type in Hj as (c' & [= <-] & -> & -> & Hm'). constructor. cbn [wire] in E. unfold payload_tree, list_of in E.
    injection E as E. cbn [well_formed] in Wi, Wj. rewrite (fold_and (fun p => well_formed (snd (snd p)))) in Wi, Wj.
    apply map_inj_F2 in E. revert qs Hm' Wj E. revert Hm.
    generalize (declared P c) as ds. induction ps as [|p ps IH]; intros ds Hm [|q qs] Hm' Wj E; inversion E as [|? ? ? ? E1 E2]; subst; constructor.
    + inversion Hm as [|d ? ds' ? M1 M2]; subst. inversion Hm' as [|? ? ? ? M3 M4]; subst. destruct M1 as (N1 & _ & T1), M3 as (N2 & _ & T2).
      split; [congruence|]. inversion H; subst. inversion Wi; subst. inversion Wj; subst. eauto.
    + inversion Hm as [|d ? ds' ? M1 M2]; subst. inversion Hm' as [|? ? ? ? M3 M4]; subst. inversion H; subst. inversion Wi; subst. inversion Wj; subst.
      eapply IH; eauto.
  - apply vector_type in Hi as (e & -> & -> & -> & Hm). destruct j as [w|q w|n fp qs|n fp fs|n fp kvs|[o|]]; try contradiction.
    apply vector_type in Hj as (c' & [= <-] & -> & -> & Hm'). constructor. cbn [wire] in E. unfold payload_tree, list_of in E.
    injection E as E. cbn [well_formed] in Wi, Wj. rewrite (fold_and (fun e => is_pointer e = false /\ well_formed e)) in Wi, Wj.
    apply map_inj_F2 in E. revert fs Hm' Wj E.
    induction es as [|p ps IH]; intros [|q qs] Hm' Wj E; inversion E as [|? ? ? ? E1 E2]; subst; constructor; inversion H; inversion Hm; inversion Hm';
      inversion Wi; inversion Wj; subst; [|now apply IH]. firstorder eauto.
  - apply map_type in Hi as (k & v & -> & -> & -> & Hm). destruct j as [w|q w|n fp qs|n fp fs|n fp fs|[o|]]; try contradiction.
    apply map_type in Hj as (k' & v' & [= <- <-] & -> & -> & Hm'). constructor. cbn [wire] in E. unfold payload_tree in E.
    injection E as E. cbn [well_formed] in Wi, Wj.
    assert (W : forall l, fold_right (fun kv P => (is_pointer (fst kv) = false /\ well_formed (fst kv)) /\
       (is_pointer (snd kv) = false /\ well_formed (snd kv)) /\ P) True l -> Forall (fun kv : item * item => well_formed (fst kv) /\ well_formed (snd kv)) l).
    { induction l as [|a l IH]; cbn; constructor; tauto. }
    apply W in Wi, Wj. clear W. apply flat_pairs_inj in E. revert fs Hm' Wj E.
    induction kvs as [|p ps IH]; intros [|q qs] Hm' Wj E; inversion E as [|? ? ? ? E1 E2]; subst; constructor; inversion H as [|? ? [A B]]; inversion Hm as [|? ? [C D]];
      inversion Hm' as [|? ? [C' D']]; inversion Wi as [|? ? [F G]]; inversion Wj as [|? ? [F' G']]; subst; [|now apply IH].
    destruct E1. split; eauto.
  - destruct u; try contradiction. destruct j as [w|q w|n fp ps|n fp es|n fp kvs|[o|]]; try contradiction; [|constructor].
    destruct Wj as [Wj _]. now destruct (target_null o Wj).
  - destruct u as [| | | | |u]; try contradiction. destruct j as [w|q w|n fp ps|n fp es|n fp kvs|[o|]]; try contradiction.
    + constructor. cbn in Wi, Wj, E, Hi, Hj. apply (IHi u); tauto.
    + destruct Wi as [Wi _]. now destruct (target_null _ Wi).
Qed.

(** Different types have different fingerprints. *)
Lemma roots_inj (T U : cpp) (x y : item) : NoDup (map (fingerprint P) (types_of P)) -> In T (types_of P) -> In U (types_of P) ->
  of_type P T x -> of_type P U y -> well_formed x -> well_formed y -> is_target x = true -> is_target y = true -> wire x = wire y -> same x y.
Proof.
  intros N HT HU Hx Hy Wx Wy Tx Ty E. assert (X : T = U).
  { apply (nodup_inj (fingerprint P) (types_of P)); auto.
    assert (F : forall V z, of_type P V z -> is_target z = true -> exists l, wire z = payload_tree (fingerprint P V) l).
    { intros V z Hz Tz. destruct z as [|?|n fp ps|n fp es|n fp kvs|]; try discriminate.
      - apply object_type in Hz as (? & _ & _ & -> & _). cbn. eauto.
      - apply vector_type in Hz as (? & _ & _ & -> & _). cbn. eauto.
      - apply map_type in Hz as (? & ? & _ & _ & -> & _). cbn. eauto. }
    destruct (F T x Hx Tx) as (l & E1), (F U y Hy Ty) as (l' & E2). rewrite E, E2 in E1. now injection E1. }
  subst U. eapply wire_inj; eauto.
Qed.
End Typed.

Lemma blob_payload x y blob w w' : well_formed x -> well_formed y -> is_pointer x = false -> is_pointer y = false -> no_clash x -> no_clash y ->
  serialise_blob x new_writer = Ok blob w -> serialise_blob y new_writer = Ok blob w' -> wire x = wire y.
Proof.
  intros Wx Wy Px Py Nx Ny Ex Ey. destruct (serialise_correct x Wx Px Nx) as (w1 & ts1 & E1 & _), (serialise_correct y Wy Py Ny) as (w2 & ts2 & E2 & _).
  rewrite Ex in E1. rewrite Ey in E2. injection E1 as E1 _. rewrite E1 in E2. unfold decoded, envelope_tree, described, list_of in E2.
  injection E2 as E2 _. exact E2.
Qed.

(** ** One schema for an object *)
Lemma sorted_unique {A} (lt : A -> A -> Prop) (T : forall a b c, lt a b -> lt b c -> lt a c) (I : forall a, ~ lt a a) l : forall m,
  StronglySorted lt l -> StronglySorted lt m -> (forall a, In a l <-> In a m) -> l = m.
Proof.
  induction l as [|a l IH]; intros [|b m] S1 S2 H; [reflexivity| | |].
  - exfalso. apply (proj2 (H b)). now left.
  - exfalso. apply (proj1 (H a)). now left.
  - apply StronglySorted_inv in S1 as [S1 F1], S2 as [S2 F2]. rewrite Forall_forall in F1, F2.
    assert (a = b).
    { destruct (proj1 (H a) (or_introl eq_refl)) as [|Ha]; [congruence|]. destruct (proj2 (H b) (or_introl eq_refl)) as [|Hb]; [congruence|].
      destruct (I a). eauto. }
    subst b. f_equal. apply IH; auto. intros c. split; intros Hc.
    + destruct (proj1 (H c) (or_intror Hc)) as [<- |]; [|assumption]. destruct (I a). auto.
    + destruct (proj2 (H c) (or_intror Hc)) as [<- |]; [|assumption]. destruct (I a). auto.
Qed.
Lemma sorted_by_unique {A K} (f : A -> K) (lt : K -> K -> Prop) (T : forall a b c, lt a b -> lt b c -> lt a c) (I : forall a, ~ lt a a) l : forall m,
  StronglySorted lt (map f l) -> StronglySorted lt (map f m) -> (forall k, In k (map f l) <-> In k (map f m)) ->
  (forall a b, In a l -> In b m -> f a = f b -> a = b) -> l = m.
Proof.
  intros m S1 S2 H1 H2. pose proof (sorted_unique lt T I _ _ S1 S2 H1) as E. clear S1 S2 H1. revert m H2 E.
  induction l as [|a l IH]; intros [|b m] H E; cbn in E; try discriminate; [reflexivity|]. injection E as E1 E2.
  f_equal; [apply H; auto; now left|]. apply IH; auto. intros; apply H; auto; now right.
Qed.
Lemma schema_unique x y ts us : one_kind x -> occurrences x = occurrences y ->
  (forall k n, first_named n (fields_written k x) = first_named n (fields_written k y)) ->
  schema_for x ts -> schema_for y us -> ts = us.
Proof.
  intros N HO HF (S1 & K1 & D1) (S2 & K2 & D2).
  apply (sorted_by_unique type_key key_before key_before_trans key_before_irrefl); auto.
  - intros k. now rewrite K1, K2, HO.
  - intros a b Ha Hb E. rewrite Forall_forall in D1, D2. specialize (D1 a Ha). specialize (D2 b Hb).
    destruct a as [c|r], b as [c'|r']; cbn [describes type_key] in D1, D2, E; injection E as E1 E2.
    + destruct D1 as (_ & L1 & P1 & G1 & F1), D2 as (_ & L2 & P2 & G2 & F2).
      destruct c as [n l p fp fs], c' as [n' l' p' fp' fs']; cbn in *. subst. do 2 f_equal.
      apply (sorted_by_unique w_name before before_trans before_irrefl); auto.
      * assert (X : forall A B z, (forall f, In f A <-> first_named (w_name f) (fields_written (n', fp') x) = Some f) ->
          (forall f, In f B <-> first_named (w_name f) (fields_written (n', fp') y) = Some f) -> In z (map w_name A) -> In z (map w_name B)).
        { intros A B z X1 X2 Hz. apply in_map_iff in Hz as (f & <- & Hf). apply in_map, X2. rewrite <- HF. now apply X1. }
        intros k. split; [now apply X|]. intros Hk. apply in_map_iff in Hk as (f & <- & Hf). apply in_map, F1. rewrite HF. now apply F2.
      * intros f g Hf Hg E. apply F1 in Hf. apply F2 in Hg. rewrite HF, E, Hg in Hf. congruence.
    + exfalso. destruct D1 as (O1 & _), D2 as (O2 & _). rewrite E1, E2 in O1. rewrite <- HO in O2. specialize (N _ _ _ O1 O2). discriminate.
    + exfalso. destruct D1 as (O1 & _), D2 as (O2 & _). rewrite E1, E2 in O1. rewrite <- HO in O2. specialize (N _ _ _ O1 O2). discriminate.
    + destruct D1 as (O1 & L1 & P1 & G1), D2 as (O2 & L2 & P2 & G2). rewrite E1, E2 in O1. rewrite <- HO in O2.
      specialize (N _ _ _ O1 O2). injection N as N.
      destruct r as [n l p s fp ch], r' as [n' l' p' s' fp' ch']; cbn in *. now subst.
Qed.
Lemma kind_clash x : one_kind x -> no_clash x.
Proof. intros H k s H1 H2. specialize (H _ _ _ H1 H2). discriminate. Qed.

Lemma alike_saved x y : well_formed x -> well_formed y -> is_pointer x = false -> is_pointer y = false -> one_kind x ->
  wire x = wire y -> occurrences x = occurrences y ->
  (forall k n, first_named n (fields_written k x) = first_named n (fields_written k y)) -> saved_alike x y.
Proof.
  intros Wx Wy Px Py N E HO HF.
  assert (Ny : one_kind y) by (unfold one_kind in *; now rewrite <- HO).
  destruct (serialise_correct x Wx Px (kind_clash x N)) as (w & ts & E1 & S1), (serialise_correct y Wy Py (kind_clash y Ny)) as (w' & us & E2 & S2).
  rewrite <- E, <- (schema_unique x y ts us N HO HF S1 S2) in E2. eexists _, _, _. split; eassumption.
Qed.

(** ** The same objects are saved alike *)
Section SameInd.
Context (Q : item -> item -> Prop).
Hypothesis (H1 : forall v, Q (IPrim v) (IPrim v)) (H2 : forall t v, Q (IPrimPtr t v) (IPrimPtr t v)).
Hypothesis (H3 : forall n fp ps qs, Forall2 (fun p q => fst p = fst q /\ same (snd (snd p)) (snd (snd q)) /\ Q (snd (snd p)) (snd (snd q))) ps qs -> Q (IObject n fp ps) (IObject n fp qs)).
Hypothesis (H4 : forall n fp es fs, Forall2 (fun e f => same e f /\ Q e f) es fs -> Q (IVector n fp es) (IVector n fp fs)).
Hypothesis (H5 : forall n fp es fs, Forall2 (fun e f => (same (fst e) (fst f) /\ Q (fst e) (fst f)) /\ (same (snd e) (snd f) /\ Q (snd e) (snd f))) es fs -> Q (IMap n fp es) (IMap n fp fs)).
Hypothesis (H6 : Q (IPointer None) (IPointer None)) (H7 : forall o p, same o p -> Q o p -> Q (IPointer (Some o)) (IPointer (Some p))).
Fixpoint same_induction x y (H : same x y) {struct H} : Q x y.
Proof.
  destruct H.
  - apply H1.
  - apply H2.
  - apply H3. induction H as [|p q ps qs [E S]]; constructor; auto.
  - apply H4. induction H as [|p q ps qs S]; constructor; auto.
  - apply H5. induction H as [|p q ps qs [S S']]; constructor; auto.
  - apply H6.
  - apply H7; auto.
Defined.
End SameInd.

Lemma same_wire x y : same x y -> wire x = wire y.
Proof.
  intros H. induction H using same_induction; cbn [wire]; auto.
  - do 3 f_equal. induction H as [|p q ps qs (_ & _ & E)]; cbn; [reflexivity|]. now rewrite E, IHForall2.
  - do 3 f_equal. induction H as [|p q ps qs (_ & E)]; cbn; [reflexivity|]. now rewrite E, IHForall2.
  - do 3 f_equal. induction H as [|p q ps qs ((_ & E) & (_ & F))]; cbn; [reflexivity|]. now rewrite E, F, IHForall2.
Qed.
Lemma same_occurrences x y : same x y -> occurrences x = occurrences y.
Proof.
  intros H. induction H using same_induction; cbn [occurrences]; auto.
  - f_equal. induction H as [|p q ps qs (_ & _ & E)]; cbn; [reflexivity|]. now rewrite E, IHForall2.
  - f_equal. induction H as [|p q ps qs (_ & E)]; cbn; [reflexivity|]. now rewrite E, IHForall2.
  - f_equal. induction H as [|p q ps qs ((_ & E) & (_ & F))]; cbn; [reflexivity|]. now rewrite E, F, IHForall2.
Qed.
Lemma same_well_formed x y : same x y -> well_formed x -> well_formed y.
Proof.
  assert (T : forall a b, same a b -> is_pointer a = is_pointer b) by (intros a b []; reflexivity).
  assert (T' : forall a b, same a b -> is_target a = is_target b) by (intros a b []; reflexivity).
  intros H. induction H using same_induction; cbn [well_formed]; auto.
  - intros W. induction H as [|p q ps qs (_ & _ & E)]; cbn in *; tauto.
  - intros W. induction H as [|p q ps qs (S & E)]; cbn in *; auto. rewrite <- (T _ _ S). tauto.
  - intros W. induction H as [|p q ps qs ((S & E) & (S' & E'))]; cbn in *; auto. rewrite <- (T _ _ S), <- (T _ _ S'). tauto.
  - rewrite (T' _ _ H). tauto.
Qed.
Lemma same_pointer x y : same x y -> is_pointer x = is_pointer y.
Proof. intros []; reflexivity. Qed.

Lemma same_fields (P : program) k x y : same x y -> forall t, of_type P t x -> of_type P t y -> fields_written k x = fields_written k y.
Proof.
  intros H. induction H using same_induction; intros u Hx Hy; cbn [fields_written]; auto.
  - apply object_type in Hx as (c & -> & _ & _ & Hm), Hy as (c' & [= <-] & _ & _ & Hm').
    revert Hm Hm'. generalize (declared P c) as ds. induction H as [|p q ps qs (E & S & IH) H IH']; intros ds Hm Hm'; cbn; [reflexivity|].
    inversion Hm as [|d ? ds' ? M1 M2]; subst. inversion Hm' as [|? ? ? ? M3 M4]; subst. destruct M1 as (N1 & Y1 & T1), M3 as (N2 & Y2 & T2).
    assert (F : property_field (fst p) (fst (snd p)) (snd (snd p)) = property_field (fst q) (fst (snd q)) (snd (snd q))).
    { destruct p as [pn [ty v]], q as [qn [ty' v']]. cbn [fst snd] in *. subst qn.
      assert (Y : is_primitive v = false -> ty = ty').
      { intros HP. rewrite Y1 by assumption. rewrite Y2; [reflexivity|]. now inversion S; subst. }
      destruct S; cbn [is_primitive] in *; try rewrite (Y eq_refl); reflexivity. }
    specialize (IH' ds' M2 M4). cbn in IH'. destruct (key_eqb k (n, fp)).
    + rewrite (IH _ T1 T2), F. now rewrite IH'.
    + rewrite (IH _ T1 T2). now rewrite IH'.
  - apply vector_type in Hx as (e & -> & _ & _ & Hm), Hy as (e' & [= <-] & _ & _ & Hm').
    induction H as [|p q ps qs (S & IH) H IH']; cbn; [reflexivity|]. inversion Hm; inversion Hm'; subst. erewrite IH by eauto. now rewrite IH'.
  - apply map_type in Hx as (e & e2 & -> & _ & _ & Hm), Hy as (e' & e2' & [= <- <-] & _ & _ & Hm').
    induction H as [|p q ps qs ((S & IH) & (S' & IH2)) H IH']; cbn; [reflexivity|]. inversion Hm as [|? ? [A B]]; inversion Hm' as [|? ? [A' B']]; subst.
    erewrite IH, IH2 by eauto. now rewrite IH'.
  - destruct u; try contradiction. eapply IHsame; eauto.
Qed.

Theorem told_apart P T U x y : NoDup (map (fingerprint P) (types_of P)) -> In T (types_of P) -> In U (types_of P) ->
  of_type P T x -> of_type P U y -> is_target x = true -> is_target y = true -> well_formed x -> well_formed y -> one_kind x -> one_kind y ->
  (saved_alike x y <-> same x y).
Proof.
  intros N HT HU Hx Hy Tx Ty Wx Wy Kx Ky. assert (Px : is_pointer x = false) by (destruct x; try discriminate; reflexivity).
  assert (Py : is_pointer y = false) by (destruct y; try discriminate; reflexivity). split.
  - intros (b & w & w' & E1 & E2). eapply roots_inj with (T := T) (U := U); eauto.
    eapply blob_payload with (w := w) (w' := w'); eauto using kind_clash.
  - intros S. assert (X : T = U).
    { apply (nodup_inj (fingerprint P) (types_of P)); auto. destruct S; try discriminate.
      - apply object_type in Hx as (? & _ & _ & -> & _), Hy as (? & _ & _ & -> & _). reflexivity.
      - apply vector_type in Hx as (? & _ & _ & -> & _), Hy as (? & _ & _ & -> & _). reflexivity.
      - apply map_type in Hx as (? & ? & _ & _ & -> & _), Hy as (? & ? & _ & _ & -> & _). reflexivity. }
    subst U. apply alike_saved; auto using same_wire, same_occurrences. intros k n. erewrite same_fields; eauto.
Qed.

(** ** Files *)
Theorem files_told_apart P T U x y encode b b' w w' : NoDup (map (fingerprint P) (types_of P)) -> In T (types_of P) -> In U (types_of P) ->
  of_type P T x -> of_type P U y -> is_target x = true -> is_target y = true -> well_formed x -> well_formed y -> no_clash x -> no_clash y ->
  serialise_blob x new_writer = Ok b w -> serialise_blob y new_writer = Ok b' w' ->
  follows_amqp encode b -> follows_amqp encode b' -> saved encode b = saved encode b' -> same x y.
Proof.
  intros N HT HU Hx Hy Tx Ty Wx Wy Kx Ky E1 E2 F1 F2 E. assert (Px : is_pointer x = false) by (destruct x; try discriminate; reflexivity).
  assert (Py : is_pointer y = false) by (destruct y; try discriminate; reflexivity).
  destruct (serialise_correct x Wx Px Kx) as (w1 & ts1 & G1 & _), (serialise_correct y Wy Py Ky) as (w2 & ts2 & G2 & _).
  rewrite E1 in G1. rewrite E2 in G2. injection G1 as -> _. injection G2 as -> _. unfold saved, toFile, of_blob in E. cbn [cb_bytes] in E.
  injection E as E. cbn [forest decoded] in E.
  assert (X : envelope_tree (wire x) [ts1] [leaf ANull] = envelope_tree (wire y) [ts2] [leaf ANull]).
  { specialize (F1 _ eq_refl). specialize (F2 _ eq_refl).
    assert (E' : forall t u, encodes t (encode [t]) -> encodes u (encode [u]) -> encode [t] = encode [u] -> t = u).
    { intros t u A B C. rewrite C in A. apply decode_encoded in A, B. congruence. }
    exact (E' _ _ F1 F2 E). }
  unfold envelope_tree, described, list_of in X. injection X as X _. eapply roots_inj with (T := T) (U := U); eauto.
Qed.

(** ** Names are not told apart from their order *)
Lemma flat_fields n fp names vs k : fields_written k (flat_object n fp names vs) =
  if key_eqb k (n, fp) then map (fun nv => property_field (fst nv) "" (IPrim (snd nv))) (combine names vs) else [].
Proof.
  unfold flat_object. cbn [fields_written]. generalize (combine names vs). induction l as [|a l IH]; cbn; [now destruct (key_eqb k (n, fp))|].
  rewrite IH. destruct (key_eqb k (n, fp)); reflexivity.
Qed.
Lemma flat_first n p names : forall vs, Forall (fun v => type_of v = p) vs -> List.length names = List.length vs ->
  first_named n (map (fun nv => property_field (fst nv) "" (IPrim (snd nv))) (combine names vs)) =
  if existsb (String.eqb n) names
  then Some {| w_name := n; w_type := m_type p; w_requires := []; w_default := Some ""; w_label := Some ""; w_mandatory := false; w_multiple := false |}
  else None.
Proof.
  induction names as [|a names IH]; intros [|v vs] H L; cbn in L; try discriminate; [reflexivity|]. injection L as L. inversion H; subst.
  cbn [combine map first_named find existsb]. cbn [property_field w_name fst snd]. destruct (String.eqb_spec n a) as [<- |N].
  - reflexivity.
  - cbn [orb]. apply IH; auto.
Qed.
Lemma flat_wire n fp names : forall vs, List.length names = List.length vs ->
  wire (flat_object n fp names vs) = payload_tree fp [list_of (map prim_tree vs)].
Proof.
  intros vs L. unfold flat_object. cbn [wire]. do 4 f_equal. revert vs L.
  induction names as [|a names IH]; intros [|v vs] L; cbn in L; try discriminate; [reflexivity|]. injection L as L. cbn. f_equal. now apply IH.
Qed.
Lemma flat_formed n fp names vs : Forall prim_ok vs -> well_formed (flat_object n fp names vs).
Proof.
  unfold flat_object. cbn [well_formed]. revert vs. induction names as [|a names IH]; intros [|v vs] H; cbn; auto.
  inversion H; subst. split; [assumption|]. now apply IH.
Qed.
Lemma flat_occurrences n fp names vs : occurrences (flat_object n fp names vs) = [((n, fp), Class)].
Proof.
  unfold flat_object. cbn [occurrences]. f_equal. generalize (combine names vs). induction l as [|a l IH]; cbn; [reflexivity|exact IH].
Qed.
Theorem renamed n fp p names names' vs : Permutation names names' -> List.length names = List.length vs ->
  Forall (fun v => type_of v = p /\ prim_ok v) vs -> saved_alike (flat_object n fp names vs) (flat_object n fp names' vs).
Proof.
  intros HP L H. assert (H1 : Forall (fun v => type_of v = p) vs) by (eapply Forall_impl; [|exact H]; cbn; tauto).
  assert (H2 : Forall prim_ok vs) by (eapply Forall_impl; [|exact H]; cbn; tauto).
  assert (L' : List.length names' = List.length vs) by (rewrite <- L; symmetry; now apply Permutation_length).
  apply alike_saved; auto using flat_formed.
  - intros k a b. rewrite flat_occurrences. intros [[= _ <-]|[]] [[= _ <-]|[]]. reflexivity.
  - now rewrite !flat_wire.
  - now rewrite !flat_occurrences.
  - intros k m. rewrite !flat_fields. destruct (key_eqb k (n, fp)); [|reflexivity]. rewrite !(flat_first m p) by assumption.
    replace (existsb (String.eqb m) names') with (existsb (String.eqb m) names); [reflexivity|].
    apply eq_true_iff_eq. rewrite !existsb_exists. split; intros (z & Hz & E); exists z; (split; [|exact E]);
      [now apply (Permutation_in _ HP)|now apply (Permutation_in _ (Permutation_sym HP))].
Qed.

(** In programs that are in order. *)
Lemma typed_one_kind P T x : SpecPrograms.in_order P -> In T (types_of P) -> of_type P T x -> one_kind x.
Proof.
  intros HP HT Hx k a b Ha Hb. apply (root_occurs P HP T x HT Hx) in Ha as (u & Hu & E), Hb as (v & Hv & F).
  injection E as E1 E2. injection F as F1 F2. assert (u = v) by (apply (java_inj P HP); auto; congruence). subst. reflexivity.
Qed.
