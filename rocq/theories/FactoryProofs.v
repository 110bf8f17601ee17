From Coq Require Import Lia.
From Verif Require Import Base TypeNames Ordering SpecOrdering Schema SpecSchema SchemaProofs Factory SpecFactory.
Import List ListNotations.
Open Scope string_scope.

(** ** The maps *)

Lemma assoc_filter {A} (k k' : string) (m : list (string * A)) : k <> k' ->
  assoc k (filter (fun e => negb (String.eqb (fst e) k')) m) = assoc k m.
Proof.
  intros H. induction m as [|[q a] m IH]; [reflexivity|]. cbn [filter fst].
  destruct (String.eqb_spec q k') as [-> |Hq]; cbn [negb assoc].
  - rewrite IH. destruct (String.eqb_spec k k'); [contradiction|reflexivity].
  - now rewrite IH.
Qed.
Lemma assoc_put k k' p m : assoc k (put k' p m) = if String.eqb k k' then Some p else assoc k m.
Proof.
  unfold put. cbn [assoc]. destruct (String.eqb_spec k k') as [|H]; [reflexivity|]. now apply assoc_filter.
Qed.
Lemma assoc_put_same k p m : assoc k (put k p m) = Some p.
Proof. now rewrite assoc_put, String.eqb_refl. Qed.
Lemma assoc_put_other k k' p m : k <> k' -> assoc k (put k' p m) = assoc k m.
Proof. intros H. rewrite assoc_put. now destruct (String.eqb_spec k k'). Qed.

Lemma assoc_in {A} (k : string) (m : list (string * A)) a : assoc k m = Some a -> In (k, a) m.
Proof.
  induction m as [|[q b] m IH]; [discriminate|]. cbn. destruct (String.eqb_spec k q) as [-> |].
  - intros [= ->]. now left.
  - auto.
Qed.
Lemma assoc_owns k m i : assoc k m = Some (Some i) -> owns m i = true.
Proof.
  intros H. apply assoc_in in H. unfold owns. apply existsb_exists. exists (k, Some i). split; [assumption|].
  apply Nat.eqb_refl.
Qed.
Lemma byType_spec f k i : byType f k = Some i <-> assoc k (types f) = Some (Some i).
Proof.
  unfold byType. destruct (assoc k (types f)) as [[j|]|]; split; intros H; congruence.
Qed.
Lemma byType_lock f k i r : byType f k = Some i -> nth_error (heap f) i = Some r -> lock f i = Some r.
Proof. intros H Hr. apply byType_spec, assoc_owns in H. unfold lock. now rewrite H. Qed.
Lemma lock_heap f i r : lock f i = Some r -> nth_error (heap f) i = Some r.
Proof. unfold lock. destruct (owns _ _ || owns _ _); congruence. Qed.

(** ** Growing *)

Definition ext (f f' : factory) : Prop :=
  (forall i r, nth_error (heap f) i = Some r -> nth_error (heap f') i = Some r) /\
  (forall k i, byType f k = Some i -> byType f' k = Some i).

Lemma ext_refl f : ext f f.
Proof. split; auto. Qed.
Lemma ext_trans a b c : ext a b -> ext b c -> ext a c.
Proof. intros [H1 H2] [H3 H4]. split; auto. Qed.

Definition lands {A} (P : factory -> Prop) (o : outcome factory A) : Prop :=
  match o with Ok _ f | Throw _ f => P f | _ => True end.

Lemma lands_impl {A} (P Q : factory -> Prop) (o : outcome factory A) :
  (forall f, P f -> Q f) -> lands P o -> lands Q o.
Proof. destruct o; simpl; auto. Qed.
Lemma lands_bind {A B} (P : factory -> Prop) (m : FM A) (k : A -> FM B) f :
  lands P (m f) -> (forall a f', m f = Ok a f' -> lands P (k a f')) -> lands P (bind m k f).
Proof. intros H Hk. unfold bind. destruct (m f) as [a f'|e f'| | |]; auto. Qed.

(** [m] preserves [P]. *)
Definition keeps {A} (P : factory -> Prop) (m : FM A) : Prop := forall f, P f -> lands P (m f).

Lemma keeps_ret {A} P (a : A) : keeps P (ret a).
Proof. intros f H. exact H. Qed.
Lemma keeps_throw {A} P e : keeps P (@throw factory A e).
Proof. intros f H. exact H. Qed.
Lemma keeps_lift {A} P (r : res A) : keeps P (lift r).
Proof. intros f H. unfold lift. destruct r; exact H || exact I. Qed.
Lemma keeps_bind {A B} P (m : FM A) (k : A -> FM B) : keeps P m -> (forall a, keeps P (k a)) -> keeps P (bind m k).
Proof.
  intros Hm Hk f H. specialize (Hm f H). apply lands_bind; [assumption|]. intros a f' E. rewrite E in Hm.
  now apply Hk.
Qed.

(** The two elementary changes: a new object, a new entry for a key without
    one. *)
Record stable (P : factory -> Prop) : Prop := {
  st_make : forall r, keeps P (make r);
  st_null : forall f k, P f -> assoc k (types f) = None -> P (set_types (put k None (types f)) f);
  st_prim : forall f k i p, P f -> assoc k (types f) = None -> nth_error (heap f) i = Some (RProperty p) ->
              k = prim_name p -> P (set_types (put k (Some i) (types f)) f)
}.

Lemma types_at_keeps P k : stable P -> keeps P (types_at k).
Proof.
  intros S f H. unfold types_at. destruct (assoc k (types f)) eqn:E; [exact H|]. now apply (st_null P S).
Qed.

Lemma makePropertyReader_spec k r : makePropertyReader k = Ret r -> exists p, r = RProperty p /\ k = prim_name p.
Proof.
  unfold makePropertyReader.
  repeat (match goal with |- context [String.eqb ?a ?b] => destruct (String.eqb_spec a b) as [-> |] end;
    [intros [= <-]; eexists; split; reflexivity|]).
  discriminate.
Qed.
Lemma makePropertyReader_prim p : makePropertyReader (prim_name p) = Ret (RProperty p).
Proof. destruct p; reflexivity. Qed.
Lemma makePropertyReader_cases k : (exists p, k = prim_name p /\ makePropertyReader k = Ret (RProperty p)) \/
  makePropertyReader k = Exc RuntimeError.
Proof.
  destruct (makePropertyReader k) eqn:E.
  - destruct (makePropertyReader_spec _ _ E) as (p & -> & ->). left. eauto.
  - right. revert E. unfold makePropertyReader. repeat (match goal with |- context [String.eqb ?a ?b] => destruct (String.eqb a b) end; [discriminate|]). congruence.
  - exfalso. revert E. unfold makePropertyReader. repeat (match goal with |- context [String.eqb ?a ?b] => destruct (String.eqb a b) end; try discriminate).
  - exfalso. revert E. unfold makePropertyReader. repeat (match goal with |- context [String.eqb ?a ?b] => destruct (String.eqb a b) end; try discriminate).
  - exfalso. revert E. unfold makePropertyReader. repeat (match goal with |- context [String.eqb ?a ?b] => destruct (String.eqb a b) end; try discriminate).
Qed.

Lemma nth_error_snoc {A} (l : list A) a : nth_error (l ++ [a]) (List.length l) = Some a.
Proof. rewrite nth_error_app2, Nat.sub_diag; [reflexivity|lia]. Qed.
Lemma nth_error_grow {A} (l : list A) a i x : nth_error l i = Some x -> nth_error (l ++ [a]) i = Some x.
Proof. intros H. rewrite nth_error_app1; [assumption|]. apply nth_error_Some. congruence. Qed.

(** Primitive readers through computeIfAbsent. *)
Lemma property_cases k f :
  (exists i, assoc k (types f) = Some (Some i) /\ computeIfAbsent k (make_property k) f = Ok i f) \/
  (assoc k (types f) = Some None /\ computeIfAbsent k (make_property k) f = UB) \/
  (assoc k (types f) = None /\ makePropertyReader k = Exc RuntimeError /\
     computeIfAbsent k (make_property k) f = Throw RuntimeError f) \/
  (exists p f1, assoc k (types f) = None /\ k = prim_name p /\ make (RProperty p) f = Ok (List.length (heap f)) f1 /\
     computeIfAbsent k (make_property k) f =
       Ok (List.length (heap f)) (set_types (put k (Some (List.length (heap f))) (types f1)) f1)).
Proof.
  unfold computeIfAbsent. destruct (assoc k (types f)) as [[i|]|] eqn:E; eauto.
  right. right. unfold make_property, bind, lift.
  destruct (makePropertyReader_cases k) as [(p & -> & ->)|H].
  - right. exists p. eexists. split; [reflexivity|]. split; [reflexivity|]. split; [reflexivity|].
    unfold make. cbn [heap set_types]. rewrite nth_error_snoc. cbn [reader_type].
    now rewrite String.eqb_refl.
  - rewrite H. auto.
Qed.

Lemma property_keeps P k : stable P -> keeps P (computeIfAbsent k (make_property k)).
Proof.
  intros S f H. destruct (property_cases k f) as [(i & _ & ->)|[(_ & ->)|[(_ & _ & ->)|(p & f1 & E & Hk & H1 & ->)]]];
    try exact H; try exact I.
  cbn [lands]. pose proof (st_make P S (RProperty p) f H) as H2. rewrite H1 in H2. cbn [lands] in H2.
  injection H1 as <-. eapply (st_prim P S); eauto. cbn [heap]. apply nth_error_snoc.
Qed.

(** Fields as the library makes them. *)
Lemma primitive_resolved fd : field_made fd -> f_kind fd = PrimitiveField -> resolvedType fd = Ret (f_type fd).
Proof. intros _ H. unfold resolvedType. now rewrite H. Qed.

Lemma field_reader_keeps P self name fd t : stable P -> field_made fd -> resolvedType fd = Ret t ->
  keeps P (match f_kind fd with
           | PrimitiveField => let! i := computeIfAbsent t (make_property (f_type fd)) in ret (Some i)
           | CustomField => types_at t
           | _ => if String.eqb t name then ret (Some self) else types_at t
           end).
Proof.
  intros S Hm Ht. destruct (f_kind fd) eqn:K.
  - rewrite (primitive_resolved fd Hm K) in Ht. injection Ht as <-.
    apply keeps_bind; [now apply property_keeps|]. intros a. apply keeps_ret.
  - destruct (String.eqb t name); [apply keeps_ret|now apply types_at_keeps].
  - now apply types_at_keeps.
  - destruct (String.eqb t name); [apply keeps_ret|now apply types_at_keeps].
  - destruct (String.eqb t name); [apply keeps_ret|now apply types_at_keeps].
Qed.

Lemma property_readers_keeps P self name fds : stable P -> Forall field_made fds ->
  keeps P (property_readers self name fds).
Proof.
  intros S Hf. induction Hf as [|fd fds Hm Hf IH]; cbn [property_readers]; [apply keeps_ret|].
  destruct (resolvedType fd) as [t|e| | |] eqn:Ht.
  - intros f H. unfold bind at 1. cbn [lift]. revert f H. apply keeps_bind; [now apply field_reader_keeps|].
    intros [i|]; [|apply keeps_throw]. apply keeps_bind; [assumption|]. intros a. apply keeps_ret.
  - intros f H. exact H.
  - intros f H. exact I.
  - intros f H. exact I.
  - intros f H. exact I.
Qed.

Lemma fetch_keeps P k : stable P -> keeps P (fetchReaderForRestricted k).
Proof.
  intros S. unfold fetchReaderForRestricted. destruct (typeIsPrimitive k); [now apply property_keeps|].
  apply keeps_bind; [now apply types_at_keeps|]. intros [i|]; [apply keeps_ret|apply keeps_throw].
Qed.

Lemma processRestricted_keeps P kf r : stable P -> keeps P (processRestricted kf r).
Proof.
  intros S. unfold processRestricted, processMap. pose proof (fun k => fetch_keeps P k S) as F. pose proof (st_make P S) as M.
  destruct (r_kind r); try (apply keeps_bind; [apply F|intros; apply M]).
  - apply keeps_bind.
    + destruct kf; (apply keeps_bind; [apply F|intros; apply keeps_bind; [apply F|intros; apply keeps_ret]]).
    + intros [k v]. apply M.
  - apply M.
Qed.

(** [ext f0] and unchanged descriptors are stable. *)
Lemma stable_ext f0 : stable (ext f0).
Proof.
  split.
  - intros r f [H1 H2]. cbn. split; cbn [heap]; [|exact H2]. intros i x Hi. apply nth_error_grow. auto.
  - intros f k [H1 H2] E. split; [exact H1|]. intros q i Hq. apply H2 in Hq. apply byType_spec in Hq.
    apply byType_spec. cbn [types set_types]. rewrite assoc_put_other; [assumption|congruence].
  - intros f k j p [H1 H2] E _ _. split; [exact H1|]. intros q i Hq. apply H2 in Hq. apply byType_spec in Hq.
    apply byType_spec. cbn [types set_types]. rewrite assoc_put_other; [assumption|congruence].
Qed.
Lemma stable_descriptors d : stable (fun f => descriptors f = d).
Proof. split; intros; try (intros f Hf; exact Hf); assumption. Qed.

(** ** Results *)

Lemma types_at_result k f i f' : types_at k f = Ok (Some i) f' -> f' = f /\ byType f k = Some i.
Proof.
  unfold types_at. destruct (assoc k (types f)) as [p|] eqn:E; [|discriminate]. intros [= -> ->].
  split; [reflexivity|]. now apply byType_spec.
Qed.
Lemma property_result k f i f' : computeIfAbsent k (make_property k) f = Ok i f' -> byType f' k = Some i.
Proof.
  destruct (property_cases k f) as [(j & E & ->)|[(_ & ->)|[(_ & _ & ->)|(p & f1 & E & Hk & H1 & ->)]]]; try discriminate.
  - intros [= <- <-]. now apply byType_spec.
  - intros [= <- <-]. apply byType_spec. cbn [types set_types]. apply assoc_put_same.
Qed.
Lemma bind_Ok {S A B} (m : S -> outcome S A) (k : A -> S -> outcome S B) s b s' : bind m k s = Ok b s' ->
  exists a s1, m s = Ok a s1 /\ k a s1 = Ok b s'.
Proof. unfold bind. destruct (m s); try discriminate. eauto. Qed.

Lemma keeps_ok {A} P (m : FM A) f a f' : keeps P m -> P f -> m f = Ok a f' -> P f'.
Proof. intros K H E. specialize (K f H). now rewrite E in K. Qed.

Lemma fetch_result k f i f' : fetchReaderForRestricted k f = Ok i f' -> byType f' k = Some i.
Proof.
  unfold fetchReaderForRestricted. destruct (typeIsPrimitive k); [apply property_result|].
  intros H. apply bind_Ok in H as ([j|] & f1 & H1 & H2); [|discriminate]. injection H2 as <- <-.
  apply types_at_result in H1 as [-> H]. exact H.
Qed.

(** A property's reader: registered under the type's name, or the class's own. *)
Definition served (self : nat) (name : string) (f : factory) (fd : field) (i : nat) : Prop :=
  exists t, resolvedType fd = Ret t /\ (byType f t = Some i \/ t = name /\ i = self).

Lemma served_ext self name f f' fd i : ext f f' -> served self name f fd i -> served self name f' fd i.
Proof. intros [_ H] (t & Ht & [Hi|Hi]); exists t; auto. Qed.

Lemma property_readers_result self name fds : Forall field_made fds -> forall f is f',
  property_readers self name fds f = Ok is f' -> Forall2 (served self name f') fds is.
Proof.
  intros Hf. induction Hf as [|fd fds Hm Hf IH]; cbn [property_readers]; intros f is f' H.
  - injection H as <- <-. constructor.
  - apply bind_Ok in H as (t & f1 & H1 & H). unfold lift in H1. destruct (resolvedType fd) as [t'| | | |] eqn:Ht; try discriminate.
    injection H1 as -> ->. apply bind_Ok in H as (p & f2 & H2 & H).
    destruct p as [i|]; [|discriminate]. apply bind_Ok in H as (is' & f3 & H3 & H). injection H as <- <-.
    constructor; [|eapply IH; eauto].
    pose proof (keeps_ok _ _ _ _ _ (property_readers_keeps _ self name fds (stable_ext f2) Hf) (ext_refl _) H3) as X.
    eapply served_ext; [exact X|]. exists t. split; [assumption|].
    destruct (f_kind fd) eqn:K.
    + rewrite (primitive_resolved fd Hm K) in Ht. injection Ht as <-.
      apply bind_Ok in H2 as (j & f4 & H4 & H5). injection H5 as -> ->. left. eapply property_result; eauto.
    + destruct (String.eqb_spec t name) as [-> |]; [injection H2 as <- <-; auto|].
      apply types_at_result in H2 as [-> H2]. auto.
    + apply types_at_result in H2 as [-> H2]. auto.
    + destruct (String.eqb_spec t name) as [-> |]; [injection H2 as <- <-; auto|].
      apply types_at_result in H2 as [-> H2]. auto.
    + destruct (String.eqb_spec t name) as [-> |]; [injection H2 as <- <-; auto|].
      apply types_at_result in H2 as [-> H2]. auto.
Qed.

(** A name that is not primitive is not registered by the way. *)
Definition absent (k : string) (f : factory) : Prop := assoc k (types f) = None.

Lemma prim_name_primitive p : typeIsPrimitive (prim_name p) = true.
Proof. destruct p; reflexivity. Qed.

Definition stays {A} (k : string) (m : FM A) : Prop := forall f a f', absent k f -> m f = Ok a f' -> absent k f'.
Lemma stays_property k k' : typeIsPrimitive k = false -> stays k (computeIfAbsent k' (make_property k')).
Proof.
  intros Hk f a f' H. destruct (property_cases k' f) as [(i & _ & ->)|[(_ & ->)|[(_ & _ & ->)|(p & f1 & E & Hp & H1 & ->)]]];
    try discriminate.
  - intros [= _ <-]. exact H.
  - intros [= _ <-]. injection H1 as <-. unfold absent. cbn [types set_types]. rewrite assoc_put_other; [exact H|].
    intros ->. subst k'. rewrite prim_name_primitive in Hk. discriminate.
Qed.
Lemma stays_at k k' f i f' : absent k f -> types_at k' f = Ok (Some i) f' -> absent k f'.
Proof. intros H E. now apply types_at_result in E as [-> _]. Qed.
Lemma stays_fetch k k' : typeIsPrimitive k = false -> stays k (fetchReaderForRestricted k').
Proof.
  intros Hk f a f' H. unfold fetchReaderForRestricted. destruct (typeIsPrimitive k'); [now apply stays_property|].
  intros E. apply bind_Ok in E as ([j|] & f1 & H1 & H2); [|discriminate]. injection H2 as <- <-. eapply stays_at; eauto.
Qed.
Lemma stays_readers k self fds : typeIsPrimitive k = false -> Forall field_made fds -> stays k (property_readers self k fds).
Proof.
  intros Hk Hf. induction Hf as [|fd fds Hm Hf IH]; cbn [property_readers]; intros f is f' H0 H.
  - injection H as <- <-. exact H0.
  - apply bind_Ok in H as (t & f1 & H1 & H). unfold lift in H1. destruct (resolvedType fd) as [t'| | | |] eqn:Ht; try discriminate.
    injection H1 as -> ->. apply bind_Ok in H as (p & f2 & H2 & H).
    destruct p as [i|]; [|discriminate]. apply bind_Ok in H as (is' & f3 & H3 & H). injection H as <- <-.
    eapply IH; [|exact H3]. destruct (f_kind fd) eqn:K.
    + rewrite (primitive_resolved fd Hm K) in Ht. injection Ht as <-.
      apply bind_Ok in H2 as (j & f4 & H4 & H5). injection H5 as -> ->. eapply stays_property; eauto.
    + destruct (String.eqb t k); [injection H2 as <- <-; exact H0|]. eapply stays_at; eauto.
    + eapply stays_at; eauto.
    + destruct (String.eqb t k); [injection H2 as <- <-; exact H0|]. eapply stays_at; eauto.
    + destruct (String.eqb t k); [injection H2 as <- <-; exact H0|]. eapply stays_at; eauto.
Qed.

(** ** One entry *)

Lemma Forall2_impl {A B} (P Q : A -> B -> Prop) l l' : (forall a b, P a b -> Q a b) -> Forall2 P l l' -> Forall2 Q l l'.
Proof. intros H F. induction F; constructor; auto. Qed.

Lemma nth_error_set {A} (l : list A) i x j : i < List.length l ->
  nth_error (firstn i l ++ [x] ++ skipn (S i) l) j = if Nat.eqb j i then Some x else nth_error l j.
Proof.
  revert l j. induction i as [|i IH]; intros [|a l] [|j] H; cbn [List.length] in H; try lia; try reflexivity.
  exact (IH l j ltac:(lia)).
Qed.

Lemma install_result i ks f f' : install_kids i ks f = Ok tt f' ->
  exists t old, nth_error (heap f) i = Some (RComposite t old) /\
    (forall j, nth_error (heap f') j = if Nat.eqb j i then Some (RComposite t ks) else nth_error (heap f) j) /\
    types f' = types f /\ descriptors f' = descriptors f.
Proof.
  unfold install_kids. destruct (nth_error (heap f) i) as [[]|] eqn:E; try discriminate. intros [= <-].
  eexists _, _. split; [reflexivity|]. cbn [heap types descriptors]. split; [|auto]. intros j.
  apply nth_error_set. apply nth_error_Some. congruence.
Qed.

Lemma composite_ext c f : Forall field_made (c_fields c) -> lands (ext f) (processComposite c f).
Proof.
  intros Hf. unfold processComposite. unfold bind at 1. unfold make.
  set (f1 := {| heap := heap f ++ [RComposite (c_name c) []]; types := types f; descriptors := descriptors f |}).
  assert (X1 : ext f f1). { split; [|auto]. intros i r Hi. now apply nth_error_grow. }
  apply lands_bind; [exact (property_readers_keeps _ _ _ _ (stable_ext f) Hf f1 X1)|].
  intros ks f2 H2. pose proof (keeps_ok _ _ _ _ _ (property_readers_keeps _ _ _ _ (stable_ext f) Hf) X1 H2) as X2.
  assert (I1 : forall f3, install_kids (List.length (heap f)) ks f2 = Ok tt f3 -> ext f f3).
  { intros f3 H3. apply install_result in H3 as (t & old & _ & Hh & Ht & _). split.
    - intros i r Hi. rewrite Hh. destruct (Nat.eqb_spec i (List.length (heap f))) as [-> |].
      + assert (List.length (heap f) < List.length (heap f)) by (apply nth_error_Some; congruence). lia.
      + now apply X2.
    - intros k i Hk. apply X2 in Hk. unfold byType in *. now rewrite Ht. }
  apply lands_bind.
  - unfold install_kids in I1 |- *. destruct (nth_error (heap f2) _) as [[]|]; try exact I. cbn. now apply I1.
  - intros [] f3 H3. cbn. now apply I1.
Qed.

Lemma composite_descriptors c f : Forall field_made (c_fields c) ->
  lands (fun f' => descriptors f' = descriptors f) (processComposite c f).
Proof.
  intros Hf. unfold processComposite. unfold bind at 1. unfold make.
  apply lands_bind; [apply (property_readers_keeps (fun f' => descriptors f' = descriptors f)); auto using stable_descriptors|].
  intros ks f2 H2.
  assert (X2 : descriptors f2 = descriptors f).
  { refine (keeps_ok (fun f' => descriptors f' = descriptors f) _ _ _ _ (property_readers_keeps _ _ _ _ (stable_descriptors _) Hf) _ H2).
    reflexivity. }
  unfold bind, install_kids. destruct (nth_error (heap f2) _) as [[]|]; try exact I. exact X2.
Qed.

(** [r] reads [t] once the name of [t] is bound to [self]. *)
Definition entry_reader (f : factory) (self : nat) (t : notation) (r : reader) : Prop :=
  match t with
  | TComposite c => exists ks, r = RComposite (c_name c) ks /\ Forall2 (served self (c_name c) f) (c_fields c) ks
  | TRestricted x =>
      match r_kind x with
      | list_t => exists i, r = RList (r_name x) i /\ byType f (of0 x) = Some i
      | array_t => exists i, r = RArray (r_name x) i /\ byType f (of0 x) = Some i
      | map_t => exists i j, r = RMap (r_name x) i j /\ byType f (of0 x) = Some i /\ byType f (of1 x) = Some j
      | enum_t => r = REnum (r_name x) (r_choices x)
      end
  end.

Definition make_entry (kf : bool) (t : notation) : FM nat :=
  match t with TComposite c => processComposite c | TRestricted r => processRestricted kf r end.

Definition entry_made (t : notation) : Prop :=
  match t with TComposite c => Forall field_made (c_fields c) | TRestricted _ => True end.
Lemma made_entry t : made t -> entry_made t.
Proof. destruct t; simpl; auto. Qed.

Lemma make_entry_ext kf t f : entry_made t -> lands (ext f) (make_entry kf t f).
Proof.
  destruct t as [c|r]; intros H; [now apply composite_ext|]. apply processRestricted_keeps; [apply stable_ext|apply ext_refl].
Qed.
Lemma make_entry_descriptors kf t f : entry_made t -> lands (fun f' => descriptors f' = descriptors f) (make_entry kf t f).
Proof.
  destruct t as [c|r]; intros H; [now apply composite_descriptors|].
  apply (processRestricted_keeps (fun f' => descriptors f' = descriptors f)); [apply stable_descriptors|reflexivity].
Qed.

Lemma make_result r f i f' : make r f = Ok i f' -> i = List.length (heap f) /\ nth_error (heap f') i = Some r /\
  types f' = types f /\ ext f f'.
Proof.
  unfold make. intros [= <- <-]. cbn [heap types]. split; [reflexivity|]. split; [apply nth_error_snoc|].
  split; [reflexivity|]. split; [|auto]. cbn [heap]. intros j x Hj. now apply nth_error_grow.
Qed.

Lemma make_entry_result kf t f i f' : entry_made t -> make_entry kf t f = Ok i f' ->
  exists r, nth_error (heap f') i = Some r /\ reader_type r = n_name t /\ entry_reader f' i t r /\
    (typeIsPrimitive (n_name t) = false -> absent (n_name t) f -> absent (n_name t) f').
Proof.
  destruct t as [c|x]; cbn [make_entry n_name]; intros Hm H.
  - unfold processComposite in H. apply bind_Ok in H as (self & f1 & H1 & H).
    apply make_result in H1 as (Hs & Hn & Ht & X1). apply bind_Ok in H as (ks & f2 & H2 & H).
    apply bind_Ok in H as ([] & f3 & H3 & H). injection H as -> <-.
    pose proof (property_readers_result _ _ _ Hm _ _ _ H2) as R.
    pose proof (keeps_ok _ _ _ _ _ (property_readers_keeps _ _ _ _ (stable_ext f1) Hm) (ext_refl _) H2) as X2.
    apply install_result in H3 as (t & old & Ho & Hh & Ht3 & _).
    apply X2 in Hn. rewrite Hn in Ho. injection Ho as <- <-.
    exists (RComposite (c_name c) ks). rewrite Hh, Nat.eqb_refl. split; [reflexivity|]. split; [reflexivity|]. split.
    + exists ks. split; [reflexivity|]. eapply Forall2_impl; [|exact R]. intros fd j (t & Hr & Hj). exists t.
      split; [assumption|]. unfold byType in *. now rewrite Ht3.
    + intros Hp Ha. unfold absent in *. rewrite Ht3. eapply stays_readers; [exact Hp|exact Hm| |exact H2].
      unfold absent. now rewrite Ht.
  - unfold processRestricted in H. destruct (r_kind x) eqn:K.
    + apply bind_Ok in H as (e & f1 & H1 & H). apply make_result in H as (Hi & Hn & Ht & X).
      exists (RList (r_name x) e). split; [assumption|]. split; [reflexivity|]. split.
      * cbn [entry_reader]. rewrite K. exists e. split; [reflexivity|]. apply X. eapply fetch_result; eauto.
      * intros Hp Ha. unfold absent in *. rewrite Ht. eapply stays_fetch; eauto.
    + unfold processMap in H. apply bind_Ok in H as ([k v] & f1 & H1 & H). apply make_result in H as (Hi & Hn & Ht & X).
      exists (RMap (r_name x) k v). split; [assumption|]. split; [reflexivity|].
      assert (Hkv : byType f1 (of0 x) = Some k /\ byType f1 (of1 x) = Some v /\
        (typeIsPrimitive (r_name x) = false -> absent (r_name x) f -> absent (r_name x) f1)).
      { destruct kf; apply bind_Ok in H1 as (a & g1 & G1 & H1); apply bind_Ok in H1 as (b & g2 & G2 & H1); injection H1 as -> -> ->.
        - split; [|split].
          + eapply (keeps_ok _ _ _ _ _ (fetch_keeps _ (of1 x) (stable_ext g1)) (ext_refl _) G2). eapply fetch_result; eauto.
          + eapply fetch_result; eauto.
          + intros Hp Ha. eapply stays_fetch; [exact Hp| |exact G2]. eapply stays_fetch; [exact Hp|exact Ha|exact G1].
        - split; [|split].
          + eapply fetch_result; eauto.
          + eapply (keeps_ok _ _ _ _ _ (fetch_keeps _ (of0 x) (stable_ext g1)) (ext_refl _) G2). eapply fetch_result; eauto.
          + intros Hp Ha. eapply stays_fetch; [exact Hp| |exact G2]. eapply stays_fetch; [exact Hp|exact Ha|exact G1]. }
      destruct Hkv as (Hk & Hv & Hs). split.
      * cbn [entry_reader]. rewrite K. exists k, v. split; [reflexivity|]. split; now apply X.
      * intros Hp Ha. unfold absent in *. rewrite Ht. auto.
    + apply make_result in H as (Hi & Hn & Ht & X). exists (REnum (r_name x) (r_choices x)).
      split; [assumption|]. split; [reflexivity|]. split; [cbn [entry_reader]; now rewrite K|].
      intros Hp Ha. unfold absent in *. now rewrite Ht.
    + apply bind_Ok in H as (e & f1 & H1 & H). apply make_result in H as (Hi & Hn & Ht & X).
      exists (RArray (r_name x) e). split; [assumption|]. split; [reflexivity|]. split.
      * cbn [entry_reader]. rewrite K. exists e. split; [reflexivity|]. apply X. eapply fetch_result; eauto.
      * intros Hp Ha. unfold absent in *. rewrite Ht. eapply stays_fetch; eauto.
Qed.

(** computeIfAbsent on an entry. *)
Lemma process_type_cases kf t f : entry_made t -> typeIsPrimitive (n_name t) = false ->
  (exists i, assoc (n_name t) (types f) = Some (Some i) /\ process_type kf t f = Ok i f) \/
  (assoc (n_name t) (types f) = Some None /\ process_type kf t f = UB) \/
  (absent (n_name t) f /\
    ((exists i f1 r, make_entry kf t f = Ok i f1 /\ nth_error (heap f1) i = Some r /\ reader_type r = n_name t /\
        entry_reader f1 i t r /\ absent (n_name t) f1 /\
        process_type kf t f = Ok i (set_types (put (n_name t) (Some i) (types f1)) f1)) \/
     (exists e f1, make_entry kf t f = Throw e f1 /\ process_type kf t f = Throw e f1) \/
     (process_type kf t f = Abort /\ make_entry kf t f = Abort) \/ (process_type kf t f = UB /\ make_entry kf t f = UB) \/
     (process_type kf t f = Fuel /\ make_entry kf t f = Fuel))).
Proof.
  intros Hm Hp. unfold process_type, computeIfAbsent. fold (make_entry kf t).
  destruct (assoc (n_name t) (types f)) as [[i|]|] eqn:E; eauto.
  right. right. split; [assumption|]. unfold bind. destruct (make_entry kf t f) as [i f1|e f1| | |] eqn:M; eauto 6.
  left. destruct (make_entry_result _ _ _ _ _ Hm M) as (r & Hr & Hn & Her & Hs). exists i, f1, r.
  repeat (split; [solve [auto]|]). cbn [heap set_types]. rewrite Hr, Hn, String.eqb_refl. reflexivity.
Qed.

Lemma ext_put f f1 k i : ext f f1 -> absent k f1 -> ext f (set_types (put k (Some i) (types f1)) f1).
Proof.
  intros [H1 H2] Ha. split; [exact H1|]. intros q j Hq. apply H2 in Hq. apply byType_spec in Hq. apply byType_spec.
  cbn [types set_types]. rewrite assoc_put_other; [assumption|]. unfold absent in Ha. congruence.
Qed.

Lemma process_type_ext kf t f : entry_made t -> typeIsPrimitive (n_name t) = false -> lands (ext f) (process_type kf t f).
Proof.
  intros Hm Hp. pose proof (make_entry_ext kf t f Hm) as X.
  destruct (process_type_cases kf t f Hm Hp) as [(i & _ & ->)|[(_ & ->)|(Ha & [(i & f1 & r & M & _ & _ & _ & Ha' & ->)|[(e & f1 & M & ->)|[(-> & _)|[(-> & _)|(-> & _)]]]])]];
    try exact I; try apply ext_refl.
  - rewrite M in X. cbn in *. now apply ext_put.
  - rewrite M in X. exact X.
Qed.

(** ** Entries and schemas *)

Lemma byType_put f k q p : byType (set_types (put k p (types f)) f) q = if String.eqb q k then p else byType f q.
Proof. unfold byType. cbn [types set_types]. rewrite assoc_put. now destruct (String.eqb q k). Qed.
Lemma byDescriptor_put f k q p : byDescriptor (set_descriptors (put k p (descriptors f)) f) q =
  if String.eqb q k then p else byDescriptor f q.
Proof. unfold byDescriptor. cbn [descriptors set_descriptors]. rewrite assoc_put. now destruct (String.eqb q k). Qed.

Lemma process_type_result kf t f i f1 : entry_made t -> typeIsPrimitive (n_name t) = false ->
  process_type kf t f = Ok i f1 -> byType f1 (n_name t) = Some i /\ descriptors f1 = descriptors f.
Proof.
  intros Hm Hp H. pose proof (make_entry_descriptors kf t f Hm) as D.
  destruct (process_type_cases kf t f Hm Hp) as [(j & E & H')|[(_ & H')|(Ha & [(j & f2 & r & M & _ & _ & _ & Ha' & H')|[(e & f2 & M & H')|[(H' & _)|[(H' & _)|(H' & _)]]]])]];
    rewrite H' in H; try discriminate; injection H as <- <-.
  - split; [now apply byType_spec|reflexivity].
  - rewrite byType_put, String.eqb_refl. rewrite M in D. auto.
Qed.

Definition okent (t : notation) : Prop := entry_made t /\ typeIsPrimitive (n_name t) = false.
Lemma proper_okent t : proper t -> okent t.
Proof. intros [H1 H2]. split; auto using made_entry. Qed.
Lemma propers_okent ts : Forall proper ts -> Forall okent ts.
Proof. apply Forall_impl. exact proper_okent. Qed.

Lemma process_entry_cases kf t f : okent t ->
  (exists i f1, process_type kf t f = Ok i f1 /\ byType f1 (n_name t) = Some i /\ descriptors f1 = descriptors f /\
     process_entry kf t f = Ok tt (set_descriptors (put (n_descriptor t) (Some i) (descriptors f1)) f1)) \/
  (exists e f1, process_type kf t f = Throw e f1 /\ process_entry kf t f = Throw e f1) \/
  process_entry kf t f = Abort \/ process_entry kf t f = UB \/ process_entry kf t f = Fuel.
Proof.
  intros [Hm Hp]. unfold process_entry, bind. destruct (process_type kf t f) as [i f1|e f1| | |] eqn:E; eauto 6.
  left. exists i, f1. destruct (process_type_result _ _ _ _ _ Hm Hp E) as [H1 H2]. repeat (split; [solve [auto]|]).
  unfold types_at. pose proof H1 as H3. apply byType_spec in H3. rewrite H3. reflexivity.
Qed.

Lemma ext_set_descriptors f g m : ext f g -> ext f (set_descriptors m g).
Proof. intros [H1 H2]. split; [exact H1|exact H2]. Qed.

Lemma process_entry_ext kf t f : okent t -> lands (ext f) (process_entry kf t f).
Proof.
  intros H. pose proof (process_type_ext kf t f (proj1 H) (proj2 H)) as X.
  destruct (process_entry_cases kf t f H) as [(i & f1 & E & _ & _ & ->)|[(e & f1 & E & ->)|[-> |[-> | ->]]]];
    try exact I; rewrite E in X; cbn in *; auto using ext_set_descriptors.
Qed.

Lemma process_entries_app kf a b f : process_entries kf (a ++ b) f =
  bind (process_entries kf a) (fun _ => process_entries kf b) f.
Proof.
  revert f. induction a as [|t a IH]; intros f; [reflexivity|]. cbn [app process_entries]. unfold bind in *.
  destruct (process_entry kf t f); auto.
Qed.

(** A property kept by every entry is kept by a schema. *)
Lemma process_entries_keeps P kf ts : (forall t, In t ts -> keeps P (process_entry kf t)) -> keeps P (process_entries kf ts).
Proof.
  induction ts as [|t ts IH]; intros H; cbn [process_entries]; [apply keeps_ret|].
  apply keeps_bind; [apply H; now left|]. intros _. apply IH. intros u Hu. apply H. now right.
Qed.

Lemma keeps_ext {A} (m : FM A) : (forall f, lands (ext f) (m f)) -> forall f0, keeps (ext f0) m.
Proof. intros H f0 f X. eapply lands_impl; [|apply H]. intros g Hg. eapply ext_trans; eauto. Qed.

Lemma entries_ext kf ts f : Forall okent ts -> lands (ext f) (process_entries kf ts f).
Proof.
  intros H. apply process_entries_keeps; [|apply ext_refl]. intros t Ht. apply keeps_ext. intros g.
  apply process_entry_ext. rewrite Forall_forall in H. auto.
Qed.

(** ** The invariant *)

Definition linked (f : factory) (r : reader) : Prop := Forall (fun j => exists q, byType f q = Some j) (Factory.kids r).
Definition inv (f : factory) : Prop :=
  (forall k i, byType f k = Some i -> exists r, nth_error (heap f) i = Some r /\ reader_type r = k /\ linked f r) /\
  (forall d i, byDescriptor f d = Some i -> exists k, byType f k = Some i).

Lemma linked_ext f f' r : ext f f' -> linked f r -> linked f' r.
Proof. intros [_ X]. apply Forall_impl. intros j (q & Hq). exists q. auto. Qed.

Lemma inv_new : inv new_factory.
Proof. split; intros k i H; discriminate. Qed.

Lemma inv_make r : keeps inv (make r).
Proof.
  intros f [H1 H2]. split.
  - intros k i Hk. change (byType f k = Some i) in Hk. destruct (H1 k i Hk) as (x & Hx & Hn & Hl). exists x.
    split; [|split; [assumption|exact Hl]]. cbn [heap]. now apply nth_error_grow.
  - intros d i Hd. exact (H2 d i Hd).
Qed.
Lemma inv_put f k i r : inv f -> byType f k = None -> nth_error (heap f) i = Some r -> reader_type r = k ->
  linked (set_types (put k (Some i) (types f)) f) r -> inv (set_types (put k (Some i) (types f)) f).
Proof.
  intros [H1 H2] Ha Hr Hn Hl. assert (X : ext f (set_types (put k (Some i) (types f)) f)).
  { split; [auto|]. intros q j Hq. rewrite byType_put. destruct (String.eqb_spec q k) as [-> |]; [congruence|assumption]. }
  split.
  - intros q j Hq. rewrite byType_put in Hq. destruct (String.eqb_spec q k) as [-> |].
    + injection Hq as <-. exists r. auto.
    + destruct (H1 q j Hq) as (x & Hx & Hxn & Hxl). exists x. split; [exact Hx|]. split; [assumption|]. eapply linked_ext; eauto.
  - intros d j Hd. destruct (H2 d j Hd) as (q & Hq). exists q. now apply X.
Qed.
Lemma absent_byType k f : absent k f -> byType f k = None.
Proof. unfold absent, byType. now intros ->. Qed.
Lemma byType_null f k q : absent k f -> byType (set_types (put k None (types f)) f) q = byType f q.
Proof. intros H. rewrite byType_put. destruct (String.eqb_spec q k) as [-> |]; [now rewrite (absent_byType k f)|reflexivity]. Qed.

Lemma stable_inv : stable inv.
Proof.
  split.
  - apply inv_make.
  - intros f k [H1 H2] E. split.
    + intros q i Hq. rewrite byType_null in Hq by exact E. destruct (H1 q i Hq) as (x & Hx & Hn & Hl). exists x.
      split; [assumption|]. split; [assumption|]. eapply Forall_impl; [|exact Hl]. intros j (p & Hp). exists p.
      now rewrite byType_null by exact E.
    + intros d i Hd. destruct (H2 d i Hd) as (q & Hq). exists q. now rewrite byType_null by exact E.
  - intros f k i p H E Hi Hk. eapply inv_put; eauto; [now apply absent_byType|constructor].
Qed.

(** The object of the class being built is not registered yet. *)
Definition unborn (self : nat) (f : factory) : Prop :=
  (exists t ks, nth_error (heap f) self = Some (RComposite t ks)) /\ forall q, byType f q <> Some self.
Lemma stable_unborn self : stable (unborn self).
Proof.
  split.
  - intros r f [(t & ks & H1) H2]. split; [|exact H2]. exists t, ks. cbn [heap]. now apply nth_error_grow.
  - intros f k [H1 H2] E. split; [exact H1|]. intros q. rewrite byType_null by exact E. apply H2.
  - intros f k i p [(t & ks & H1) H2] E Hi Hk. split; [eauto|]. intros q. rewrite byType_put.
    destruct (String.eqb q k); [|apply H2]. intros [= ->]. congruence.
Qed.

Lemma inv_install self ks f f' : inv f -> unborn self f -> install_kids self ks f = Ok tt f' -> inv f'.
Proof.
  intros [H1 H2] [_ Hu] H. apply install_result in H as (t & old & Ho & Hh & Ht & Hd).
  assert (B : forall q, byType f' q = byType f q) by (intros q; unfold byType; now rewrite Ht).
  split.
  - intros k i Hk. rewrite B in Hk. destruct (H1 k i Hk) as (x & Hx & Hn & Hl). exists x. rewrite Hh.
    destruct (Nat.eqb_spec i self) as [-> |]; [now elim (Hu k)|]. split; [assumption|]. split; [assumption|].
    eapply Forall_impl; [|exact Hl]. intros j (q & Hq). exists q. now rewrite B.
  - intros d i Hi. unfold byDescriptor in Hi. rewrite Hd in Hi. destruct (H2 d i Hi) as (q & Hq). exists q. now rewrite B.
Qed.

Lemma unborn_make name f : inv f -> unborn (List.length (heap f))
  {| heap := heap f ++ [RComposite name []]; types := types f; descriptors := descriptors f |}.
Proof.
  intros [H1 _]. split.
  - exists name, []. cbn [heap]. apply nth_error_snoc.
  - intros q Hq. change (byType f q = Some (List.length (heap f))) in Hq. destruct (H1 _ _ Hq) as (r & Hr & _).
    assert (List.length (heap f) < List.length (heap f)) by (apply nth_error_Some; congruence). lia.
Qed.

Lemma make_entry_inv kf t : entry_made t -> keeps inv (make_entry kf t).
Proof.
  destruct t as [c|r]; intros Hm; [|apply processRestricted_keeps, stable_inv]. intros f H. cbn [make_entry].
  unfold processComposite. unfold bind at 1. unfold make.
  set (f1 := {| heap := heap f ++ [RComposite (c_name c) []]; types := types f; descriptors := descriptors f |}).
  assert (I1 : inv f1) by exact (inv_make (RComposite (c_name c) []) f H).
  pose proof (unborn_make (c_name c) f H) as U1. fold f1 in U1.
  apply lands_bind; [exact (property_readers_keeps _ _ _ _ stable_inv Hm f1 I1)|]. intros ks f2 H2.
  pose proof (keeps_ok _ _ _ _ _ (property_readers_keeps _ _ _ _ stable_inv Hm) I1 H2) as I2.
  pose proof (keeps_ok _ _ _ _ _ (property_readers_keeps _ _ _ _ (stable_unborn _) Hm) U1 H2) as U2.
  unfold bind. destruct (install_kids (List.length (heap f)) ks f2) as [[] f3|e f3| | |] eqn:E; try exact I.
  - eapply inv_install; eauto.
  - exfalso. unfold install_kids in E. destruct (nth_error (heap f2) _) as [[]|]; discriminate.
Qed.

Lemma entry_reader_linked f i t r : entry_reader f i t r ->
  linked (set_types (put (n_name t) (Some i) (types f)) f) r \/ byType f (n_name t) <> None.
Proof.
  intros H. destruct (byType f (n_name t)) as [j|] eqn:N; [right; discriminate|left].
  assert (X : forall q j, byType f q = Some j -> byType (set_types (put (n_name t) (Some i) (types f)) f) q = Some j).
  { intros q j Hq. rewrite byType_put. destruct (String.eqb_spec q (n_name t)); congruence. }
  destruct t as [c|x]; cbn [entry_reader n_name] in *.
  - destruct H as (ks & -> & H). cbn [linked Factory.kids]. unfold linked. cbn [Factory.kids].
    induction H as [|fd j fds ks (t & Ht & [Hj|[-> ->]]) _ IH]; constructor; auto.
    + exists t. auto.
    + exists (c_name c). rewrite byType_put, String.eqb_refl. reflexivity.
  - destruct (r_kind x).
    + destruct H as (j & -> & Hj). constructor; [eauto|constructor].
    + destruct H as (j & l & -> & Hj & Hl). constructor; [eauto|]. constructor; [eauto|constructor].
    + subst r. constructor.
    + destruct H as (j & -> & Hj). constructor; [eauto|constructor].
Qed.

Lemma process_entry_inv kf t : okent t -> keeps inv (process_entry kf t).
Proof.
  intros Ho f H. pose proof (make_entry_inv kf t (proj1 Ho) f H) as M.
  assert (T : lands inv (process_type kf t f)).
  { destruct (process_type_cases kf t f (proj1 Ho) (proj2 Ho)) as [(j & E & ->)|[(_ & ->)|(Ha & [(j & f2 & r & E & Hr & Hn & He & Ha' & ->)|[(e & f2 & E & ->)|[(-> & _)|[(-> & _)|(-> & _)]]]])]];
      try exact I; try exact H; rewrite E in M; [|exact M]. cbn in *. eapply inv_put; eauto; [now apply absent_byType|].
    apply absent_byType in Ha'. destruct (entry_reader_linked _ _ _ _ He) as [L|L]; [exact L|contradiction]. }
  destruct (process_entry_cases kf t f Ho) as [(i & f1 & E & Hi & Hd & ->)|[(e & f1 & E & ->)|[-> |[-> | ->]]]]; try exact I;
    rewrite E in T; [|exact T]. cbn in *. destruct T as [H1 H2]. split; [exact H1|].
  intros d j Hj. rewrite byDescriptor_put in Hj. destruct (String.eqb d (n_descriptor t)); [|exact (H2 d j Hj)].
  injection Hj as <-. eauto.
Qed.
Lemma entries_inv kf ts : Forall okent ts -> keeps inv (process_entries kf ts).
Proof.
  intros H. apply process_entries_keeps. intros t Ht. apply process_entry_inv. rewrite Forall_forall in H. auto.
Qed.

Lemma install_ext r f f' : byType f (reader_type r) = None -> installCustomSerialiser r f = Ok tt f' -> ext f f' /\
  byType f' (reader_type r) = Some (List.length (heap f)) /\ nth_error (heap f') (List.length (heap f)) = Some r /\
  descriptors f' = descriptors f.
Proof.
  intros H E. unfold installCustomSerialiser, bind, make in E. injection E as <-. split; [|split; [|split]].
  - split; [intros i x Hi; now apply nth_error_grow|]. intros k i Hk. unfold byType. cbn [types set_types].
    rewrite assoc_put_other; [exact Hk|]. congruence.
  - unfold byType. cbn [types set_types]. now rewrite assoc_put_same.
  - apply nth_error_snoc.
  - reflexivity.
Qed.
Lemma custom_kids r : is_custom r -> Factory.kids r = [].
Proof. destruct r; simpl; tauto. Qed.
Lemma install_inv r f f' : is_custom r -> byType f (reader_type r) = None -> installCustomSerialiser r f = Ok tt f' -> inv f -> inv f'.
Proof.
  intros Hc H E I. unfold installCustomSerialiser, bind in E. pose proof (inv_make r f I) as I1. unfold make in *.
  injection E as <-. cbn in I1.
  refine (inv_put _ _ _ r I1 H (nth_error_snoc _ _) eq_refl _). unfold linked. rewrite custom_kids by assumption. constructor.
Qed.

Lemma step_ext kf o f f' : careful o f -> steps kf o f f' -> ext f f'.
Proof.
  intros Hc Hs. destruct o as [s|r]; cbn [careful steps effect] in *.
  - pose proof (entries_ext kf _ f (propers_okent _ Hc)) as X. unfold steps, effect, process in Hs.
    destruct Hs as [Hs|[e Hs]]; rewrite Hs in X; exact X.
  - destruct Hs as [Hs|[e Hs]]; [|discriminate]. now apply (install_ext r).
Qed.
Lemma step_inv kf o f f' : careful o f -> steps kf o f f' -> inv f -> inv f'.
Proof.
  intros Hc Hs I. destruct o as [s|r]; cbn [careful steps effect] in *.
  - pose proof (entries_inv kf _ (propers_okent _ Hc) f I) as X. unfold steps, effect, process in Hs.
    destruct Hs as [Hs|[e Hs]]; rewrite Hs in X; exact X.
  - destruct Hs as [Hs|[e Hs]]; [|discriminate]. destruct Hc. now apply (install_inv r f).
Qed.
Lemma run_ext kf h f f' : run kf h f f' -> ext f f'.
Proof. induction 1; [apply ext_refl|]. eapply ext_trans; [eapply step_ext; eauto|assumption]. Qed.
Lemma run_inv kf h f f' : run kf h f f' -> inv f -> inv f'.
Proof. induction 1; intros I; [assumption|]. eauto using step_inv. Qed.
Lemma reachable_inv kf f : reachable kf f -> inv f.
Proof. intros [h H]. eapply run_inv; eauto using inv_new. Qed.

(** ** C24 *)

Lemma inv_refers f i j : inv f -> (exists k, byType f k = Some i) -> refers f i j -> exists r, lock f j = Some r.
Proof.
  intros I H R. assert (exists k, byType f k = Some j) as (k & Hk).
  { induction R as [|j r k R IH L K]; [assumption|]. destruct IH as (q & Hq).
    destruct (proj1 I _ _ Hq) as (r' & Hr' & _ & Hl). apply lock_heap in L. rewrite L in Hr'. injection Hr' as <-.
    unfold linked in Hl. rewrite Forall_forall in Hl. apply (Hl k K). }
  destruct (proj1 I _ _ Hk) as (r & Hr & _). exists r. eapply byType_lock; eauto.
Qed.

(** Names and fingerprints of processed entries. *)
Lemma entries_registered kf ts : Forall okent ts -> forall f f', process_entries kf ts f = Ok tt f' ->
  (forall t, In t ts -> exists i, byType f' (n_name t) = Some i) /\
  (forall d, (exists t, In t ts /\ n_descriptor t = d) \/ byDescriptor f' d = byDescriptor f d) /\
  (forall t, In t ts -> exists u, In u ts /\ n_descriptor u = n_descriptor t /\
     byDescriptor f' (n_descriptor t) = byType f' (n_name u)).
Proof.
  induction ts as [|t ts IH]; intros Ho f f' H; cbn [process_entries] in H.
  - injection H as <-. split; [intros t []|]. split; [auto|intros t []].
  - apply bind_Ok in H as ([] & f1 & H1 & H2). apply Forall_cons_iff in Ho as [Ht Ho].
    destruct (process_entry_cases kf t f Ht) as [(i & f0 & E & Hi & Hd & E1)|[(e & f0 & E & E1)|[E1|[E1|E1]]]];
      rewrite E1 in H1; try discriminate. injection H1 as <-.
    pose proof (entries_ext kf ts (set_descriptors (put (n_descriptor t) (Some i) (descriptors f0)) f0) Ho) as X.
    rewrite H2 in X. cbn [lands] in X.
    specialize (IH Ho _ _ H2) as (IH1 & IH2 & IH3).
    assert (Hi' : byType f' (n_name t) = Some i) by (apply X; exact Hi).
    split; [|split].
    + intros u [<- |Hu]; eauto.
    + intros d. destruct (IH2 d) as [(u & Hu & Hud)|IH2'].
      * left. exists u. simpl. auto.
      * rewrite IH2', byDescriptor_put. destruct (String.eqb_spec d (n_descriptor t)) as [-> |].
        -- left. exists t. simpl. auto.
        -- right. unfold byDescriptor. now rewrite Hd.
    + intros u [<- |Hu].
      * destruct (IH2 (n_descriptor t)) as [(u & Hu & Hud)|IH2'].
        -- destruct (IH3 u Hu) as (v & Hv & Hvd & Hb). exists v. simpl. rewrite Hud in *. auto.
        -- exists t. split; [now left|]. split; [reflexivity|]. rewrite IH2', byDescriptor_put, String.eqb_refl. congruence.
      * destruct (IH3 u Hu) as (v & Hv & Hvd & Hb). exists v. simpl. auto.
Qed.

Theorem processed_resolves : forall kf f s f', reachable kf f -> Forall proper (List.concat (s_types s)) ->
  one_name_per_fingerprint (List.concat (s_types s)) -> process kf s f = Ok tt f' ->
  forall t, In t (List.concat (s_types s)) -> exists i r,
    byType f' (n_name t) = Some i /\ byDescriptor f' (n_descriptor t) = Some i /\
    lock f' i = Some r /\ reader_type r = n_name t /\
    (forall j, refers f' i j -> exists r', lock f' j = Some r').
Proof.
  intros kf f s f' Hr Hp Hu H t Ht. pose proof (reachable_inv _ _ Hr) as I.
  pose proof (propers_okent _ Hp) as Ho.
  assert (I' : inv f'). { pose proof (entries_inv kf _ Ho f I) as X. unfold process in H. rewrite H in X. exact X. }
  destruct (entries_registered kf _ Ho f f' H) as (H1 & _ & H3). destruct (H1 t Ht) as (i & Hi).
  destruct (H3 t Ht) as (u & Hu1 & Hu2 & Hb). destruct (proj1 I' _ _ Hi) as (r & Hr1 & Hr2 & _).
  exists i, r. split; [assumption|]. split.
  { rewrite Hb. rewrite <- Hi. f_equal. now apply Hu. }
  split; [eapply byType_lock; eauto|]. split; [assumption|]. intros j. apply inv_refers; eauto.
Qed.

(** Where registered readers come from. *)
Definition backed (cs : list reader) (ts : list notation) (f : factory) : Prop :=
  forall k i, byType f k = Some i -> exists r, nth_error (heap f) i = Some r /\
    ((exists p, r = RProperty p /\ k = prim_name p) \/ (In r cs /\ reader_type r = k) \/
     (exists t, In t ts /\ n_name t = k /\ reads f t r)).

Lemma resolved_property fd t : field_made fd -> resolvedType fd = Ret t -> property_type fd = Some t.
Proof.
  intros Hm Ht. destruct (resolvedType_spec fd Hm) as (t' & Ht' & Hp).
  - intros E. destruct (field_made_cases fd Hm) as [(_ & K & _)|[(_ & K & _)|[(K & _ & R)|[(_ & _ & R & _)|(_ & K & _)]]]]; try congruence.
    unfold resolvedType in Ht. rewrite K, R in Ht. discriminate.
  - congruence.
Qed.

Lemma reads_ext f f' t r : ext f f' -> reads f t r -> reads f' t r.
Proof.
  intros [_ X]. destruct t as [c|x]; cbn [reads].
  - intros (ks & -> & H). exists ks. split; [reflexivity|]. eapply Forall2_impl; [|exact H].
    intros fd i (ty & Hty & Hi). exists ty. auto.
  - destruct (r_kind x); auto.
    + intros (e & i & H1 & H2 & H3). exists e, i. auto.
    + intros (k & v & i & j & H1 & H2 & H3 & H4). exists k, v, i, j. auto 6.
    + intros (e & i & H1 & H2 & H3). exists e, i. auto.
Qed.

Lemma Forall2_in_l {A B} (P Q : A -> B -> Prop) l l' : (forall a b, In a l -> P a b -> Q a b) -> Forall2 P l l' -> Forall2 Q l l'.
Proof. intros H F. induction F; constructor; [apply H; simpl; auto|]. apply IHF. intros. apply H; simpl; auto. Qed.

Lemma entry_reader_reads f i t r : made t -> absent (n_name t) f -> entry_reader f i t r ->
  reads (set_types (put (n_name t) (Some i) (types f)) f) t r.
Proof.
  intros Hm Ha H. assert (X : ext f (set_types (put (n_name t) (Some i) (types f)) f)) by (apply ext_put; [apply ext_refl|exact Ha]).
  destruct t as [c|x]; cbn [entry_reader n_name] in *.
  - destruct H as (ks & -> & H). exists ks. split; [reflexivity|]. eapply Forall2_in_l; [|exact H].
    intros fd j Hfd (ty & Hty & Hj). exists ty. cbn [made] in Hm. rewrite Forall_forall in Hm. split; [apply resolved_property; auto|].
    destruct Hj as [Hj|[-> ->]]; [now apply X|]. now rewrite byType_put, String.eqb_refl.
  - cbn [reads]. pose proof (made_of x Hm) as Ho. destruct (r_kind x).
    + destruct H as (j & -> & Hj). destruct Ho as (e & He). exists e, j. split; [reflexivity|]. split; [assumption|].
      apply X. unfold of0 in Hj. now rewrite He in Hj.
    + destruct H as (j & l & -> & Hj & Hl). destruct Ho as (k & v & He). exists k, v, j, l. split; [reflexivity|]. split; [assumption|].
      unfold of0, of1 in *. rewrite He in *. split; now apply X.
    + exact H.
    + destruct H as (j & -> & Hj). destruct Ho as (e & He). exists e, j. split; [reflexivity|]. split; [assumption|].
      apply X. unfold of0 in Hj. now rewrite He in Hj.
Qed.

(** What making one entry registers by the way. *)
Definition origin (f0 f : factory) : Prop := forall k i, byType f k = Some i ->
  byType f0 k = Some i \/ exists p, nth_error (heap f) i = Some (RProperty p) /\ k = prim_name p.
Lemma stable_origin f0 : stable (origin f0).
Proof.
  split.
  - intros r f H k i Hk. destruct (H k i Hk) as [|(p & Hp & ->)]; [auto|]. right. exists p. split; [|reflexivity].
    cbn [heap]. now apply nth_error_grow.
  - intros f k H E q i Hq. rewrite byType_null in Hq by exact E. exact (H q i Hq).
  - intros f k i p H E Hi Hk q j Hq. rewrite byType_put in Hq. destruct (String.eqb_spec q k) as [-> |].
    + injection Hq as <-. right. eauto.
    + exact (H q j Hq).
Qed.
Lemma make_entry_origin kf t f0 : entry_made t -> keeps (origin f0) (make_entry kf t).
Proof.
  destruct t as [c|r]; intros Hm; [|apply processRestricted_keeps, stable_origin]. intros f H. cbn [make_entry].
  unfold processComposite. unfold bind at 1. unfold make.
  set (f1 := {| heap := heap f ++ [RComposite (c_name c) []]; types := types f; descriptors := descriptors f |}).
  assert (I1 : origin f0 f1) by exact (st_make _ (stable_origin f0) (RComposite (c_name c) []) f H).
  apply lands_bind; [exact (property_readers_keeps _ _ _ _ (stable_origin f0) Hm f1 I1)|]. intros ks f2 H2.
  pose proof (keeps_ok _ _ _ _ _ (property_readers_keeps _ _ _ _ (stable_origin f0) Hm) I1 H2) as I2.
  unfold bind. destruct (install_kids (List.length (heap f)) ks f2) as [[] f3|e f3| | |] eqn:E; try exact I.
  - cbn. apply install_result in E as (t & old & Ho & Hh & Ht & _). intros k i Hk. unfold byType in Hk. rewrite Ht in Hk.
    destruct (I2 k i Hk) as [|(p & Hp & ->)]; [auto|]. right. exists p. split; [|reflexivity]. rewrite Hh.
    destruct (Nat.eqb_spec i (List.length (heap f))); [congruence|assumption].
  - exfalso. unfold install_kids in E. destruct (nth_error (heap f2) _) as [[]|]; discriminate.
Qed.

Lemma backed_mono cs ts f f' : backed cs ts f -> ext f f' -> origin f f' -> backed cs ts f'.
Proof.
  intros B X O k i Hk. destruct (O k i Hk) as [H|(p & Hp & ->)].
  - destruct (B k i H) as (r & Hr & C). exists r. split; [now apply X|]. destruct C as [C|[C|(t & H1 & H2 & H3)]]; auto.
    right. right. exists t. eauto using reads_ext.
  - exists (RProperty p). split; [assumption|]. left. eauto.
Qed.

Lemma process_entry_backed kf t cs ts : made t -> okent t -> In t ts -> keeps (backed cs ts) (process_entry kf t).
Proof.
  intros Hm Ho Hin f B. pose proof (make_entry_origin kf t f (proj1 Ho) f (fun k i H => or_introl H)) as O.
  pose proof (make_entry_ext kf t f (proj1 Ho)) as X.
  assert (T : lands (backed cs ts) (process_type kf t f)).
  { destruct (process_type_cases kf t f (proj1 Ho) (proj2 Ho)) as [(j & E & ->)|[(_ & ->)|(Ha & [(j & f2 & r & E & Hr & Hn & He & Ha' & ->)|[(e & f2 & E & ->)|[(-> & _)|[(-> & _)|(-> & _)]]]])]];
      try exact I; try exact B; rewrite E in O, X; cbn [lands] in *.
    - pose proof (backed_mono _ _ _ _ B X O) as B2. intros k i Hk. rewrite byType_put in Hk.
      destruct (String.eqb_spec k (n_name t)) as [-> |].
      + injection Hk as <-. exists r. split; [assumption|]. right. right. exists t. split; [assumption|]. split; [reflexivity|].
        now apply entry_reader_reads.
      + destruct (B2 k i Hk) as (r' & Hr' & C). exists r'. split; [assumption|]. destruct C as [C|[C|(u & H1 & H2 & H3)]]; auto.
        right. right. exists u. split; [assumption|]. split; [assumption|]. eapply reads_ext; [|exact H3]. now apply ext_put; [apply ext_refl|].
    - exact (backed_mono _ _ _ _ B X O). }
  destruct (process_entry_cases kf t f Ho) as [(i & f1 & E & Hi & Hd & ->)|[(e & f1 & E & ->)|[-> |[-> | ->]]]]; try exact I;
    rewrite E in T; exact T.
Qed.
Lemma entries_backed kf cs ts all : Forall proper ts -> incl ts all -> keeps (backed cs all) (process_entries kf ts).
Proof.
  intros H Hi. apply process_entries_keeps. intros t Ht. rewrite Forall_forall in H. pose proof (H t Ht) as Hp.
  apply process_entry_backed; [apply Hp|now apply proper_okent|auto].
Qed.

Definition installed (h : list op) : list reader :=
  List.concat (map (fun o => match o with Install r => [r] | Process _ => [] end) h).

Lemma backed_incl cs ts cs' ts' f : incl cs cs' -> incl ts ts' -> backed cs ts f -> backed cs' ts' f.
Proof.
  intros H1 H2 B k i Hk. destruct (B k i Hk) as (r & Hr & C). exists r. split; [assumption|].
  destruct C as [C|[[C D]|(t & T1 & T2 & T3)]]; auto. right. right. eauto.
Qed.
Lemma step_backed kf o f f' cs ts : careful o f -> steps kf o f f' -> backed cs ts f ->
  backed (installed [o] ++ cs) (entries_of [o] ++ ts) f'.
Proof.
  intros Hc Hs B. destruct o as [s|r]; unfold installed, entries_of; cbn [map List.concat app].
  - rewrite app_nil_r. assert (B' : backed cs (List.concat (s_types s) ++ ts) f).
    { eapply backed_incl; [apply incl_refl|apply incl_appr, incl_refl|exact B]. }
    assert (N : incl (List.concat (s_types s)) (List.concat (s_types s) ++ ts)) by apply incl_appl, incl_refl.
    pose proof (entries_backed kf cs _ _ Hc N f B') as X. unfold steps, effect, process in Hs.
    destruct Hs as [Hs|[e Hs]]; rewrite Hs in X; exact X.
  - destruct Hc as [Hc Hn]. destruct Hs as [Hs|[e Hs]]; [|discriminate]. cbn [effect] in Hs.
    destruct (install_ext r f f' Hn Hs) as (X & H1 & H2 & _). intros k i Hk.
    destruct (String.eqb_spec k (reader_type r)) as [-> |Hne].
    + rewrite H1 in Hk. injection Hk as <-. exists r. split; [assumption|]. right. left. simpl. auto.
    + assert (Hk' : byType f k = Some i).
      { unfold installCustomSerialiser, bind, make in Hs. injection Hs as <-. unfold byType in Hk. cbn [types set_types] in Hk.
        rewrite assoc_put_other in Hk by assumption. exact Hk. }
      destruct (B k i Hk') as (x & Hx & C). exists x. split; [now apply X|]. destruct C as [C|[[C D]|(t & T1 & T2 & T3)]]; auto.
      * right. left. simpl. auto.
      * right. right. exists t. eauto using reads_ext.
Qed.
Lemma run_backed kf h f f' : run kf h f f' -> forall cs ts, backed cs ts f ->
  backed (installed h ++ cs) (entries_of h ++ ts) f'.
Proof.
  induction 1 as [f|o h f f1 f2 Hc Hs R IH]; intros cs ts B; [exact B|].
  specialize (IH _ _ (step_backed _ _ _ _ _ _ Hc Hs B)). eapply backed_incl; [| |exact IH].
  - change (o :: h) with ([o] ++ h)%list. unfold installed. rewrite map_app, concat_app.
    intros x. rewrite !in_app_iff. tauto.
  - change (o :: h) with ([o] ++ h)%list. unfold entries_of. rewrite map_app, concat_app.
    intros x. rewrite !in_app_iff. tauto.
Qed.
Lemma installed_in h r : In r (installed h) -> In (Install r) h.
Proof.
  unfold installed. rewrite in_concat. intros (l & Hl & Hr). apply in_map_iff in Hl as (o & <- & Ho).
  destruct o; [destruct Hr|]. destruct Hr as [-> |[]]. assumption.
Qed.
Lemma history_backed kf h f : run kf h new_factory f -> backed (installed h) (entries_of h) f.
Proof.
  intros R. rewrite <- (app_nil_r (installed h)), <- (app_nil_r (entries_of h)). eapply run_backed; eauto.
  intros k i H. discriminate.
Qed.

Theorem processed_reads : forall kf h f s f',
  run kf h new_factory f -> Forall proper (List.concat (s_types s)) -> process kf s f = Ok tt f' ->
  forall t, In t (List.concat (s_types s)) ->
    (forall u, In u (entries_of h ++ List.concat (s_types s)) -> n_name u = n_name t -> u = t) ->
    (forall r, In (Install r) h -> reader_type r <> n_name t) ->
  exists i r, byType f' (n_name t) = Some i /\ lock f' i = Some r /\ reads f' t r.
Proof.
  intros kf h f s f' R Hp H t Ht Hu Hi. pose proof (history_backed _ _ _ R) as B.
  assert (B' : backed (installed h) (entries_of h ++ List.concat (s_types s)) f).
  { eapply backed_incl; [apply incl_refl|apply incl_appl, incl_refl|exact B]. }
  assert (N : incl (List.concat (s_types s)) (entries_of h ++ List.concat (s_types s))) by apply incl_appr, incl_refl.
  pose proof (entries_backed kf (installed h) _ _ Hp N f B') as X. unfold process in H. rewrite H in X. cbn in X.
  destruct (entries_registered kf _ (propers_okent _ Hp) f f' H) as (H1 & _). destruct (H1 t Ht) as (i & Hi').
  destruct (X _ _ Hi') as (r & Hr & C). exists i, r. split; [assumption|]. split; [eapply byType_lock; eauto|].
  destruct C as [(p & -> & E)|[[C E]|(u & Hu1 & Hu2 & Hu3)]].
  - rewrite Forall_forall in Hp. destruct (Hp t Ht) as [_ Hnp]. rewrite E, prim_name_primitive in Hnp. discriminate.
  - elim (Hi r (installed_in _ _ C)). assumption.
  - now rewrite <- (Hu u Hu1 Hu2).
Qed.

(** ** When processing succeeds *)

Lemma primitive_cases t : typeIsPrimitive t = true ->
  t = "string" \/ t = "long" \/ t = "boolean" \/ t = "bool" \/ t = "float" \/ t = "int" \/ t = "double" \/ t = "binary".
Proof.
  unfold typeIsPrimitive, memb. cbn [existsb].
  repeat match goal with |- context [String.eqb t ?b] => destruct (String.eqb_spec t b); [auto 9|] end. discriminate.
Qed.
Lemma container_not_primitive t : isContainer t = Ret true -> typeIsPrimitive t = false.
Proof.
  intros H. destruct (typeIsPrimitive t) eqn:E; [|reflexivity]. exfalso.
  destruct (primitive_cases t E) as [-> |[-> |[-> |[-> |[-> |[-> |[-> | ->]]]]]]]; vm_compute in H; discriminate.
Qed.

Lemma field_kind_prim fd t : field_made fd -> resolvedType fd = Ret t ->
  (f_kind fd = PrimitiveField /\ f_type fd = t /\ typeIsPrimitive t = true) \/
  ((f_kind fd = ArrayField \/ f_kind fd = RestrictedField \/ f_kind fd = CompositeField) /\ typeIsPrimitive t = false).
Proof.
  intros (name & type & requires & default & label & mandatory & multiple & E) H.
  unfold Field_make in E. destruct (typeIsPrimitive type) eqn:Ep.
  - injection E as <-. cbn in H. injection H as <-. left. auto.
  - destruct (isArrayType type) as [[|]| | | |]; try discriminate; cbn [rbind] in E.
    + destruct (subTypes_of requires); try discriminate. cbn [rbind] in E. injection E as <-. cbn in H. injection H as <-. right. auto.
    + destruct (String.eqb type "*").
      * destruct requires as [|front rest].
        -- injection E as <-. cbn in H. discriminate.
        -- destruct (isContainer front) as [[|]| | | |] eqn:Ec; try discriminate. cbn [rbind] in E.
           destruct (subTypes_of (front :: rest)) in E; try discriminate. cbn [rbind] in E. injection E as <-. cbn in H. injection H as <-.
           right. split; [auto|]. now apply container_not_primitive.
      * destruct (listType type) as [[? ?]| | | |]; try discriminate. cbn [rbind] in E. injection E as <-. cbn in H. injection H as <-.
        right. auto.
Qed.

Definition keeps_clean (f f' : factory) : Prop := forall k, unpoisoned f k -> unpoisoned f' k.
Lemma clean_put f f' k i : keeps_clean f f' -> keeps_clean f (set_types (put k (Some i) (types f')) f').
Proof.
  intros H q Hq. unfold unpoisoned. cbn [types set_types]. rewrite assoc_put. destruct (String.eqb q k); [discriminate|]. now apply H.
Qed.

Lemma property_ok k f : unpoisoned f k -> readable_prim k \/ byType f k <> None ->
  exists i f', computeIfAbsent k (make_property k) f = Ok i f' /\ keeps_clean f f'.
Proof.
  intros Hu Hk. destruct (property_cases k f) as [(i & E & ->)|[(E & _)|[(E & Hm & _)|(p & f1 & E & Hp & H1 & ->)]]].
  - exists i, f. split; [reflexivity|]. intros q; auto.
  - elim Hu. exact E.
  - exfalso. destruct Hk as [(p & ->)|Hk]; [rewrite makePropertyReader_prim in Hm; discriminate|].
    apply absent_byType in E. contradiction.
  - eexists _, _. split; [reflexivity|]. injection H1 as <-. apply clean_put. intros q; auto.
Qed.
Lemma readable_primitive k : readable_prim k -> typeIsPrimitive k = true.
Proof. intros (p & ->). apply prim_name_primitive. Qed.
Lemma types_at_ok k f : byType f k <> None -> exists i, types_at k f = Ok (Some i) f.
Proof.
  unfold byType, types_at. destruct (assoc k (types f)) as [[i|]|]; try congruence. eauto.
Qed.
Lemma fetch_ok k f : unpoisoned f k -> readable_prim k \/ byType f k <> None ->
  exists i f', fetchReaderForRestricted k f = Ok i f' /\ keeps_clean f f'.
Proof.
  intros Hu Hk. unfold fetchReaderForRestricted. destruct (typeIsPrimitive k) eqn:E; [now apply property_ok|].
  destruct Hk as [Hk|Hk]; [apply readable_primitive in Hk; congruence|]. destruct (types_at_ok k f Hk) as (i & H).
  exists i, f. unfold bind. rewrite H. split; [reflexivity|]. intros q; auto.
Qed.

Definition ready (f : factory) (name k : string) : Prop :=
  unpoisoned f k /\ (readable_prim k \/ k = name \/ byType f k <> None).
Lemma ready_later f f' name k : ext f f' -> keeps_clean f f' -> ready f name k -> ready f' name k.
Proof.
  intros [_ X] C [H1 H2]. split; [now apply C|]. destruct H2 as [H2|[H2|H2]]; auto. right. right.
  destruct (byType f k) as [i|] eqn:E; [|congruence]. rewrite (X _ _ E). discriminate.
Qed.

Lemma property_readers_ok self name fds : typeIsPrimitive name = false -> Forall field_made fds -> forall f,
  (forall fd, In fd fds -> exists k, resolvedType fd = Ret k /\ ready f name k) ->
  exists is f', property_readers self name fds f = Ok is f' /\ keeps_clean f f'.
Proof.
  intros Hn Hf. induction Hf as [|fd fds Hm Hf IH]; intros f H; cbn [property_readers].
  - exists [], f. split; [reflexivity|]. intros q; auto.
  - destruct (H fd (or_introl eq_refl)) as (k & Hk & Hu & Hr). unfold bind at 1. rewrite Hk. cbn [lift].
    assert (S : exists i f1, (match f_kind fd with
           | PrimitiveField => let! i := computeIfAbsent k (make_property (f_type fd)) in ret (Some i)
           | CustomField => types_at k
           | _ => if String.eqb k name then ret (Some self) else types_at k
           end) f = Ok (Some i) f1 /\ keeps_clean f f1).
    { destruct (field_kind_prim fd k Hm Hk) as [(K & Ht & Hp)|(K & Hp)].
      - rewrite K, Ht. destruct (property_ok k f Hu) as (i & f1 & E & C).
        { destruct Hr as [Hr|[-> |Hr]]; auto. congruence. }
        exists i, f1. unfold bind. rewrite E. auto.
      - assert (S : exists i f1, (if String.eqb k name then ret (Some self) else types_at k) f = Ok (Some i) f1 /\ keeps_clean f f1).
        { destruct (String.eqb_spec k name) as [-> |].
          - exists self, f. split; [reflexivity|]. intros q; auto.
          - destruct Hr as [Hr|[Hr|Hr]]; [apply readable_primitive in Hr; congruence|contradiction|].
            destruct (types_at_ok k f Hr) as (i & E). exists i, f. split; [assumption|]. intros q; auto. }
        destruct K as [-> |[-> | ->]]; exact S. }
    destruct S as (i & f1 & E & C). pose proof (field_reader_keeps (ext f) self name fd k (stable_ext f) Hm Hk f (ext_refl f)) as X.
    assert (X1 : lands (ext f) (Ok (Some i) f1)) by (rewrite <- E; exact X). cbn [lands] in X1.
    assert (B : forall K, bind (match f_kind fd with
           | PrimitiveField => let! i := computeIfAbsent k (make_property (f_type fd)) in ret (Some i)
           | CustomField => types_at k
           | _ => if String.eqb k name then ret (Some self) else types_at k
           end) K f = (K (Some i) f1 : outcome factory (list nat))) by (intros K; unfold bind at 1; now rewrite E).
    rewrite B. clear B X.
    destruct (IH f1) as (is & f2 & E2 & C2).
    { intros fd' Hfd'. destruct (H fd' (or_intror Hfd')) as (k' & Hk' & Hr'). exists k'. split; [assumption|]. eapply ready_later; eauto. }
    exists (i :: is), f2. unfold bind. rewrite E2. split; [reflexivity|]. intros q Hq. auto.
Qed.

Lemma make_entry_ok kf t f : made t -> typeIsPrimitive (n_name t) = false -> resolvable t ->
  (forall k, named_by t k -> unpoisoned f k /\ (readable_prim k \/ (is_restricted t -> False) /\ k = n_name t \/ byType f k <> None)) ->
  exists i f', make_entry kf t f = Ok i f' /\ keeps_clean f f'.
Proof.
  destruct t as [c|x]; intros Hm Hp Hrs H; cbn [make_entry n_name] in *.
  - unfold processComposite. unfold bind at 1. unfold make.
    set (f1 := {| heap := heap f ++ [RComposite (c_name c) []]; types := types f; descriptors := descriptors f |}).
    destruct (property_readers_ok (List.length (heap f)) (c_name c) (c_fields c) Hp Hm f1) as (is & f2 & E & C).
    { intros fd Hfd. cbn [made] in Hm. rewrite Forall_forall in Hm. destruct (resolvedType_spec fd (Hm fd Hfd) (Hrs fd Hfd)) as (k & Hk & Hpk).
      exists k. split; [assumption|]. destruct (H k) as [Hu Hr]; [exists fd; auto|]. split; [exact Hu|]. intuition. }
    unfold bind at 1. rewrite E. unfold bind at 1.
    pose proof (property_readers_keeps (ext f1) (List.length (heap f)) (c_name c) (c_fields c) (stable_ext f1) Hm f1 (ext_refl f1)) as X.
    rewrite E in X. cbn [lands] in X. pose proof (proj1 X _ _ (nth_error_snoc (heap f) (RComposite (c_name c) []))) as K.
    unfold install_kids. rewrite K. eexists _, _. split; [reflexivity|]. intros q Hq. exact (C q Hq).
  - pose proof (made_of x Hm) as Ho. unfold processRestricted, processMap. cbn [named_by is_restricted] in H. destruct (r_kind x) eqn:K.
    + destruct Ho as (e & He). rewrite He in H. unfold of0. rewrite He. cbn [nth]. destruct (H e) as [Hu Hr]; [simpl; auto|].
      destruct (fetch_ok e f Hu) as (i & f1 & E & C); [tauto|]. unfold bind. rewrite E. eexists _, _. split; [reflexivity|].
      intros q Hq. exact (C q Hq).
    + destruct Ho as (k & v & He). rewrite He in H. unfold of0, of1. rewrite He. cbn [nth].
      destruct (H k) as [Hu Hr]; [simpl; auto|]. destruct (H v) as [Hu' Hr']; [simpl; auto|].
      assert (L : forall a b, unpoisoned f a -> (readable_prim a \/ byType f a <> None) -> unpoisoned f b -> (readable_prim b \/ byType f b <> None) ->
        exists i f1 j f2, fetchReaderForRestricted a f = Ok i f1 /\ fetchReaderForRestricted b f1 = Ok j f2 /\ keeps_clean f f2).
      { intros a b Ha1 Ha2 Hb1 Hb2. destruct (fetch_ok a f Ha1 Ha2) as (i & f1 & E & C).
        pose proof (fetch_keeps (ext f) a (stable_ext f) f (ext_refl f)) as X. rewrite E in X. cbn [lands] in X.
        assert (R : ready f1 b b -> True) by auto. destruct (fetch_ok b f1) as (j & f2 & E2 & C2).
        - now apply C.
        - destruct Hb2 as [Hb2|Hb2]; [auto|right]. destruct (byType f b) as [q|] eqn:Q; [|congruence]. rewrite (proj2 X _ _ Q). discriminate.
        - exists i, f1, j, f2. split; [assumption|]. split; [assumption|]. intros q Hq. auto. }
      destruct kf.
      * destruct (L k v Hu ltac:(tauto) Hu' ltac:(tauto)) as (i & f1 & j & f2 & E1 & E2 & C). unfold bind. rewrite E1, E2.
        eexists _, _. split; [reflexivity|]. intros q Hq. exact (C q Hq).
      * destruct (L v k Hu' ltac:(tauto) Hu ltac:(tauto)) as (i & f1 & j & f2 & E1 & E2 & C). unfold bind. rewrite E1, E2.
        eexists _, _. split; [reflexivity|]. intros q Hq. exact (C q Hq).
    + eexists _, _. split; [reflexivity|]. intros q Hq. exact Hq.
    + destruct Ho as (e & He). rewrite He in H. unfold of0. rewrite He. cbn [nth]. destruct (H e) as [Hu Hr]; [simpl; auto|].
      destruct (fetch_ok e f Hu) as (i & f1 & E & C); [tauto|]. unfold bind. rewrite E. eexists _, _. split; [reflexivity|].
      intros q Hq. exact (C q Hq).
Qed.

Lemma process_entry_ok kf t f : proper t -> resolvable t -> unpoisoned f (n_name t) ->
  (forall k, named_by t k -> unpoisoned f k /\ (readable_prim k \/ (is_restricted t -> False) /\ k = n_name t \/ byType f k <> None)) ->
  exists f', process_entry kf t f = Ok tt f' /\ keeps_clean f f' /\ byType f' (n_name t) <> None.
Proof.
  intros Hp Hrs Hu H. pose proof (proper_okent _ Hp) as Ho. destruct Hp as [Hm Hnp].
  assert (T : exists i f1, process_type kf t f = Ok i f1 /\ keeps_clean f f1).
  { destruct (process_type_cases kf t f (proj1 Ho) (proj2 Ho)) as [(j & E & ->)|[(E & _)|(Ha & C)]].
    - exists j, f. split; [reflexivity|]. intros q; auto.
    - elim Hu. exact E.
    - destruct (make_entry_ok kf t f Hm Hnp Hrs H) as (i & f' & E & Cl).
      destruct C as [(j & f2 & r & E' & Hr & Hn & He & Ha' & ->)|[(e & f2 & E' & ->)|[(_ & E')|[(_ & E')|(_ & E')]]]];
        rewrite E in E'; try discriminate. injection E' as <- <-. eexists _, _. split; [reflexivity|]. now apply clean_put. }
  destruct T as (i & f1 & T & C).
  destruct (process_entry_cases kf t f Ho) as [(j & f2 & E & Hi & Hd & ->)|[(e & f2 & E & _)|E]].
  - rewrite T in E. injection E as <- <-. eexists. split; [reflexivity|]. split; [intros q Hq; exact (C q Hq)|].
    change (byType f1 (n_name t) <> None). congruence.
  - congruence.
  - exfalso. unfold process_entry, bind in E. rewrite T in E.
    destruct (process_type_result _ _ _ _ _ (proj1 Ho) (proj2 Ho) T) as [Hi _]. apply byType_spec in Hi. unfold types_at in E.
    rewrite Hi in E. destruct E as [E|[E|E]]; discriminate.
Qed.

Lemma entries_ok kf ts : forall f, Forall proper ts -> Forall resolvable ts ->
  (forall t, In t ts -> unpoisoned f (n_name t)) -> (forall t k, In t ts -> named_by t k -> unpoisoned f k) ->
  complete f ts -> exists f', process_entries kf ts f = Ok tt f' /\ keeps_clean f f'.
Proof.
  induction ts as [|t ts IH]; intros f Hp Hr Hn Hk Hc; cbn [process_entries].
  - exists f. split; [reflexivity|]. intros q; auto.
  - apply Forall_cons_iff in Hp as [Hp1 Hp]. apply Forall_cons_iff in Hr as [Hr1 Hr].
    destruct (process_entry_ok kf t f Hp1 Hr1 (Hn t (or_introl eq_refl))) as (f1 & E & C & Hb).
    { intros k Hnk. split; [apply (Hk t); simpl; auto|]. destruct (Hc [] t ts k eq_refl Hnk) as [H|[H|[H|(u & [] & _)]]]; auto. }
    pose proof (process_entry_ext kf t f (proper_okent _ Hp1)) as X. rewrite E in X. cbn [lands] in X.
    destruct (IH f1) as (f2 & E2 & C2); auto.
    + intros u Hu. apply C. apply Hn. now right.
    + intros u k Hu Hnk. apply C. apply (Hk u); [now right|assumption].
    + intros before u behind k -> Hnk.
      destruct (Hc (t :: before)%list u behind k eq_refl Hnk) as [H|[H|[H|(v & [<- |Hv] & <-)]]]; auto.
      * right. right. left. destruct (byType f k) as [q|] eqn:Q; [|congruence]. rewrite (proj2 X _ _ Q). discriminate.
      * right. right. right. eauto.
    + exists f2. unfold bind. rewrite E, E2. split; [reflexivity|]. intros q Hq. auto.
Qed.

Theorem process_succeeds : forall kf f s, Forall proper (List.concat (s_types s)) -> Forall resolvable (List.concat (s_types s)) ->
  (forall t k, In t (List.concat (s_types s)) -> k = n_name t \/ named_by t k -> unpoisoned f k) ->
  complete f (List.concat (s_types s)) -> exists f', process kf s f = Ok tt f'.
Proof.
  intros kf f s Hp Hr Hu Hc. destruct (entries_ok kf _ f Hp Hr) as (f' & E & _); eauto.
Qed.

(** ** From a dependency order *)

Lemma concat_split {A} (levels : list (list A)) : forall before t behind, List.concat levels = (before ++ t :: behind)%list ->
  exists l1 g1 g2 l2, levels = (l1 ++ (g1 ++ t :: g2) :: l2)%list /\ before = (List.concat l1 ++ g1)%list.
Proof.
  induction levels as [|g levels IH]; intros before t behind H; cbn [List.concat] in H.
  - destruct before; discriminate.
  - revert before H. induction g as [|a g IHg]; intros before H.
    + cbn [app] in H. destruct (IH _ _ _ H) as (l1 & g1 & g2 & l2 & -> & ->). exists ([] :: l1), g1, g2, l2. auto.
    + destruct before as [|b before]; cbn [app] in H; injection H as -> H.
      * exists [], [], g, levels. auto.
      * destruct (IHg _ H) as (l1 & g1 & g2 & l2 & E & ->). destruct l1 as [|g0 l1].
        -- cbn [app] in E. injection E as -> ->. exists [], (b :: g1), g2, l2. auto.
        -- cbn [app] in E. injection E as <- ->. exists ((b :: g) :: l1), g1, g2, l2. auto.
Qed.

Lemma named_direct t u : made t -> named_by t (n_name u) -> direct t u.
Proof.
  intros Hm H. destruct t as [c|x]; cbn [named_by direct] in *; [exact H|]. pose proof (made_of x Hm) as Ho.
  destruct (r_kind x); try contradiction.
  - destruct Ho as (e & He). exists e. rewrite He in H. destruct H as [H|[]]. auto.
  - destruct Ho as (k & v & He). exists k, v. rewrite He in H. destruct H as [H|[H|[]]]; auto.
  - destruct Ho as (e & He). exists e. rewrite He in H. destruct H as [H|[]]. auto.
Qed.

Lemma ordered_complete f levels : Forall made (List.concat levels) -> dependency_order uses levels ->
  closed f (List.concat levels) -> complete f (List.concat levels).
Proof.
  intros Hm Ho Hc before t behind k E Hk. assert (Ht : In t (List.concat levels)) by (rewrite E; apply in_elt).
  destruct (Hc t k Ht Hk) as [H|[H|(u & Hu & <-)]]; auto. right. right. right. exists u. split; [|reflexivity].
  destruct (concat_split _ _ _ _ E) as (l1 & g1 & g2 & l2 & El & ->).
  rewrite Forall_forall in Hm. pose proof (named_direct t u (Hm t Ht) Hk) as D.
  apply in_concat in Hu as (g & Hg & Hug). apply In_nth_error in Hg as (m & Hgm).
  assert (m < List.length l1) as L.
  { apply (Ho t u (List.length l1) m).
    - exists (g1 ++ t :: g2)%list. split; [|apply in_elt]. rewrite El, nth_error_app2, Nat.sub_diag; [reflexivity|lia].
    - exists g. auto.
    - now left. }
  apply in_or_app. left. apply in_concat. exists g. split; [|assumption]. rewrite El, nth_error_app1 in Hgm by assumption.
  eapply nth_error_In; eauto.
Qed.

Lemma new_unpoisoned k : unpoisoned new_factory k.
Proof. discriminate. Qed.

(** ** Processing again *)

Lemma registered_again kf ts : forall f, (forall t, In t ts -> byType f (n_name t) <> None) ->
  exists m, process_entries kf ts f = Ok tt (set_descriptors m f).
Proof.
  induction ts as [|t ts IH]; intros f H; cbn [process_entries].
  - exists (descriptors f). destruct f. reflexivity.
  - assert (E : exists i, assoc (n_name t) (types f) = Some (Some i)).
    { destruct (byType f (n_name t)) as [i|] eqn:E; [|elim (H t (or_introl eq_refl) E)]. apply byType_spec in E. eauto. }
    destruct E as (i & E).
    assert (P : process_entry kf t f = Ok tt (set_descriptors (put (n_descriptor t) (Some i) (descriptors f)) f)).
    { unfold process_entry, bind, process_type, computeIfAbsent, types_at. rewrite E, E. reflexivity. }
    destruct (IH (set_descriptors (put (n_descriptor t) (Some i) (descriptors f)) f)) as (m & Hm).
    { intros u Hu. apply (H u). now right. }
    exists m. unfold bind. rewrite P, Hm. reflexivity.
Qed.

(** Fingerprints point to the reader of an entry. *)
Definition pointed (ts : list notation) (f0 f : factory) : Prop := forall d i, byDescriptor f d = Some i ->
  byDescriptor f0 d = Some i \/ exists u, In u ts /\ n_descriptor u = d /\ byType f (n_name u) = Some i.
Definition kept (f0 f : factory) : Prop := forall d i, byDescriptor f0 d = Some i -> exists j, byDescriptor f d = Some j.

Lemma pointed_refl ts f : pointed ts f f.
Proof. intros d i. auto. Qed.
Lemma pointed_ext ts f0 f f' : pointed ts f0 f -> ext f f' -> descriptors f' = descriptors f -> pointed ts f0 f'.
Proof.
  intros P [_ X] D d i H. unfold byDescriptor in H. rewrite D in H. destruct (P d i H) as [Q|(u & H1 & H2 & H3)]; [auto|].
  right. exists u. auto.
Qed.
Lemma process_type_descriptors kf t f : okent t -> lands (fun f' => descriptors f' = descriptors f) (process_type kf t f).
Proof.
  intros [Ho Hp]. destruct (process_type_cases kf t f Ho Hp) as [(i & _ & ->)|[(_ & ->)|(_ & C)]]; cbn; auto.
  pose proof (make_entry_descriptors kf t f Ho) as X.
  destruct C as [(i & f1 & r & E & _ & _ & _ & _ & ->)|[(e & f1 & E & ->)|[(-> & _)|[(-> & _)|(-> & _)]]]]; cbn; auto;
    rewrite E in X; exact X.
Qed.
Lemma process_entry_pointed kf t ts f0 : okent t -> In t ts -> keeps (fun f => pointed ts f0 f /\ kept f0 f) (process_entry kf t).
Proof.
  intros Ho Ht f [P K]. pose proof (process_type_descriptors kf t f Ho) as D. pose proof (process_type_ext kf t f (proj1 Ho) (proj2 Ho)) as X.
  destruct (process_entry_cases kf t f Ho) as [(i & f1 & E & Hi & Hd & ->)|[(e & f1 & E & ->)|[-> |[-> | ->]]]]; cbn [lands]; auto;
    rewrite E in D, X; cbn [lands] in D, X.
  - split.
    + intros d j H. rewrite byDescriptor_put in H. destruct (String.eqb_spec d (n_descriptor t)) as [-> |N].
      * right. exists t. split; [assumption|]. split; [reflexivity|]. injection H as <-. exact Hi.
      * exact (pointed_ext _ _ _ _ P X D d j H).
    + intros d j H. rewrite byDescriptor_put. destruct (String.eqb d (n_descriptor t)); [eauto|].
      unfold byDescriptor at 1. rewrite D. exact (K d j H).
  - split; [exact (pointed_ext _ _ _ _ P X D)|]. intros d j H. unfold byDescriptor at 1. rewrite D. exact (K d j H).
Qed.
Lemma kept_refl f : kept f f.
Proof. intros d i; eauto. Qed.
Lemma entries_pointed kf ts all f0 : Forall okent ts -> incl ts all -> keeps (fun f => pointed all f0 f /\ kept f0 f) (process_entries kf ts).
Proof.
  intros H N. apply process_entries_keeps. intros t Ht. rewrite Forall_forall in H. apply process_entry_pointed; auto.
Qed.
Lemma pointed_incl ts ts' f0 f : incl ts ts' -> pointed ts f0 f -> pointed ts' f0 f.
Proof. intros N P d i H. destruct (P d i H) as [Q|(u & H1 & H2)]; eauto. Qed.
Lemma run_pointed kf h f f' : run kf h f f' -> forall all f0, incl (entries_of h) all -> pointed all f0 f -> kept f0 f ->
  pointed all f0 f' /\ kept f0 f'.
Proof.
  induction 1 as [|o h f f1 f2 Hc Hs R IH]; intros all f0 N P K; [auto|].
  assert (N1 : incl (entries_of h) all).
  { intros t Ht. apply N. unfold entries_of in *. cbn [map List.concat]. apply in_or_app. now right. }
  assert (N0 : incl (entries_of [o]) all).
  { intros t Ht. apply N. unfold entries_of in *. cbn [map List.concat] in *. rewrite app_nil_r in Ht. apply in_or_app. now left. }
  assert (S : pointed all f0 f1 /\ kept f0 f1).
  { destruct o as [s|r]; cbn [careful] in Hc; unfold steps in Hs; cbn [effect] in Hs.
    - assert (N2 : incl (List.concat (s_types s)) all).
      { unfold entries_of in N0. cbn [map List.concat] in N0. now rewrite app_nil_r in N0. }
      pose proof (entries_pointed kf _ all f0 (propers_okent _ Hc) N2 f (conj P K)) as X. unfold process in Hs.
      destruct Hs as [Hs|[e Hs]]; rewrite Hs in X; exact X.
    - destruct Hc as [Hc Hn]. destruct Hs as [Hs|[e Hs]]; [|discriminate]. destruct (install_ext r f f1 Hn Hs) as (X & _ & _ & D).
      split; [exact (pointed_ext _ _ _ _ P X D)|]. intros d j H. unfold byDescriptor at 1. rewrite D. exact (K d j H). }
  destruct S as [P1 K1]. now apply IH.
Qed.

Lemma history_pointed kf h f : run kf h new_factory f -> forall d i, byDescriptor f d = Some i ->
  exists u, In u (entries_of h) /\ n_descriptor u = d /\ byType f (n_name u) = Some i.
Proof.
  intros R d i H. destruct (run_pointed _ _ _ _ R (entries_of h) new_factory (incl_refl _) (pointed_refl _ _) (kept_refl _)) as [P _].
  destruct (P d i H) as [Q|Q]; [discriminate|assumption].
Qed.

(** C27 *)
Theorem readers_stable : forall kf h0 f h f', run kf h0 new_factory f -> run kf h f f' ->
  (forall k i, byType f k = Some i -> byType f' k = Some i) /\
  (forall k i j r, byType f k = Some i -> refers f i j -> lock f j = Some r -> lock f' j = Some r) /\
  (one_name_per_fingerprint (entries_of h0 ++ entries_of h) ->
   forall d i, byDescriptor f d = Some i -> byDescriptor f' d = Some i).
Proof.
  intros kf h0 f h f' R0 R. pose proof (run_ext _ _ _ _ R) as [X1 X2]. pose proof (reachable_inv kf f (ex_intro _ h0 R0)) as I.
  split; [exact X2|]. split.
  - intros k i j r Hk Hj Hl. assert (exists q, byType f q = Some j) as (q & Hq).
    { clear Hl. induction Hj as [|j r' k' Hj IH L K]; [eauto|]. destruct IH as (q & Hq).
      destruct (proj1 I _ _ Hq) as (r1 & Hr1 & _ & Hl). apply lock_heap in L. rewrite L in Hr1. injection Hr1 as <-.
      unfold linked in Hl. rewrite Forall_forall in Hl. apply (Hl k' K). }
    eapply byType_lock; [apply X2; exact Hq|]. apply X1. now apply lock_heap.
  - intros U d i H. destruct (history_pointed _ _ _ R0 d i H) as (u & Hu & Hd & Hb).
    destruct (run_pointed _ _ _ _ R (entries_of h) f (incl_refl _) (pointed_refl _ _) (kept_refl _)) as [P K].
    destruct (K d i H) as (j & Hj). destruct (P d j Hj) as [Q|(v & Hv & Hvd & Hvb)]; [congruence|].
    assert (n_name u = n_name v) as N.
    { apply U; [apply in_or_app; auto|apply in_or_app; auto|congruence]. }
    rewrite N in Hb. apply X2 in Hb. congruence.
Qed.

(** C25 *)
Theorem process_again : forall kf h0 f s f1 h f2, run kf h0 new_factory f -> Forall proper (List.concat (s_types s)) ->
  process kf s f = Ok tt f1 -> run kf h f1 f2 ->
  exists f3, process kf s f2 = Ok tt f3 /\ heap f3 = heap f2 /\ (forall k, byType f3 k = byType f2 k) /\
    (one_name_per_fingerprint (entries_of h0 ++ List.concat (s_types s) ++ entries_of h) ->
     forall d, byDescriptor f3 d = byDescriptor f2 d).
Proof.
  intros kf h0 f s f1 h f2 R0 Hp E R. pose proof (propers_okent _ Hp) as Ho.
  destruct (entries_registered kf _ Ho f f1 E) as (H1 & _ & H3). pose proof (run_ext _ _ _ _ R) as [_ X].
  destruct (registered_again kf (List.concat (s_types s)) f2) as (m & Hm).
  { intros t Ht. destruct (H1 t Ht) as (i & Hi). rewrite (X _ _ Hi). discriminate. }
  exists (set_descriptors m f2). split; [exact Hm|]. split; [reflexivity|]. split; [reflexivity|]. intros U d.
  assert (R1 : run kf (h0 ++ [Process s] ++ h) new_factory f2).
  { clear -R0 R Hp E. induction R0 as [f|o h' f g g' Hc Hs R' IH]; cbn [app].
    - eapply run_cons; [exact Hp|left; exact E|exact R].
    - eapply run_cons; eauto. }
  assert (EN : entries_of (h0 ++ [Process s] ++ h) = (entries_of h0 ++ List.concat (s_types s) ++ entries_of h)%list).
  { unfold entries_of. rewrite !map_app, !concat_app. cbn [map List.concat]. now rewrite app_nil_r. }
  destruct (entries_registered kf _ Ho f2 _ Hm) as (_ & G2 & G3).
  destruct (G2 d) as [(t & Ht & Hd)|Q]; [|exact Q].
  destruct (G3 t Ht) as (u & Hu & Hud & Hub). rewrite Hd in Hub, Hud. rewrite Hub. clear Hub.
  destruct (H3 t Ht) as (v & Hv & Hvd & Hvb). rewrite Hd in *. destruct (H1 v Hv) as (i & Hi). rewrite Hi in Hvb.
  assert (NU : n_name u = n_name v).
  { apply U; try (apply in_or_app; right; apply in_or_app; left; assumption). congruence. }
  destruct (run_pointed _ _ _ _ R (entries_of h) f1 (incl_refl _) (pointed_refl _ _) (kept_refl _)) as [P K].
  destruct (K d i Hvb) as (j & Hj). rewrite Hj. change (byType f2 (n_name u) = Some j).
  rewrite NU, (X _ _ Hi). destruct (P d j Hj) as [Q|(w & Hw & Hwd & Hwb)]; [congruence|].
  assert (NW : n_name v = n_name w).
  { apply U; [apply in_or_app; right; apply in_or_app; left; assumption| |congruence].
    apply in_or_app; right; apply in_or_app; right; assumption. }
  rewrite NW in Hi. rewrite (X _ _ Hi) in Hwb. exact Hwb.
Qed.

Lemma Forall2_nth {A B} (P : A -> B -> Prop) l l' a : Forall2 P l l' -> forall n, nth_error l n = Some a ->
  exists b, nth_error l' n = Some b /\ P a b.
Proof.
  induction 1 as [|x y l l' H F IH]; intros [|n] E; cbn [nth_error] in *; try discriminate; eauto.
  injection E as ->. eauto.
Qed.

(** C28 *)
Theorem installed_used : forall kf h0 f r f1 h f2 s f3, run kf h0 new_factory f -> is_custom r -> byType f (reader_type r) = None ->
  installCustomSerialiser r f = Ok tt f1 -> run kf h f1 f2 -> Forall proper (List.concat (s_types s)) -> process kf s f2 = Ok tt f3 ->
  (exists i, byType f3 (reader_type r) = Some i /\ lock f3 i = Some r /\
   forall c, In (TComposite c) (List.concat (s_types s)) ->
     (forall u, In u (entries_of h0 ++ entries_of h ++ List.concat (s_types s)) -> n_name u = c_name c -> u = TComposite c) ->
     (forall x, In (Install x) (h0 ++ Install r :: h) -> reader_type x <> c_name c) ->
     exists q ks, byType f3 (c_name c) = Some q /\ lock f3 q = Some (RComposite (c_name c) ks) /\
       forall n fd, nth_error (c_fields c) n = Some fd -> property_type fd = Some (reader_type r) -> nth_error ks n = Some i) /\
  (forall k i j x, byType f k = Some i -> refers f i j -> lock f j = Some x -> byType f3 k = Some i /\ lock f3 j = Some x).
Proof.
  intros kf h0 f r f1 h f2 s f3 R0 Hc Hn E R Hp P.
  assert (C1 : run kf (Install r :: h ++ [Process s]) f f3).
  { eapply run_cons; [split; eassumption|left; exact E|]. clear -R P Hp. induction R as [f|o h' f g g' Hc Hs R' IH]; cbn [app].
    - eapply run_cons; [exact Hp|left; exact P|constructor].
    - eapply run_cons; eauto. }
  assert (C0 : run kf (h0 ++ Install r :: h) new_factory f2).
  { clear -R0 R E Hn Hc. induction R0 as [f|o h' f g g' Hc' Hs R' IH]; cbn [app].
    - eapply run_cons; [split; eassumption|left; exact E|exact R].
    - eapply run_cons; eauto. }
  assert (EN : entries_of (h0 ++ Install r :: h) = (entries_of h0 ++ entries_of h)%list).
  { unfold entries_of. now rewrite !map_app, !concat_app. }
  pose proof (run_ext _ _ _ _ R) as X2. pose proof (entries_ext kf _ f2 (propers_okent _ Hp)) as X3. unfold process in P.
  rewrite P in X3. cbn [lands] in X3. pose proof (ext_trans _ _ _ X2 X3) as X.
  destruct (install_ext r f f1 Hn E) as (_ & Hb & Hh & _). split.
  - exists (List.length (heap f)). split; [apply X; exact Hb|]. split; [eapply byType_lock; [apply X; exact Hb|apply X; exact Hh]|].
    intros c Hin Hu Hx. destruct (processed_reads kf _ f2 s f3 C0 Hp P (TComposite c) Hin) as (q & rd & Hq & Hl & ks & -> & F).
    { rewrite EN, <- app_assoc. exact Hu. }
    { exact Hx. }
    exists q, ks. split; [exact Hq|]. split; [exact Hl|]. intros n fd Hfd Ht.
    assert (Hb3 : byType f3 (reader_type r) = Some (List.length (heap f))) by (apply X; exact Hb).
    destruct (Forall2_nth _ _ _ _ F n Hfd) as (i & Hi & ty & Hty & Hbt). rewrite Hi. congruence.
  - intros k i j x Hk Hj Hl. destruct (readers_stable kf h0 f _ f3 R0 C1) as (S1 & S2 & _). eauto.
Qed.

(** ** Checking concrete schemas *)

Definition named_list (t : notation) : list string :=
  match t with
  | TComposite c => List.concat (map (fun fd => match property_type fd with Some k => [k] | None => [] end) (c_fields c))
  | TRestricted r => match r_kind r with enum_t => [] | _ => r_of r end
  end.
Lemma named_list_spec t k : named_by t k -> In k (named_list t).
Proof.
  destruct t as [c|r]; cbn [named_by named_list].
  - intros (fd & Hfd & Hk). apply in_concat. eexists. split; [apply in_map; exact Hfd|]. cbn beta. rewrite Hk. now left.
  - now destruct (r_kind r).
Qed.
Definition closed_check (ts : list notation) : bool :=
  forallb (fun t => forallb (fun k => existsb (fun p => String.eqb k (prim_name p)) [PInt; PLong; PDouble; PBoolean; PString; PFloat; PBinary]
                                   || existsb (fun u => String.eqb (n_name u) k) ts) (named_list t)) ts.
Lemma closed_checked f ts : closed_check ts = true -> closed f ts.
Proof.
  intros H t k Ht Hk. unfold closed_check in H. rewrite forallb_forall in H. specialize (H t Ht). rewrite forallb_forall in H.
  specialize (H k (named_list_spec t k Hk)). apply Bool.orb_true_iff in H as [H|H]; apply existsb_exists in H as (x & Hx & He);
    apply String.eqb_eq in He.
  - left. exists x. exact He.
  - right. right. eauto.
Qed.
Definition unique_check (ts : list notation) : bool :=
  forallb (fun t => forallb (fun u => negb (String.eqb (n_descriptor t) (n_descriptor u)) || String.eqb (n_name t) (n_name u)) ts) ts.
Lemma unique_checked ts : unique_check ts = true -> one_name_per_fingerprint ts.
Proof.
  intros H t u Ht Hu E. unfold unique_check in H. rewrite forallb_forall in H. specialize (H t Ht). rewrite forallb_forall in H.
  specialize (H u Hu). rewrite E, String.eqb_refl in H. now apply String.eqb_eq.
Qed.
Definition nonprim_check (ts : list notation) : bool := forallb (fun t => negb (typeIsPrimitive (n_name t))) ts.
Lemma nonprim_checked ts : Forall made ts -> nonprim_check ts = true -> Forall proper ts.
Proof.
  intros Hm H. unfold nonprim_check in H. rewrite forallb_forall in H. rewrite Forall_forall in *. intros t Ht. split; [auto|].
  specialize (H t Ht). change (typeIsPrimitive (n_name t) = false). now destruct (typeIsPrimitive (n_name t)).
Qed.

(** ** Only exceptions go wrong *)

Definition clean (f : factory) : Prop := forall k, unpoisoned f k.
Definition fine {A} (m : FM A) : Prop := forall f, clean f ->
  match m f with Ok _ f' => clean f' | Throw _ _ => True | _ => False end.

Lemma fine_ret {A} (a : A) : fine (ret a).
Proof. intros f H. exact H. Qed.
Lemma fine_throw {A} e : fine (@throw factory A e).
Proof. intros f H. exact I. Qed.
Lemma fine_bind {A B} (m : FM A) (k : A -> FM B) : fine m -> (forall a, fine (k a)) -> fine (bind m k).
Proof.
  intros H K f Hf. specialize (H f Hf). unfold bind. destruct (m f) as [a f'|e f'| | |]; auto. now apply K.
Qed.
Lemma clean_set f k i : clean f -> clean (set_types (put k (Some i) (types f)) f).
Proof. intros H q. now apply (clean_put f f k i (fun q Hq => Hq) q). Qed.
Lemma fine_property k : fine (computeIfAbsent k (make_property k)).
Proof.
  intros f Hf. destruct (property_cases k f) as [(i & E & ->)|[(E & _)|[(E & Hm & ->)|(p & f1 & E & Hp & H1 & ->)]]]; auto.
  - elim (Hf k E).
  - injection H1 as <-. now apply clean_set.
Qed.
Lemma fine_at {A} k (body : nat -> FM A) e : (forall i, fine (body i)) ->
  fine (let! p := types_at k in match p with Some i => body i | None => throw e end).
Proof.
  intros H f Hf. unfold bind, types_at. destruct (assoc k (types f)) as [[i|]|] eqn:E; [now apply H|exact I|exact I].
Qed.
Lemma fine_fetch k : fine (fetchReaderForRestricted k).
Proof.
  unfold fetchReaderForRestricted. destruct (typeIsPrimitive k); [apply fine_property|].
  apply fine_at. intros i. apply fine_ret.
Qed.
Lemma fine_make r : fine (make r).
Proof. intros f H. exact H. Qed.

Lemma fine_readers self name fds : Forall field_made fds -> (forall fd, In fd fds -> f_type fd = "*" -> f_requires fd <> []) ->
  fine (property_readers self name fds).
Proof.
  induction 1 as [|fd fds Hm Hf IH]; intros H; cbn [property_readers]; [apply fine_ret|].
  destruct (resolvedType_spec fd Hm (H fd (or_introl eq_refl))) as (k & Hk & _).
  assert (IH' : fine (property_readers self name fds)) by (apply IH; intros fd' Hfd'; apply H; now right).
  assert (B : forall i, fine (let! is := property_readers self name fds in ret (i :: is))).
  { intros i. apply fine_bind; [assumption|]. intros a. apply fine_ret. }
  intros f Hcl. unfold bind at 1. rewrite Hk. cbn [lift]. revert f Hcl.
  destruct (field_kind_prim fd k Hm Hk) as [(K & Ht & Hp)|(K & Hp)].
  - rewrite K, Ht. intros f Hcl. pose proof (fine_property k f Hcl) as P. unfold bind at 1. unfold bind at 1.
    destruct (computeIfAbsent k (make_property k) f) as [i f1|e f1| | |]; auto. now apply B.
  - assert (S : fine (let! p := (if String.eqb k name then ret (Some self) else types_at k) in
        match p with Some i => let! is := property_readers self name fds in ret (i :: is) | None => throw RuntimeError end)).
    { destruct (String.eqb k name); [apply fine_bind; [apply fine_ret|]|now apply fine_at].
      intros [i|]; [apply B|apply fine_throw]. }
    destruct K as [-> |[-> | ->]]; exact S.
Qed.

Lemma fine_entry kf t : proper t -> resolvable t -> fine (make_entry kf t).
Proof.
  intros [Hm Hp] Hr. destruct t as [c|x]; cbn [make_entry].
  - intros f Hcl. unfold processComposite. unfold bind at 1. unfold make.
    set (f1 := {| heap := heap f ++ [RComposite (c_name c) []]; types := types f; descriptors := descriptors f |}).
    pose proof (property_readers_keeps (ext f1) (List.length (heap f)) (c_name c) (c_fields c) (stable_ext f1) Hm f1 (ext_refl f1)) as X.
    pose proof (fine_readers (List.length (heap f)) (c_name c) (c_fields c) Hm Hr f1 Hcl) as P. unfold bind at 1.
    destruct (property_readers _ _ _ f1) as [is f2|e f2| | |]; auto. cbn [lands] in X.
    pose proof (proj1 X _ _ (nth_error_snoc (heap f) (RComposite (c_name c) []))) as K. unfold bind at 1, install_kids. rewrite K. exact P.
  - unfold processRestricted, processMap. destruct (r_kind x).
    + apply fine_bind; [apply fine_fetch|]. intros i. apply fine_make.
    + apply fine_bind; [destruct kf; (apply fine_bind; [apply fine_fetch|]; intros i; apply fine_bind; [apply fine_fetch|]; intros j; apply fine_ret)|].
      intros [i j]. apply fine_make.
    + apply fine_make.
    + apply fine_bind; [apply fine_fetch|]. intros i. apply fine_make.
Qed.

Theorem process_defined : forall kf s, Forall proper (List.concat (s_types s)) -> Forall resolvable (List.concat (s_types s)) ->
  forall f, clean f -> (exists f', process kf s f = Ok tt f' /\ clean f') \/ (exists e f', process kf s f = Throw e f').
Proof.
  intros kf s Hp Hr f Hcl. assert (F : fine (process kf s)).
  { unfold process. induction Hp as [|t ts Ht Hts IH]; cbn [process_entries]; [apply fine_ret|].
    apply Forall_cons_iff in Hr as [Hr1 Hr]. apply fine_bind; [|intros _; auto].
    clear f Hcl. intros f Hcl. pose proof (proper_okent _ Ht) as Ho. pose proof (fine_entry kf t Ht Hr1 f Hcl) as P.
    assert (T : match process_type kf t f with Ok _ f' => clean f' | Throw _ _ => True | _ => False end).
    { destruct (process_type_cases kf t f (proj1 Ho) (proj2 Ho)) as [(i & _ & ->)|[(E & _)|(Ha & C)]]; [assumption|elim (Hcl _ E)|].
      destruct C as [(i & f1 & r & E & _ & _ & _ & _ & ->)|[(e & f1 & E & ->)|[(-> & E)|[(-> & E)|(-> & E)]]]]; rewrite E in P; auto.
      now apply clean_set. }
    destruct (process_entry_cases kf t f Ho) as [(i & f1 & E & _ & _ & ->)|[(e & f1 & E & ->)|E]].
    - rewrite E in T. exact T.
    - exact I.
    - exfalso. unfold process_entry, bind in E. destruct (process_type kf t f) as [i f1|e f1| | |] eqn:ET; auto.
      + destruct (process_type_result _ _ _ _ _ (proj1 Ho) (proj2 Ho) ET) as [Hi _]. apply byType_spec in Hi. unfold types_at in E.
        rewrite Hi in E. destruct E as [E|[E|E]]; discriminate.
      + destruct E as [E|[E|E]]; discriminate. }
  specialize (F f Hcl). destruct (process kf s f) as [[] f'|e f'| | |]; eauto; contradiction.
Qed.

(** Whatever succeeds leaves no null pointer behind. *)
Definition settles {A} (m : FM A) : Prop := forall f a f', clean f -> m f = Ok a f' -> clean f'.
Lemma settles_ret {A} (a : A) : settles (ret a).
Proof. intros f b f' H E. injection E as _ <-. exact H. Qed.
Lemma settles_throw {A} e : settles (@throw factory A e).
Proof. intros f b f' H E. discriminate. Qed.
Lemma settles_lift {A} (r : res A) : settles (lift r).
Proof. intros f b f' H E. destruct r; try discriminate. injection E as _ <-. exact H. Qed.
Lemma settles_bind {A B} (m : FM A) (k : A -> FM B) : settles m -> (forall a, settles (k a)) -> settles (bind m k).
Proof.
  intros H K f b f' Hf E. unfold bind in E. destruct (m f) as [a f1|e f1| | |] eqn:E1; try discriminate.
  eapply K; [|exact E]. eapply H; eauto.
Qed.
Lemma settles_make r : settles (make r).
Proof. intros f a f' H E. injection E as _ <-. exact H. Qed.
Lemma settles_compute k m : settles m -> settles (computeIfAbsent k m).
Proof.
  intros H f a f' Hf E. unfold computeIfAbsent in E. destruct (assoc k (types f)) as [[i|]|].
  - injection E as _ <-. exact Hf.
  - discriminate.
  - unfold bind in E. destruct (m f) as [i f1|e f1| | |] eqn:E1; try discriminate. cbv zeta in E.
    destruct (nth_error _ i) as [r|]; [|discriminate]. destruct (String.eqb _ _); [|discriminate]. injection E as _ <-.
    apply clean_set. eapply H; eauto.
Qed.
Lemma settles_at {A} k (body : nat -> FM A) : (forall i, settles (body i)) ->
  settles (let! p := types_at k in match p with Some i => body i | None => throw RuntimeError end).
Proof.
  intros H f a f' Hf E. unfold bind, types_at in E. destruct (assoc k (types f)) as [[i|]|]; [|discriminate|discriminate].
  eapply H; eauto.
Qed.
Lemma settles_property k t : settles (computeIfAbsent k (make_property t)).
Proof. apply settles_compute. apply settles_bind; [apply settles_lift|]. intros. apply settles_make. Qed.
Lemma settles_fetch k : settles (fetchReaderForRestricted k).
Proof.
  unfold fetchReaderForRestricted. destruct (typeIsPrimitive k); [apply settles_property|].
  apply settles_at. intros. apply settles_ret.
Qed.
Lemma settles_readers self name fds : settles (property_readers self name fds).
Proof.
  induction fds as [|fd fds IH]; cbn [property_readers]; [apply settles_ret|].
  apply settles_bind; [apply settles_lift|]. intros k.
  assert (B : forall i, settles (let! is := property_readers self name fds in ret (i :: is))).
  { intros i. apply settles_bind; [assumption|]. intros a. apply settles_ret. }
  assert (S : settles (let! p := (if String.eqb k name then ret (Some self) else types_at k) in
        match p with Some i => let! is := property_readers self name fds in ret (i :: is) | None => throw RuntimeError end)).
  { destruct (String.eqb k name); [|now apply settles_at]. apply settles_bind; [apply settles_ret|].
    intros [i|]; [apply B|apply settles_throw]. }
  destruct (f_kind fd); try exact S.
  - apply settles_bind; [|intros [i|]; [apply B|apply settles_throw]].
    apply settles_bind; [apply settles_property|]. intros. apply settles_ret.
  - now apply settles_at.
Qed.
Lemma settles_type kf t : settles (process_type kf t).
Proof.
  apply settles_compute. destruct t as [c|r].
  - apply settles_bind; [apply settles_make|]. intros self. apply settles_bind; [apply settles_readers|]. intros ks.
    apply settles_bind; [|intros; apply settles_ret].
    intros f a f' H E. unfold install_kids in E. destruct (nth_error (heap f) self) as [[]|]; try discriminate. injection E as <- <-. exact H.
  - unfold processRestricted, processMap. destruct (r_kind r).
    + apply settles_bind; [apply settles_fetch|]. intros. apply settles_make.
    + apply settles_bind; [destruct kf; (apply settles_bind; [apply settles_fetch|]; intros i; apply settles_bind; [apply settles_fetch|]; intros j; apply settles_ret)|].
      intros [i j]. apply settles_make.
    + apply settles_make.
    + apply settles_bind; [apply settles_fetch|]. intros. apply settles_make.
Qed.
Lemma settles_entry kf t : settles (process_entry kf t).
Proof.
  intros f a f' Hf E. unfold process_entry, bind in E.
  destruct (process_type kf t f) as [i f1|e f1| | |] eqn:E1; try discriminate.
  pose proof (settles_type kf t f i f1 Hf E1) as H1. unfold types_at in E.
  assert (P : assoc (n_name t) (types f1) <> None).
  { unfold process_type, computeIfAbsent in E1. destruct (assoc (n_name t) (types f)) as [[j|]|] eqn:E2; [|discriminate|].
    - injection E1 as _ <-. rewrite E2. discriminate.
    - unfold bind at 1 in E1. match type of E1 with match ?m f with _ => _ end = _ => destruct (m f) as [j f2|e f2| | |]; try discriminate end.
      cbv zeta in E1. destruct (nth_error _ j) as [r|]; [|discriminate]. destruct (String.eqb _ _); [|discriminate]. injection E1 as _ <-.
      cbn [types set_types]. rewrite assoc_put, String.eqb_refl. discriminate. }
  destruct (assoc (n_name t) (types f1)) as [p|] eqn:E3; [|now elim P]. injection E as <- <-. exact H1.
Qed.
Lemma settles_effect kf o : settles (effect kf o).
Proof.
  destruct o as [s|r]; cbn [effect].
  - unfold process. induction (List.concat (s_types s)) as [|t ts IH]; cbn [process_entries]; [apply settles_ret|].
    apply settles_bind; [apply settles_entry|]. intros. exact IH.
  - intros f a f' Hf E. unfold installCustomSerialiser, bind in E. cbn in E. injection E as _ <-. now apply (clean_set {| heap := heap f ++ [r]; types := types f; descriptors := descriptors f |}).
Qed.
Theorem successes_clean : forall kf h f, run_well kf h new_factory f -> run kf h new_factory f /\ forall k, unpoisoned f k.
Proof.
  intros kf h f H. assert (K : forall g, run_well kf h g f -> clean g -> run kf h g f /\ clean f).
  { clear H. induction h as [|o h IH]; intros g H Hg; inversion H; subst.
    - split; [constructor|assumption].
    - destruct (IH f1) as [A B]; [assumption|eapply settles_effect; eauto|]. split; [|exact B]. econstructor; eauto. left. assumption. }
  apply K; [exact H|]. exact new_unpoisoned.
Qed.

(** ** Witnesses *)

Definition a_with_b : list notation := [class_of "net.A" [field_of "b" "net.B" []]].
Definition b_alone : list notation := [class_of "net.B" [field_of "n" "int" []]].
Definition after (kf : bool) (o : op) (f : factory) : factory :=
  match effect kf o f with Ok _ f' | Throw _ f' => f' | _ => f end.

Lemma field_of_made name type requires f : Field_make name type requires "" "" true false = Ret f -> field_made (field_of name type requires).
Proof. intros H. unfold field_of. rewrite H. unfold field_made. eauto 9. Qed.

Ltac entries_proper := repeat (apply Forall_cons; [split; [repeat (apply Forall_cons; [eapply field_of_made; vm_compute; reflexivity|]); apply Forall_nil|vm_compute; reflexivity]|]); apply Forall_nil.

Lemma a_with_b_proper : Forall proper a_with_b.
Proof. entries_proper. Qed.
Lemma b_alone_proper : Forall proper b_alone.
Proof. entries_proper. Qed.

(** C26 *)
Theorem failed_schema_poisons : forall kf, exists incomplete complete_ f1,
  Forall proper (List.concat (s_types incomplete)) /\ Forall proper (List.concat (s_types complete_)) /\
  process kf incomplete new_factory = Throw RuntimeError f1 /\
  (exists f2, process kf complete_ new_factory = Ok tt f2) /\
  process kf complete_ f1 = UB.
Proof.
  intros kf. exists (schema_of [a_with_b]), (schema_of [b_alone; a_with_b]). eexists. split; [|split; [|split; [|split]]].
  - change (Forall proper (a_with_b ++ [])). rewrite app_nil_r. apply a_with_b_proper.
  - change (Forall proper (b_alone ++ a_with_b ++ [])). rewrite app_nil_r. apply Forall_app. split; [apply b_alone_proper|apply a_with_b_proper].
  - vm_compute. reflexivity.
  - eexists. vm_compute. reflexivity.
  - vm_compute. reflexivity.
Qed.

(** C28: a second serialiser for a type that is in use leaves readers with a
    dangling reference. *)
Definition has_key : list notation := [class_of "net.A" [field_of "k" "java.security.PublicKey" []]].
Theorem reinstall_dangles : forall kf, exists r f1 s f2 f3 i ks,
  is_custom r /\ installCustomSerialiser r new_factory = Ok tt f1 /\
  process kf s f1 = Ok tt f2 /\ byType f2 "net.A" = Some i /\ lock f2 i = Some (RComposite "net.A" [ks]) /\ lock f2 ks = Some r /\
  installCustomSerialiser r f2 = Ok tt f3 /\ byType f3 "net.A" = Some i /\ lock f3 i = Some (RComposite "net.A" [ks]) /\ lock f3 ks = None.
Proof.
  intros kf. exists RPublicKey, (after kf (Install RPublicKey) new_factory), (schema_of [has_key]).
  exists (after kf (Process (schema_of [has_key])) (after kf (Install RPublicKey) new_factory)).
  exists (after kf (Install RPublicKey) (after kf (Process (schema_of [has_key])) (after kf (Install RPublicKey) new_factory))), 1, 0.
  repeat split.
Qed.

(** A serialiser installed after its type was processed is not used by the
    readers made before: they keep the old one. *)
Theorem late_install_unused : forall kf, exists s r f1 f2 i j q,
  process kf s new_factory = Ok tt f1 /\ is_custom r /\ reader_type r = "net.B" /\
  installCustomSerialiser r f1 = Ok tt f2 /\ byType f2 "net.B" = Some q /\ lock f2 q = Some r /\
  byType f2 "net.A" = Some i /\ lock f2 i = Some (RComposite "net.A" [j]) /\ j <> q /\ lock f2 j = Some (RComposite "net.B" [1]).
Proof.
  intros kf. exists (schema_of [b_alone; a_with_b]), (RCustom "net.B" 0), (after kf (Process (schema_of [b_alone; a_with_b])) new_factory).
  exists (after kf (Install (RCustom "net.B" 0)) (after kf (Process (schema_of [b_alone; a_with_b])) new_factory)), 2, 0, 3.
  repeat split. discriminate.
Qed.

(** C29 *)
Theorem wildcard_undefined : forall kf, exists s, Forall proper (List.concat (s_types s)) /\ process kf s new_factory = UB.
Proof.
  intros kf. exists (schema_of [[class_of "net.A" [field_of "x" "*" []]]]). split; [|vm_compute; reflexivity].
  change (Forall proper [class_of "net.A" [field_of "x" "*" []]]). entries_proper.
Qed.

(** Two versions of a class. *)
Definition version (fp : string) (fields : list field) : notation :=
  TComposite {| c_name := "net.A"; c_label := ""; c_provides := []; c_descriptor := fp; c_fields := fields |}.
Definition version1 : notation := version "net.corda:v1" [field_of "x" "int" []].
Definition version2 : notation := version "net.corda:v2" [field_of "x" "int" []; field_of "y" "string" []].
Theorem versions_confused : forall kf, exists f1 f2 i r,
  process kf (schema_of [[version1]]) new_factory = Ok tt f1 /\ process kf (schema_of [[version2]]) f1 = Ok tt f2 /\
  byDescriptor f2 (n_descriptor version2) = Some i /\ lock f2 i = Some r /\ ~ reads f2 version2 r /\
  exists f' j r', process kf (schema_of [[version2]]) new_factory = Ok tt f' /\
    byDescriptor f' (n_descriptor version2) = Some j /\ lock f' j = Some r' /\ reads f' version2 r'.
Proof.
  intros kf. exists (after kf (Process (schema_of [[version1]])) new_factory).
  exists (after kf (Process (schema_of [[version2]])) (after kf (Process (schema_of [[version1]])) new_factory)), 0, (RComposite "net.A" [1]).
  repeat (split; [reflexivity|]). split.
  - intros (ks & E & F). injection E as <-. inversion F as [|? ? ? ? _ F2]. inversion F2.
  - exists (after kf (Process (schema_of [[version2]])) new_factory), 0, (RComposite "net.A" [1; 2]).
    repeat (split; [reflexivity|]). exists [1; 2]. split; [reflexivity|].
    repeat (apply Forall2_cons; [eexists; split; reflexivity|]). apply Forall2_nil.
Qed.

(** Colliding fingerprints: the later entry takes over. *)
Theorem fingerprints_taken : forall kf, exists s1 s2 f1 f2 i j, Forall proper (List.concat (s_types s1)) /\ Forall proper (List.concat (s_types s2)) /\
  process kf s1 new_factory = Ok tt f1 /\ process kf s2 f1 = Ok tt f2 /\
  byDescriptor f1 "net.corda:f" = Some i /\ byDescriptor f2 "net.corda:f" = Some j /\ i <> j.
Proof.
  intros kf. pose (t n := TComposite {| c_name := n; c_label := ""; c_provides := []; c_descriptor := "net.corda:f"; c_fields := [] |}).
  exists (schema_of [[t "net.A"]]), (schema_of [[t "net.B"]]), (after kf (Process (schema_of [[t "net.A"]])) new_factory).
  exists (after kf (Process (schema_of [[t "net.B"]])) (after kf (Process (schema_of [[t "net.A"]])) new_factory)), 0, 1.
  split; [|split]; [| |repeat split; discriminate].
  - apply Forall_cons; [split; [apply Forall_nil|reflexivity]|apply Forall_nil].
  - apply Forall_cons; [split; [apply Forall_nil|reflexivity]|apply Forall_nil].
Qed.

(** ** The schema of ts_mixed *)

Lemma ordered_processed kf f ts : clean f -> regular ts -> listed ts -> Forall proper ts -> closed f ts ->
  exists levels f', inserts notation dependsOn ts [] = Ret levels /\ process kf (schema_of levels) f = Ok tt f'.
Proof.
  intros Hcl Hr Hd Hp Hc.
  assert (exists levels, inserts notation dependsOn ts [] = Ret levels /\ Permutation.Permutation (List.concat levels) ts /\ dependency_order uses levels)
    as (levels & E & P & O) by now apply order_listed.
  exists levels.
  assert (IN : forall t, In t (List.concat levels) -> In t ts).
  { intros t Ht. eapply Permutation.Permutation_in; eauto. }
  assert (Hp' : Forall proper (List.concat levels)).
  { rewrite Forall_forall in Hp |- *. auto. }
  destruct (process_succeeds kf f (schema_of levels)) as (f' & H); [exact Hp'| | | |eauto].
  - destruct Hr as [Hr _]. cbn [s_types schema_of]. rewrite Forall_forall in Hr |- *. intros t Ht. apply Hr. auto.
  - intros t k _ _. apply Hcl.
  - cbn [s_types schema_of]. apply ordered_complete; [|assumption|].
    + eapply Forall_impl; [|exact Hp']. now intros t [H _].
    + intros t k Ht Hk. destruct (Hc t k (IN t Ht) Hk) as [H|[H|(u & Hu & <-)]]; auto. right. right. exists u. split; [|reflexivity].
      eapply Permutation.Permutation_in; [apply Permutation.Permutation_sym; exact P|assumption].
Qed.

Lemma ordered_processed_well kf h f ts : run_well kf h new_factory f ->
  regular ts -> listed ts -> Forall proper ts -> closed f ts ->
  exists levels f', inserts notation dependsOn ts [] = Ret levels /\ process kf (schema_of levels) f = Ok tt f'.
Proof. intros H. apply ordered_processed. exact (proj2 (successes_clean kf h f H)). Qed.

Lemma ts_mixed_proper : Forall proper ts_mixed.
Proof.
  apply nonprim_checked; [|vm_compute; reflexivity]. destruct ts_mixed_first as [[H _] _].
  eapply Forall_impl; [|exact H]. now intros t [H1 _].
Qed.
Lemma ts_mixed_closed : closed new_factory ts_mixed.
Proof. apply closed_checked. vm_compute. reflexivity. Qed.
Lemma ts_mixed_unique : one_name_per_fingerprint ts_mixed.
Proof. apply unique_checked. vm_compute. reflexivity. Qed.
