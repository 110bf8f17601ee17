(** Proofs about reading through serialisers. *)
From Verif Require Import Base Proton Schema SpecSchema Descriptors SpecAccept SpecDisplay Factory SpecFactory FactoryProofs Writer Readers Serialisers SpecSerialisers.
Import List ListNotations.
Open Scope string_scope.

Lemma found kf h f ty : run kf h new_factory f -> ours h ty -> byType f ty <> None ->
  exists i r, byType f ty = Some i /\ lock f i = Some r /\
    ((exists p, r = RProperty p /\ ty = prim_name p) \/ (exists t, In t (entries_of h) /\ n_name t = ty /\ reads f t r)).
Proof.
  intros R Ho Hn. destruct (byType f ty) as [i|] eqn:E; [|now elim Hn]. destruct (history_backed _ _ _ R _ _ E) as (r & Hr & C).
  exists i, r. split; [reflexivity|]. split; [eapply byType_lock; eauto|]. destruct C as [C|[[C D]|C]]; auto.
  elim (Ho r (installed_in _ _ C) D).
Qed.
Lemma run_proper kf h f f' : run kf h f f' -> forall t, In t (entries_of h) -> proper t.
Proof.
  induction 1 as [f|o h f f1 f2 Hc _ _ IH]; intros t Ht; [destruct Ht|]. unfold entries_of in Ht. cbn [map List.concat] in Ht.
  apply in_app_iff in Ht as [Ht|Ht]; [|now apply IH]. destruct o as [s|r]; [|destruct Ht]. cbn [careful] in Hc. rewrite Forall_forall in Hc. auto.
Qed.
Lemma found_prim kf h f p : run kf h new_factory f -> ours h (prim_name p) -> byType f (prim_name p) <> None ->
  exists i, byType f (prim_name p) = Some i /\ lock f i = Some (RProperty p).
Proof.
  intros R Ho Hn. destruct (found kf h f _ R Ho Hn) as (i & r & Hi & Hr & [(q & -> & E)|(t & Ht & E & _)]).
  - exists i. split; [exact Hi|]. rewrite Hr. destruct p, q; first [reflexivity|discriminate].
  - destruct (run_proper _ _ _ _ R t Ht) as [_ H]. rewrite E, prim_name_primitive in H. discriminate.
Qed.
Lemma through_prim {A} kf h f p (m : reader -> PM A) d : run kf h new_factory f -> ours h (prim_name p) -> byType f (prim_name p) <> None ->
  through f (prim_name p) m d = m (RProperty p) d.
Proof. intros R Ho Hn. destruct (found_prim kf h f p R Ho Hn) as (i & Hi & Hr). unfold through. now rewrite Hi, Hr. Qed.

Section Proofs.
Context (fmt : N -> string) (cr : nat -> PM any) (cs : nat -> PM string) (cw : nat -> any -> PM unit).

Theorem primitives_read : forall float kf h f v d t, run kf h new_factory f ->
  In (type_of v) [CInt; CLong; CDouble; CBool; CString] ->
  ours h (m_type (type_of v)) -> byType f (m_type (type_of v)) <> None ->
  view d = Some t -> stored v t ->
  through f (m_type (type_of v)) (reader_read cr) d = Ok (any_of v) (pn_next d) /\
  through f (m_type (type_of v)) (reader_readString fmt cs) d = Ok (text_of fmt float v) (pn_next d).
Proof.
  intros float kf h f v d t R Hv Ho Hn Ht Hs.
  assert (exists p, m_type (type_of v) = prim_name p /\ reader_read cr (RProperty p) d = Ok (any_of v) (pn_next d) /\
    reader_readString fmt cs (RProperty p) d = Ok (text_of fmt float v) (pn_next d)) as (p & E & E1 & E2).
  { destruct d as [[?|l [a ch] r] u]; [discriminate|]. injection Ht as <-. unfold stored in Hs. cbn [tree_atom] in Hs.
    destruct v, a; try contradiction; subst; cbn in Hv; try (exfalso; intuition discriminate);
      [exists PInt|exists PLong|exists PDouble|exists PBoolean|exists PString]; auto. }
  rewrite E in *. rewrite !(through_prim kf h) by assumption. auto.
Qed.

Theorem wrong_type_read : forall kf h f ty d, run kf h new_factory f -> In ty [CInt; CLong; CDouble; CBool] ->
  ours h (m_type ty) -> byType f (m_type ty) <> None -> none_stored ty (view d) ->
  through f (m_type ty) (reader_read cr) d = Ok (zero ty) (pn_next d).
Proof.
  intros kf h f ty d R Hty Ho Hn Hs.
  assert (exists p, m_type ty = prim_name p /\ reader_read cr (RProperty p) d = Ok (zero ty) (pn_next d)) as (p & E & E1).
  { destruct Hty as [<-|[<-|[<-|[<-|[]]]]]; [exists PInt|exists PLong|exists PDouble|exists PBoolean]; (split; [reflexivity|]);
      destruct d as [[?|l [a ch] r] u]; try reflexivity; destruct a; try reflexivity.
    - elim (Hs _ (OfInt z) eq_refl eq_refl). reflexivity.
    - elim (Hs _ (OfLong z) eq_refl eq_refl). reflexivity.
    - elim (Hs _ (OfDouble bits) eq_refl eq_refl). reflexivity.
    - elim (Hs _ (OfBool b) eq_refl eq_refl). reflexivity. }
  rewrite E in *. now rewrite (through_prim kf h) by assumption.
Qed.

Theorem string_checked : forall kf h f d, run kf h new_factory f -> ours h "string" -> byType f "string" <> None ->
  (forall t s, view d = Some t -> ~ calls s t) ->
  through f "string" (reader_read cr) d = Throw RuntimeError (pn_next d) /\
  through f "string" (reader_readString fmt cs) d = Throw RuntimeError (pn_next d).
Proof.
  intros kf h f d R Ho Hn Hs. change "string" with (prim_name PString) in *. rewrite !(through_prim kf h) by assumption.
  assert (E : readAndNext_string false d = Throw RuntimeError (pn_next d)).
  { destruct d as [[?|l [a ch] r] u]; [reflexivity|]. destruct a; try reflexivity; elim (Hs _ s eq_refl); first [left; reflexivity|right; reflexivity]. }
  cbn [reader_read reader_readString]. unfold bind. now rewrite E.
Qed.

Theorem float_read : forall kf h f d, run kf h new_factory f -> ours h "float" -> byType f "float" <> None ->
  through f "float" (reader_read cr) d = Throw RuntimeError d /\
  through f "float" (reader_readString fmt cs) d = Throw RuntimeError d.
Proof.
  intros kf h f d R Ho Hn. change "float" with (prim_name PFloat) in *. rewrite !(through_prim kf h) by assumption. auto.
Qed.
Theorem binary_read : forall kf h f d t s, run kf h new_factory f -> ours h "binary" -> byType f "binary" <> None ->
  view d = Some t -> tree_atom t = ABinary s ->
  through f "binary" (reader_read cr) d = Ok (AnyBool false) (pn_next d) /\
  through f "binary" (reader_readString fmt cs) d = Throw RuntimeError d.
Proof.
  intros kf h f d t s R Ho Hn Hv Ht. change "binary" with (prim_name PBinary) in *. rewrite !(through_prim kf h) by assumption.
  destruct d as [[?|l [a ch] r] u]; [discriminate|]. injection Hv as <-. cbn in Ht. subst a. auto.
Qed.

Theorem types_read : forall kf h f ty d, run kf h new_factory f -> ours h ty -> (forall p, ty <> prim_name p) -> byType f ty <> None ->
  through f ty (reader_read cr) d = Ok (AnyInt 1) d.
Proof.
  intros kf h f ty d R Ho Hp Hn. destruct (found kf h f _ R Ho Hn) as (i & r & Hi & Hr & [(q & _ & E)|(t & Ht & E & H)]); [elim (Hp q E)|].
  unfold through. rewrite Hi, Hr. destruct t as [c|x]; cbn [reads] in H.
  - destruct H as (ks & -> & _). reflexivity.
  - destruct (r_kind x); [destruct H as (? & ? & -> & _)|destruct H as (? & ? & ? & ? & -> & _)|subst r|destruct H as (? & ? & -> & _)]; reflexivity.
Qed.
Theorem types_text : forall kf h f ty d t, run kf h new_factory f -> ours h ty -> (forall p, ty <> prim_name p) -> byType f ty <> None ->
  view d = Some t ->
  through f ty (reader_readString fmt cs) d = Ok "Composite" (pn_next d) \/ through f ty (reader_readString fmt cs) d = Ok "hello" d.
Proof.
  intros kf h f ty d t0 R Ho Hp Hn Hv. destruct (found kf h f _ R Ho Hn) as (i & r & Hi & Hr & [(q & _ & E)|(t & Ht & E & H)]); [elim (Hp q E)|].
  unfold through. rewrite Hi, Hr. destruct t as [c|x]; cbn [reads] in H.
  - destruct H as (ks & -> & _). left. destruct d as [[?|l [a ch] [|[a2 ch2] r]] u]; [discriminate| |].
    + unfold reader_readString, next_, bind, auto_enter, finally. cbn. destruct ch; reflexivity.
    + unfold reader_readString, next_, bind, auto_enter, finally. cbn. destruct ch2; reflexivity.
  - right. destruct (r_kind x); [destruct H as (? & ? & -> & _)|destruct H as (? & ? & ? & ? & -> & _)|subst r|destruct H as (? & ? & -> & _)]; reflexivity.
Qed.

Theorem nothing_written : forall kf h f ty v d, run kf h new_factory f -> ours h ty -> byType f ty <> None ->
  through f ty (fun r => reader_write cw r v) d = Ok tt d.
Proof.
  intros kf h f ty v d R Ho Hn. destruct (found kf h f _ R Ho Hn) as (i & r & Hi & Hr & [(q & -> & E)|(t & Ht & E & H)]); unfold through; rewrite Hi, Hr; [reflexivity|].
  destruct t as [c|x]; cbn [reads] in H.
  - destruct H as (ks & -> & _). reflexivity.
  - destruct (r_kind x); [destruct H as (? & ? & -> & _)|destruct H as (? & ? & ? & ? & -> & _)|subst r|destruct H as (? & ? & -> & _)]; reflexivity.
Qed.
End Proofs.

Theorem unknown_undefined : forall A (m : reader -> PM A) kf h f ty d, run kf h new_factory f -> ours h ty ->
  (forall t, In t (entries_of h) -> n_name t <> ty) -> (forall p, ty <> prim_name p) ->
  through f ty m d = UB.
Proof.
  intros A m kf h f ty d R Ho Ht Hp. unfold through. destruct (byType f ty) as [i|] eqn:E; [|reflexivity]. exfalso.
  destruct (history_backed kf h f R ty i E) as (r & _ & [(p & _ & H)|[(H1 & H2)|(t & H1 & H2 & _)]]).
  - exact (Hp p H).
  - exact (Ho r (installed_in _ _ H1) H2).
  - exact (Ht t H1 H2).
Qed.
