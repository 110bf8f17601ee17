(** Proofs: the exact outcome of processing a schema. *)
From Coq Require Import Lia.
From Verif Require Import Base TypeNames Schema SpecSchema SchemaProofs Factory SpecFactory FactoryProofs SpecSupply.
Import List ListNotations.
Open Scope string_scope.

(** ** Lookups *)
Definition avail (f : factory) (k : string) : Prop := readable_prim k \/ byType f k <> None.
Definition same (f f' : factory) : Prop := forall q, (avail f' q <-> avail f q) /\ (unpoisoned f' q <-> unpoisoned f q).
(** The lookup of [k] has failed. *)
Definition marked (f : factory) (k : string) (f' : factory) : Prop :=
  forall q, (avail f' q <-> avail f q) /\ (unpoisoned f' q <-> unpoisoned f q /\ ~ (q = k /\ typeIsPrimitive k = false)).
Definition sound (f : factory) : Prop := forall k, typeIsPrimitive k = true -> unpoisoned f k.

Lemma same_refl f : same f f.
Proof. intros q. tauto. Qed.
Lemma same_trans a b c : same a b -> same b c -> same a c.
Proof. intros H1 H2 q. destruct (H1 q), (H2 q). tauto. Qed.
Lemma same_marked a b k c : same a b -> marked b k c -> marked a k c.
Proof. intros H1 H2 q. destruct (H1 q), (H2 q). tauto. Qed.
Lemma same_sound f f' : same f f' -> sound f -> sound f'.
Proof. intros H S k Hk. apply H. auto. Qed.
Lemma marked_sound f k f' : marked f k f' -> sound f -> sound f'.
Proof. intros H S q Hq. apply H. split; [auto|]. intros [-> ?]. congruence. Qed.
Lemma same_types f f' : types f' = types f -> same f f'.
Proof. intros H q. unfold avail, unpoisoned, byType. rewrite H. tauto. Qed.

Lemma avail_dec f k : avail f k \/ ~ avail f k.
Proof.
  unfold avail. destruct (makePropertyReader_cases k) as [(p & -> & _)|H]; [left; left; now exists p|].
  destruct (byType f k) eqn:E; [left; right; discriminate|]. right. intros [(p & ->)|H']; [|congruence].
  rewrite makePropertyReader_prim in H. discriminate.
Qed.
Lemma byType_cases f k : (exists i, assoc k (types f) = Some (Some i) /\ byType f k = Some i) \/
  (assoc k (types f) = Some None /\ byType f k = None) \/ (absent k f /\ byType f k = None).
Proof. unfold byType, absent. destruct (assoc k (types f)) as [[i|]|]; eauto. Qed.

Lemma put_prim f k i : readable_prim k -> absent k f -> same f (set_types (put k (Some i) (types f)) f).
Proof.
  intros Hk Ha q. unfold avail, unpoisoned. rewrite byType_put. cbn [types set_types]. rewrite assoc_put.
  destruct (String.eqb_spec q k) as [-> |]; [|tauto]. unfold absent in Ha. rewrite Ha. intuition discriminate.
Qed.

Lemma property_found k f : typeIsPrimitive k = true -> sound f -> avail f k ->
  exists i f', computeIfAbsent k (make_property k) f = Ok i f' /\ same f f'.
Proof.
  intros Hp S H. destruct (property_cases k f) as [(i & E & ->)|[(E & _)|[(E & Hm & _)|(p & f1 & E & Hk & H1 & ->)]]].
  - exists i, f. split; [reflexivity|apply same_refl].
  - elim (S k Hp). exact E.
  - exfalso. destruct H as [(p & ->)|H]; [rewrite makePropertyReader_prim in Hm; discriminate|]. apply H. now apply absent_byType.
  - eexists _, _. split; [reflexivity|]. injection H1 as <-.
    eapply same_trans; [|apply put_prim; [exists p; exact Hk|exact E]]. now apply same_types.
Qed.
Lemma property_missing k f : typeIsPrimitive k = true -> sound f -> ~ avail f k ->
  exists f', computeIfAbsent k (make_property k) f = Throw RuntimeError f' /\ marked f k f'.
Proof.
  intros Hp S H. destruct (property_cases k f) as [(i & E & _)|[(E & _)|[(E & Hm & ->)|(p & f1 & E & Hk & _)]]].
  - elim H. right. apply byType_spec in E. congruence.
  - elim (S k Hp). exact E.
  - exists f. split; [reflexivity|]. intros q. split; [tauto|]. split; [intros; split; [assumption|intros [_ ?]; congruence]|tauto].
  - elim H. left. now exists p.
Qed.

Lemma at_found k f : typeIsPrimitive k = false -> avail f k -> exists i, types_at k f = Ok (Some i) f.
Proof.
  intros Hp [H|H]; [apply readable_primitive in H; congruence|]. now apply types_at_ok.
Qed.
Lemma at_missing k f : typeIsPrimitive k = false -> ~ avail f k -> exists f', types_at k f = Ok None f' /\ marked f k f'.
Proof.
  intros Hp H. unfold types_at. destruct (byType_cases f k) as [(i & _ & E)|[(E & _)|(E & _)]].
  - elim H. right. congruence.
  - rewrite E. exists f. split; [reflexivity|]. intros q. split; [tauto|]. split; [|tauto]. intros U. split; [assumption|].
    intros [-> _]. now apply U.
  - pose proof E as E'. unfold absent in E'. rewrite E'. eexists. split; [reflexivity|]. intros q. split.
    + unfold avail. now rewrite byType_null.
    + unfold unpoisoned. cbn [types set_types]. rewrite assoc_put. destruct (String.eqb_spec q k) as [-> |n].
      * split; [congruence|]. intros [_ N]. exfalso. apply N. auto.
      * split; [|tauto]. intros U. split; [assumption|]. intros [-> _]. contradiction.
Qed.

Lemma fetch_found k f : sound f -> avail f k -> exists i f', fetchReaderForRestricted k f = Ok i f' /\ same f f'.
Proof.
  intros S H. unfold fetchReaderForRestricted. destruct (typeIsPrimitive k) eqn:E; [now apply property_found|].
  destruct (at_found k f E H) as (i & Hi). exists i, f. unfold bind. rewrite Hi. split; [reflexivity|apply same_refl].
Qed.
Lemma fetch_missing k f : sound f -> ~ avail f k -> exists f', fetchReaderForRestricted k f = Throw RuntimeError f' /\ marked f k f'.
Proof.
  intros S H. unfold fetchReaderForRestricted. destruct (typeIsPrimitive k) eqn:E; [now apply property_missing|].
  destruct (at_missing k f E H) as (f' & Hi & M). exists f'. unfold bind. rewrite Hi. split; [reflexivity|exact M].
Qed.

(** ** Entries *)
(** What a loop over the names [ks] comes to. *)
Definition comes_to {A} (ok : string -> Prop) (ks : list string) (f : factory) (o : outcome factory A) : Prop :=
  (Forall ok ks /\ exists a f', o = Ok a f' /\ same f f') \/
  (exists ks1 k ks2 f', ks = (ks1 ++ k :: ks2)%list /\ Forall ok ks1 /\ ~ ok k /\ o = Throw RuntimeError f' /\ marked f k f').

Lemma readers_outcome self name fds : typeIsPrimitive name = false -> Forall field_made fds ->
  forall ks, Forall2 (fun fd k => resolvedType fd = Ret k) fds ks -> forall f, sound f ->
  comes_to (fun k => k = name \/ avail f k) ks f (property_readers self name fds f).
Proof.
  intros Hn Hf ks HF. revert Hf. induction HF as [|fd k fds ks Hk HF IH]; intros Hf f S; cbn [property_readers].
  - left. split; [constructor|]. eexists _, _. split; [reflexivity|apply same_refl].
  - apply Forall_cons_iff in Hf as [Hm Hf]. unfold bind at 1. rewrite Hk. cbn [lift].
    set (look := match f_kind fd with
           | PrimitiveField => let! i := computeIfAbsent k (make_property (f_type fd)) in ret (Some i)
           | CustomField => types_at k
           | _ => if String.eqb k name then ret (Some self) else types_at k
           end).
    assert (Hd : (k = name \/ avail f k) \/ ~ (k = name \/ avail f k)).
    { destruct (String.eqb_spec k name); [auto|]. destruct (avail_dec f k); [auto|]. right. tauto. }
    destruct Hd as [Hd|Hd].
    + assert (L : exists i f1, look f = Ok (Some i) f1 /\ same f f1).
      { subst look. destruct (field_kind_prim fd k Hm Hk) as [(K & Ht & Hp)|(K & Hp)].
        - rewrite K, Ht. destruct Hd as [-> |Hd]; [congruence|]. destruct (property_found k f Hp S Hd) as (i & f1 & E & C).
          exists i, f1. unfold bind. rewrite E. auto.
        - assert (L : exists i f1, (if String.eqb k name then ret (Some self) else types_at k) f = Ok (Some i) f1 /\ same f f1).
          { destruct (String.eqb_spec k name) as [-> |n].
            - exists self, f. split; [reflexivity|apply same_refl].
            - destruct Hd as [Hd|Hd]; [contradiction|]. destruct (at_found k f Hp Hd) as (i & E). exists i, f. split; [exact E|apply same_refl]. }
          destruct K as [-> |[-> | ->]]; exact L. }
      destruct L as (i & f1 & E & C). unfold bind at 1. rewrite E.
      destruct (IH Hf f1 (same_sound _ _ C S)) as [(HA & is & f2 & E2 & C2)|(ks1 & q & ks2 & f2 & -> & HA & HN & E2 & C2)].
      * left. split.
        -- constructor; [exact Hd|]. eapply Forall_impl; [|exact HA]. intros q [Hq|Hq]; [auto|]. right. now apply C.
        -- exists (i :: is), f2. unfold bind. rewrite E2. split; [reflexivity|]. eapply same_trans; eauto.
      * right. exists (k :: ks1), q, ks2, f2. split; [reflexivity|]. split.
        -- constructor; [exact Hd|]. eapply Forall_impl; [|exact HA]. intros p [Hp|Hp]; [auto|]. right. now apply C.
        -- split; [|split; [unfold bind; now rewrite E2|eapply same_marked; eauto]].
           intros [H|H]; apply HN; [auto|]. right. now apply C.
    + right. exists [], k, ks. 
      assert (L : (exists f1, look f = Ok None f1 /\ marked f k f1) \/ (exists f1, look f = Throw RuntimeError f1 /\ marked f k f1)).
      { subst look. assert (Ha : ~ avail f k) by tauto. assert (Hkn : k <> name) by tauto.
        destruct (field_kind_prim fd k Hm Hk) as [(K & Ht & Hp)|(K & Hp)].
        - rewrite K, Ht. right. destruct (property_missing k f Hp S Ha) as (f1 & E & C). exists f1. unfold bind. rewrite E. auto.
        - left. destruct (at_missing k f Hp Ha) as (f1 & E & C). exists f1. split; [|exact C].
          apply String.eqb_neq in Hkn. rewrite Hkn. destruct K as [-> |[-> | ->]]; exact E. }
      destruct L as [(f1 & E & C)|(f1 & E & C)]; exists f1; (split; [reflexivity|]; split; [constructor|]; split; [exact Hd|]; split; [|exact C]);
        unfold bind at 1; rewrite E; reflexivity.
Qed.

Lemma looked_up_fields fds ks : Forall field_made fds -> (forall fd, In fd fds -> f_type fd = "*" -> f_requires fd <> []) ->
  Forall2 (fun fd k => property_type fd = Some k) fds ks -> Forall2 (fun fd k => resolvedType fd = Ret k) fds ks.
Proof.
  intros Hm Hr HF. revert Hm Hr. induction HF as [|fd k fds ks Hk HF IH]; intros Hm Hr; constructor.
  - apply Forall_cons_iff in Hm as [Hm _]. destruct (resolvedType_spec fd Hm (Hr fd (or_introl eq_refl))) as (t & H1 & H2). congruence.
  - apply IH; [now apply Forall_cons_iff in Hm|]. intros fd' H. apply Hr. now right.
Qed.

(** The order in which an entry looks names up. *)
Lemma looked_up_named kf t ks : looked_up kf t ks -> forall k, In k ks <-> named_by t k.
Proof.
  intros H k. destruct t as [c|x]; cbn [looked_up named_by] in *.
  - split.
    + intros Hk. induction H as [|fd q fds ks Hq HF IH]; [destruct Hk|]. destruct Hk as [<- |Hk].
      * exists fd. split; [now left|exact Hq].
      * destruct (IH Hk) as (fd' & H1 & H2). exists fd'. split; [now right|exact H2].
    + intros (fd & H1 & H2). induction H as [|fd' q fds ks Hq HF IH]; [destruct H1|]. destruct H1 as [-> |H1].
      * left. congruence.
      * right. auto.
  - destruct (r_kind x); subst ks; try tauto. destruct kf; [tauto|]. symmetry. apply in_rev.
Qed.
Lemma looked_up_some kf t : made t -> resolvable t -> exists ks, looked_up kf t ks.
Proof.
  destruct t as [c|x]; cbn [made resolvable looked_up]; intros Hm Hr.
  - induction (c_fields c) as [|fd fds IH]; [exists []; constructor|].
    apply Forall_cons_iff in Hm as [Hm1 Hm]. destruct (resolvedType_spec fd Hm1 (Hr fd (or_introl eq_refl))) as (t & _ & H2).
    destruct IH as (ks & Hks); [exact Hm|intros; apply Hr; auto; now right|]. exists (t :: ks). now constructor.
  - destruct (r_kind x); eauto.
Qed.

Definition fits (f : factory) (t : notation) (k : string) : Prop := own t k \/ avail f k.

Lemma fetches_outcome f a b : sound f ->
  let o := (let! i := fetchReaderForRestricted a in let! j := fetchReaderForRestricted b in ret (i, j)) f in
  comes_to (avail f) [a; b] f o.
Proof.
  intros S. cbv zeta. destruct (avail_dec f a) as [Ha|Ha].
  - destruct (fetch_found a f S Ha) as (i & f1 & E1 & C1). unfold bind at 1. rewrite E1.
    pose proof (same_sound _ _ C1 S) as S1. destruct (avail_dec f b) as [Hb|Hb].
    + assert (Hb1 : avail f1 b) by now apply C1. destruct (fetch_found b f1 S1 Hb1) as (j & f2 & E2 & C2).
      left. split; [auto|]. exists (i, j), f2. unfold bind. rewrite E2. split; [reflexivity|]. eapply same_trans; eauto.
    + assert (Hb1 : ~ avail f1 b) by (intros H; now apply Hb, C1). destruct (fetch_missing b f1 S1 Hb1) as (f2 & E2 & C2).
      right. exists [a], b, [], f2. split; [reflexivity|]. split; [auto|]. split; [exact Hb|]. unfold bind. rewrite E2.
      split; [reflexivity|]. eapply same_marked; eauto.
  - destruct (fetch_missing a f S Ha) as (f1 & E1 & C1). right. exists [], a, [b], f1.
    split; [reflexivity|]. split; [constructor|]. split; [exact Ha|]. unfold bind. rewrite E1. auto.
Qed.
Lemma fetch_outcome f a : sound f -> comes_to (avail f) [a] f (fetchReaderForRestricted a f).
Proof.
  intros S. destruct (avail_dec f a) as [Ha|Ha].
  - destruct (fetch_found a f S Ha) as (i & f1 & E1 & C1). left. split; [auto|]. eauto.
  - destruct (fetch_missing a f S Ha) as (f1 & E1 & C1). right. exists [], a, [], f1. auto.
Qed.
Lemma comes_to_bind {A B} ok ks f (m : FM A) (k : A -> FM B) : comes_to ok ks f (m f) ->
  (forall a f1, m f = Ok a f1 -> exists b f2, k a f1 = Ok b f2 /\ same f1 f2) -> comes_to ok ks f (bind m k f).
Proof.
  intros [(HA & a & f1 & E & C)|(ks1 & q & ks2 & f1 & -> & HA & HN & E & C)] H.
  - left. split; [exact HA|]. destruct (H a f1 E) as (b & f2 & E2 & C2). exists b, f2. unfold bind. rewrite E. split; [exact E2|].
    eapply same_trans; eauto.
  - right. exists ks1, q, ks2, f1. unfold bind. rewrite E. auto 6.
Qed.
Lemma comes_to_ok {A} (ok ok' : string -> Prop) ks f (o : outcome factory A) : (forall k, ok k <-> ok' k) ->
  comes_to ok ks f o -> comes_to ok' ks f o.
Proof.
  intros H [(HA & X)|(ks1 & q & ks2 & f1 & -> & HA & HN & X)].
  - left. split; [|exact X]. eapply Forall_impl; [|exact HA]. intros k. apply H.
  - right. exists ks1, q, ks2, f1. split; [reflexivity|]. split; [eapply Forall_impl; [|exact HA]; intros k; apply H|].
    split; [|exact X]. intros Hq. now apply HN, H.
Qed.
Lemma make_same r f : exists i f', make r f = Ok i f' /\ same f f'.
Proof. eexists _, _. split; [reflexivity|]. now apply same_types. Qed.

Lemma make_entry_outcome kf t ks f : made t -> typeIsPrimitive (n_name t) = false -> resolvable t -> looked_up kf t ks -> sound f ->
  comes_to (fits f t) ks f (make_entry kf t f).
Proof.
  destruct t as [c|x]; intros Hm Hp Hrs HL S; cbn [make_entry n_name] in *.
  - unfold processComposite. cbn [made resolvable looked_up] in *. unfold bind at 1. unfold make.
    set (f1 := {| heap := heap f ++ [RComposite (c_name c) []]; types := types f; descriptors := descriptors f |}).
    assert (S1 : same f f1) by now apply same_types.
    pose proof (readers_outcome (List.length (heap f)) (c_name c) (c_fields c) Hp Hm ks (looked_up_fields _ _ Hm Hrs HL) f1 (same_sound _ _ S1 S)) as H.
    assert (H' : comes_to (fits f (TComposite c)) ks f1
       (property_readers (List.length (heap f)) (c_name c) (c_fields c) f1)).
    { eapply comes_to_ok; [|exact H]. intros k. unfold fits, own. cbn [n_name is_restricted]. destruct (S1 k). tauto. }
    clear H. destruct H' as [(HA & is & f2 & E & C)|(ks1 & q & ks2 & f2 & -> & HA & HN & E & C)].
    + left. split; [exact HA|]. pose proof (property_readers_keeps (ext f1) (List.length (heap f)) (c_name c) (c_fields c) (stable_ext f1) Hm f1 (ext_refl f1)) as X.
      rewrite E in X. cbn [lands] in X. pose proof (proj1 X _ _ (nth_error_snoc (heap f) (RComposite (c_name c) []))) as K.
      unfold bind at 1. rewrite E. unfold bind at 1, install_kids. rewrite K. eexists _, _. split; [reflexivity|].
      eapply same_trans; [exact S1|]. eapply same_trans; [exact C|]. now apply same_types.
    + right. exists ks1, q, ks2, f2. unfold bind at 1. rewrite E. repeat (split; [solve [auto]|]). eapply same_marked; eauto.
  - assert (Hown : forall k, avail f k <-> fits f (TRestricted x) k).
    { intros k. unfold fits, own. cbn [is_restricted]. tauto. }
    pose proof (made_of x Hm) as Ho. unfold processRestricted, processMap. cbn [looked_up] in HL. destruct (r_kind x) eqn:K.
    + destruct Ho as (e & He). rewrite He in HL. subst ks. unfold of0. rewrite He. cbn [nth].
      apply comes_to_bind; [|intros; apply make_same]. eapply comes_to_ok; [exact Hown|]. now apply fetch_outcome.
    + destruct Ho as (k & v & He). rewrite He in HL. unfold of0, of1. rewrite He. cbn [nth].
      apply comes_to_bind; [|intros [a b] f1 _; apply make_same]. eapply comes_to_ok; [exact Hown|]. destruct kf; subst ks.
      * now apply fetches_outcome.
      * cbn [rev app]. pose proof (fetches_outcome f v k S) as H. cbv zeta in H. unfold comes_to in *. unfold bind in *.
        destruct (fetchReaderForRestricted v f) as [i f1|? ?| | |]; try exact H.
        destruct (fetchReaderForRestricted k f1) as [j f2|? ?| | |]; try exact H.
        destruct H as [(HA & a & f' & E & C)|(ks1 & q & ks2 & f' & _ & _ & _ & E & _)]; [|discriminate].
        injection E as _ <-. left. split; [exact HA|]. eexists _, _. split; [reflexivity|exact C].
    + subst ks. left. split; [constructor|]. apply make_same.
    + destruct Ho as (e & He). rewrite He in HL. subst ks. unfold of0. rewrite He. cbn [nth].
      apply comes_to_bind; [|intros; apply make_same]. eapply comes_to_ok; [exact Hown|]. now apply fetch_outcome.
Qed.

(** One entry. *)
Definition grown (f : factory) (t : notation) (f' : factory) : Prop :=
  forall q, (avail f' q <-> avail f q \/ q = n_name t) /\ (unpoisoned f' q <-> unpoisoned f q).

Lemma nonprim_avail f t : proper t -> (avail f (n_name t) <-> byType f (n_name t) <> None).
Proof. intros [_ Hp]. change (typeIsPrimitive (n_name t) = false) in Hp. unfold avail. split; [|auto]. intros [H|H]; [apply readable_primitive in H; congruence|exact H]. Qed.

Lemma entry_outcome kf t ks f : proper t -> resolvable t -> looked_up kf t ks -> sound f ->
  (unpoisoned f (n_name t) /\ (avail f (n_name t) \/ Forall (fits f t) ks) /\ exists f', process_entry kf t f = Ok tt f' /\ grown f t f') \/
  (unpoisoned f (n_name t) /\ ~ avail f (n_name t) /\ exists ks1 k ks2 f', ks = (ks1 ++ k :: ks2)%list /\ Forall (fits f t) ks1 /\ ~ fits f t k /\
     process_entry kf t f = Throw RuntimeError f' /\ marked f k f') \/
  (~ unpoisoned f (n_name t) /\ process_entry kf t f = UB).
Proof.
  intros Hpr Hr HL S. pose proof (proper_okent _ Hpr) as Ho. pose proof Hpr as [Hm Hp].
  assert (D : forall f1 i, byType f1 (n_name t) = Some i -> exists m, types_at (n_name t) f1 = Ok (Some i) f1 /\ m = f1).
  { intros f1 i Hi. apply byType_spec in Hi. unfold types_at. rewrite Hi. eauto. }
  destruct (process_type_cases kf t f (proj1 Ho) (proj2 Ho)) as [(j & E & P)|[(E & P)|(Ha & C)]].
  - left. assert (Hb : byType f (n_name t) = Some j) by now apply byType_spec.
    split; [unfold unpoisoned; congruence|]. split; [left; right; congruence|]. eexists. split.
    + unfold process_entry, bind. rewrite P. destruct (D f j Hb) as (_ & -> & _). reflexivity.
    + intros q. cbn. split; [|reflexivity]. unfold avail, byType. cbn [types set_descriptors]. split; [tauto|].
      intros [H| ->]; [exact H|]. right. unfold byType in Hb. congruence.
  - right. right. split; [intros U; now apply U|]. unfold process_entry, bind. now rewrite P.
  - assert (U : unpoisoned f (n_name t)) by (unfold unpoisoned; unfold absent in Ha; congruence).
    assert (Hna : ~ avail f (n_name t)).
    { intros H. apply (nonprim_avail f t Hpr) in H. apply H. now apply absent_byType. }
    destruct (make_entry_outcome kf t ks f Hm Hp Hr HL S) as [(HA & i & f1 & E & C1)|(ks1 & q & ks2 & f1 & -> & HA & HN & E & C1)].
    + left. split; [exact U|]. split; [right; exact HA|].
      destruct C as [(j & f2 & r & E' & _ & _ & _ & Ha' & P)|[(e & f2 & E' & _)|[(_ & E')|[(_ & E')|(_ & E')]]]]; rewrite E in E'; try discriminate.
      injection E' as <- <-. eexists. split.
      * unfold process_entry, bind. rewrite P. unfold types_at. cbn [types set_types]. rewrite assoc_put_same. reflexivity.
      * intros q. destruct (C1 q) as [A1 A2]. split.
        -- unfold avail. cbn. change (byType (set_descriptors _ ?g) q) with (byType g q). rewrite byType_put.
           destruct (String.eqb_spec q (n_name t)) as [-> |n]; [intuition discriminate|]. unfold avail in A1. tauto.
        -- unfold unpoisoned. cbn [types set_types set_descriptors]. rewrite assoc_put. destruct (String.eqb_spec q (n_name t)) as [-> |n].
           ++ unfold absent in Ha. rewrite Ha. split; discriminate.
           ++ exact A2.
    + right. left. split; [exact U|]. split; [exact Hna|]. exists ks1, q, ks2, f1. split; [reflexivity|]. split; [exact HA|]. split; [exact HN|].
      split; [|exact C1].
      destruct C as [(j & f2 & r & E' & _)|[(e & f2 & E' & P)|[(_ & E')|[(_ & E')|(_ & E')]]]]; rewrite E in E'; try discriminate.
      injection E' as <- <-. unfold process_entry, bind. now rewrite P.
Qed.

(** ** Schemas *)
Definition after_entries (f : factory) (before : list notation) (f' : factory) : Prop :=
  forall q, (avail f' q <-> available f before q) /\ (unpoisoned f' q <-> unpoisoned f q).

Lemma available_avail f before q : available f before q <-> avail f q \/ exists u, In u before /\ n_name u = q.
Proof. unfold available, avail. tauto. Qed.
Lemma after_nil f : after_entries f [] f.
Proof. intros q. rewrite available_avail. split; [|tauto]. split; [auto|]. intros [H|(u & [] & _)]; exact H. Qed.
Lemma after_cons f t f1 before f2 : grown f t f1 -> after_entries f1 before f2 -> after_entries f (t :: before) f2.
Proof.
  intros G A q. destruct (G q) as [G1 G2], (A q) as [A1 A2]. split; [|tauto]. rewrite A1, !available_avail, G1. split.
  - intros [[H|H]|(u & H1 & H2)]; [auto| |].
    + right. exists t. split; [now left|auto].
    + right. exists u. split; [now right|exact H2].
  - intros [H|(u & [<- |H1] & H2)]; auto. right. eauto.
Qed.
Lemma available_grown f t f1 before q : grown f t f1 -> (available f1 before q <-> available f (t :: before) q).
Proof.
  intros G. destruct (G q) as [G1 G2]. rewrite !available_avail, G1. split.
  - intros [[H|H]|(u & H1 & H2)]; [auto| |].
    + right. exists t. split; [now left|auto].
    + right. exists u. split; [now right|exact H2].
  - intros [H|(u & [<- |H1] & H2)]; auto. right. eauto.
Qed.
Lemma satisfied_grown f t f1 before u : grown f t f1 -> (satisfied f1 before u <-> satisfied f (t :: before) u).
Proof.
  intros G. unfold satisfied. rewrite (available_grown f t f1 before _ G). split; intros [H|H]; auto; right; intros k Hk;
    destruct (H k Hk); auto; right; now apply (available_grown f t f1).
Qed.
Lemma supplied_nil f : supplied f [].
Proof. intros before t behind H. destruct before; discriminate. Qed.
Lemma supplied_cons f t f1 ts : grown f t f1 -> (supplied f (t :: ts) <-> satisfied f [] t /\ supplied f1 ts).
Proof.
  intros G. split.
  - intros H. split; [now apply (H [] t ts)|]. intros before u behind ->. apply (satisfied_grown f t f1 _ _ G). now apply (H (t :: before) u behind).
  - intros [H1 H2] before u behind E. destruct before as [|b before]; cbn in E; injection E as <- E; [subst; exact H1|].
    apply (satisfied_grown f t f1 _ _ G). eapply H2; eauto.
Qed.
Lemma satisfied_first f t ks kf : looked_up kf t ks -> (satisfied f [] t <-> avail f (n_name t) \/ Forall (fits f t) ks).
Proof.
  intros HL. unfold satisfied. rewrite available_avail, Forall_forall.
  assert (E : forall q, available f [] q <-> avail f q).
  { intros q. rewrite available_avail. split; [intros [H|(u & [] & _)]; exact H|auto]. }
  split.
  - intros [[H|(u & [] & _)]|H]; [auto|]. right. intros k Hk. apply (looked_up_named _ _ _ HL) in Hk. destruct (H k Hk) as [|Ha]; [left; assumption|].
    right. now apply E.
  - intros [H|H]; [auto|]. right. intros k Hk. apply (looked_up_named _ _ _ HL) in Hk. destruct (H k Hk) as [|Ha]; [auto|]. right. now apply E.
Qed.
Lemma unspoiled_spec f ts : unspoiled f ts <-> forall t, In t ts -> unpoisoned f (n_name t).
Proof.
  unfold unspoiled, spoiled, unpoisoned. split; intros H t Ht; specialize (H t Ht); [|tauto].
  intros E. apply H. intros N. contradiction.
Qed.
Lemma lacks_grown kf f t f1 before u k : grown f t f1 -> satisfied f [] t -> lacks kf f1 before u k -> lacks kf f (t :: before) u k.
Proof.
  intros G Hs (H1 & H2 & ks1 & ks2 & H3 & H4 & H5 & H6).
  split; [now apply (supplied_cons f t f1)|]. split; [intros H; now apply H2, (available_grown f t f1)|]. exists ks1, ks2.
  split; [exact H3|]. split; [intros q Hq; destruct (H4 q Hq); [auto|right; now apply (available_grown f t f1)]|].
  split; [exact H5|]. intros H. now apply H6, (available_grown f t f1).
Qed.

Definition left_behind (f : factory) (before : list notation) (k : string) (f' : factory) : Prop :=
  forall q, (avail f' q <-> available f before q) /\ (unpoisoned f' q <-> unpoisoned f q /\ ~ (q = k /\ typeIsPrimitive k = false)).
Inductive verdict (kf : bool) (f : factory) (ts : list notation) : outcome factory unit -> Prop :=
| processed f' : supplied f ts -> unspoiled f ts -> after_entries f ts f' -> verdict kf f ts (Ok tt f')
| failed before t behind k f' : ts = (before ++ t :: behind)%list -> lacks kf f before t k -> unspoiled f (before ++ [t])%list ->
    left_behind f before k f' -> verdict kf f ts (Throw RuntimeError f')
| undefined before t behind : ts = (before ++ t :: behind)%list -> supplied f before -> unspoiled f before ->
    spoiled f (n_name t) -> verdict kf f ts UB.

Lemma unspoiled_cons f t f1 ts : grown f t f1 -> unpoisoned f (n_name t) -> unspoiled f1 ts -> unspoiled f (t :: ts).
Proof. rewrite !unspoiled_spec. intros G U H u [<- |Hu]; [exact U|]. now apply G, H. Qed.

Theorem entries_verdict kf ts : forall f, Forall proper ts -> Forall resolvable ts -> sound f -> verdict kf f ts (process_entries kf ts f).
Proof.
  induction ts as [|t ts IH]; intros f Hp Hr S; cbn [process_entries].
  - apply processed; [apply supplied_nil|intros t []|apply after_nil].
  - apply Forall_cons_iff in Hp as [Hp1 Hp]. apply Forall_cons_iff in Hr as [Hr1 Hr].
    destruct (looked_up_some kf t (proj1 Hp1) Hr1) as (ks & HL).
    destruct (entry_outcome kf t ks f Hp1 Hr1 HL S) as [(U & HA & f1 & E & G)|[(U & Hna & ks1 & k & ks2 & f1 & -> & HA & HN & E & M)|(U & E)]].
    + unfold bind. rewrite E. assert (S1 : sound f1) by (intros q Hq; apply G; auto).
      assert (Hs : satisfied f [] t) by (now apply (satisfied_first f t ks kf HL)).
      pose proof (IH f1 Hp Hr S1) as V. inversion V as [f' V1 V2 V3 V4|before u behind k f' V1 V2 V3 V4 V5|before u behind V1 V2 V3 V4 V5].
      * apply processed; [now apply (supplied_cons f t f1)|eapply unspoiled_cons; eauto|eapply after_cons; eauto].
      * apply (failed kf f (t :: ts) (t :: before) u behind k); [now rewrite V1|eapply lacks_grown; eauto|exact (unspoiled_cons f t f1 _ G U V3)|].
        intros q. destruct (V4 q) as [A1 A2], (G q) as [_ G2]. split; [|tauto]. rewrite A1. now apply available_grown.
      * subst ts. apply (undefined kf f _ (t :: before) u behind); [reflexivity|now apply (supplied_cons f t f1)|eapply unspoiled_cons; eauto|].
        intros H. now apply V4, G.
    + unfold bind. rewrite E. apply (failed kf f (t :: ts) [] t ts k).
      * reflexivity.
      * split; [apply supplied_nil|].
        assert (Ev : forall q, available f [] q <-> avail f q).
        { intros q. rewrite available_avail. split; [intros [H|(u & [] & _)]; exact H|auto]. }
        split; [intros H; now apply Hna, Ev|]. exists ks1, ks2. split; [exact HL|]. rewrite Forall_forall in HA.
        split; [intros q Hq; destruct (HA q Hq) as [H|H]; [auto|right; now apply Ev]|].
        split; intros H; apply HN; [now left|right; now apply Ev].
      * apply unspoiled_spec. intros u [<- |[]]. exact U.
      * intros q. destruct (M q) as [A1 A2]. split; [|exact A2]. rewrite A1. split.
        -- intros H. apply available_avail. auto.
        -- intros H. apply available_avail in H as [H|(u & [] & _)]; exact H.
    + unfold bind. rewrite E. apply (undefined kf f (t :: ts) [] t ts); [reflexivity|apply supplied_nil|intros u []|exact U].
Qed.

(** ** Exactly one of the three *)
Lemma lacks_not_satisfied kf f before t k : lacks kf f before t k -> ~ satisfied f before t.
Proof.
  intros (_ & H2 & ks1 & ks2 & H3 & _ & H5 & H6) [H|H]; [contradiction|].
  assert (Hk : named_by t k) by (apply (looked_up_named _ _ _ H3); apply in_elt). destruct (H k Hk); contradiction.
Qed.
Lemma split_cases {A} (b1 : list A) : forall a1 t1 b2 t2 a2, (b1 ++ t1 :: a1 = b2 ++ t2 :: a2)%list ->
  In t2 (b1 ++ [t1])%list \/ exists c, b2 = (b1 ++ t1 :: c)%list.
Proof.
  induction b1 as [|x b1 IH]; intros a1 t1 b2 t2 a2 H; destruct b2 as [|y b2]; cbn in H; injection H as E H.
  - left. left. congruence.
  - right. exists b2. subst. reflexivity.
  - left. left. congruence.
  - subst y. destruct (IH _ _ _ _ _ H) as [I|(c & ->)]; [left; now right|]. right. now exists c.
Qed.

Section Outcome.
Context (kf : bool) (f : factory) (ts : list notation).
Definition does_process : Prop := supplied f ts /\ unspoiled f ts.
Definition does_fail : Prop := exists before t behind k, ts = (before ++ t :: behind)%list /\ lacks kf f before t k /\ unspoiled f (before ++ [t])%list.
Definition goes_wrong : Prop := exists before t behind, ts = (before ++ t :: behind)%list /\ supplied f before /\ unspoiled f before /\ spoiled f (n_name t).
Lemma not_both_1 : does_process -> does_fail -> False.
Proof. intros [H _] (before & t & behind & k & E & L & _). exact (lacks_not_satisfied _ _ _ _ _ L (H _ _ _ E)). Qed.
Lemma not_both_2 : does_process -> goes_wrong -> False.
Proof. intros [_ H] (before & t & behind & -> & _ & _ & W). apply (H t); [apply in_elt|exact W]. Qed.
Lemma not_both_3 : does_fail -> goes_wrong -> False.
Proof.
  intros (b1 & t1 & a1 & k & E1 & L & U) (b2 & t2 & a2 & E2 & H & _ & W). rewrite E1 in E2.
  destruct (split_cases _ _ _ _ _ _ E2) as [I|(c & ->)]; [now apply (U t2)|].
  exact (lacks_not_satisfied _ _ _ _ _ L (H _ _ _ eq_refl)).
Qed.
End Outcome.

(** ** All states of a factory *)
Lemma sound_put f k i : sound f -> sound (set_types (put k (Some i) (types f)) f).
Proof.
  intros S q Hq. unfold unpoisoned. cbn [types set_types]. rewrite assoc_put. destruct (String.eqb q k); [discriminate|]. now apply S.
Qed.
Lemma sound_at k : typeIsPrimitive k = false -> keeps sound (types_at k).
Proof.
  intros Hk f S. unfold types_at. destruct (assoc k (types f)); [exact S|]. intros q Hq. unfold unpoisoned. cbn [types set_types]. rewrite assoc_put.
  destruct (String.eqb_spec q k); [congruence|]. now apply S.
Qed.
Lemma sound_make r : keeps sound (make r).
Proof. intros f S. exact S. Qed.
Lemma sound_compute k m : keeps sound m -> keeps sound (computeIfAbsent k m).
Proof.
  intros Hm f S. unfold computeIfAbsent. destruct (assoc k (types f)) as [[i|]|]; [exact S|exact I|].
  apply lands_bind; [now apply Hm|]. intros i f1 H. pose proof (keeps_ok _ _ _ _ _ Hm S H) as S1.
  cbn [heap set_types]. destruct (nth_error (heap f1) i) as [r|]; [|exact I]. destruct (String.eqb k (reader_type r)); [|exact I].
  now apply sound_put.
Qed.
Lemma sound_property t : keeps sound (make_property t).
Proof. apply keeps_bind; [apply keeps_lift|intros; apply sound_make]. Qed.
Lemma sound_fetch k : keeps sound (fetchReaderForRestricted k).
Proof.
  unfold fetchReaderForRestricted. destruct (typeIsPrimitive k) eqn:E; [apply sound_compute, sound_property|].
  apply keeps_bind; [now apply sound_at|]. intros [i|]; [apply keeps_ret|apply keeps_throw].
Qed.
Lemma sound_readers self name fds : Forall field_made fds -> keeps sound (property_readers self name fds).
Proof.
  induction 1 as [|fd fds Hm Hf IH]; cbn [property_readers]; [apply keeps_ret|].
  intros f S. destruct (resolvedType fd) as [k|e| | |] eqn:Hk; unfold bind at 1; cbn [lift]; try exact I; [|exact S].
  revert f S. apply keeps_bind; [|intros [i|]; [apply keeps_bind; [exact IH|intros; apply keeps_ret]|apply keeps_throw]].
  destruct (field_kind_prim fd k Hm Hk) as [(K & Ht & Hp)|(K & Hp)].
  - rewrite K. apply keeps_bind; [apply sound_compute, sound_property|intros; apply keeps_ret].
  - assert (H : keeps sound (if String.eqb k name then ret (Some self) else types_at k)).
    { destruct (String.eqb k name); [apply keeps_ret|now apply sound_at]. }
    destruct K as [-> |[-> | ->]]; exact H.
Qed.
Lemma sound_entry kf t : proper t -> keeps sound (process_entry kf t).
Proof.
  intros [Hm Hp]. unfold process_entry. apply keeps_bind.
  - apply sound_compute. destruct t as [c|r]; cbn [made] in Hm.
    + unfold processComposite. apply keeps_bind; [apply sound_make|]. intros self. apply keeps_bind; [now apply sound_readers|].
      intros ks. apply keeps_bind; [|intros; apply keeps_ret]. intros f S. unfold install_kids.
      destruct (nth_error (heap f) self) as [[]|]; try exact I. exact S.
    + unfold processRestricted, processMap. destruct (r_kind r).
      * apply keeps_bind; [apply sound_fetch|intros; apply sound_make].
      * apply keeps_bind; [|intros [? ?]; apply sound_make]. destruct kf;
          (apply keeps_bind; [apply sound_fetch|intros; apply keeps_bind; [apply sound_fetch|intros; apply keeps_ret]]).
      * apply sound_make.
      * apply keeps_bind; [apply sound_fetch|intros; apply sound_make].
  - intros _. apply keeps_bind; [now apply sound_at|]. intros p f S. exact S.
Qed.
Lemma sound_step kf o f f' : careful o f -> steps kf o f f' -> sound f -> sound f'.
Proof.
  intros Hc Hs S. destruct o as [s|r]; cbn [careful] in Hc.
  - assert (H : keeps sound (process kf s)).
    { apply process_entries_keeps. rewrite Forall_forall in Hc. auto using sound_entry. }
    specialize (H f S). destruct Hs as [E|(e & E)]; cbn [effect] in E; rewrite E in H; exact H.
  - destruct Hs as [E|(e & E)]; cbn in E; unfold installCustomSerialiser, bind, make in E; [|discriminate].
    injection E as <-. exact (sound_put {| heap := heap f ++ [r]; types := types f; descriptors := descriptors f |} _ _ S).
Qed.
Lemma run_sound kf h f f' : run kf h f f' -> sound f -> sound f'.
Proof. induction 1; eauto using sound_step. Qed.
Lemma new_sound : sound new_factory.
Proof. intros k _. apply new_unpoisoned. Qed.
Lemma reachable_sound kf f : reachable kf f -> sound f.
Proof. intros (h & H). exact (run_sound _ _ _ _ H new_sound). Qed.

Section Process.
Context (kf : bool) (f : factory) (s : schema).
Let ts := List.concat (s_types s).
Context (HR : reachable kf f) (Hp : Forall proper ts) (Hr : Forall resolvable ts).

Lemma process_verdict : verdict kf f ts (process kf s f).
Proof. apply entries_verdict; auto. now apply reachable_sound in HR. Qed.
Theorem process_ok : (exists f', process kf s f = Ok tt f') <-> supplied f ts /\ unspoiled f ts.
Proof.
  split.
  - intros (f' & E). pose proof process_verdict as V. rewrite E in V. inversion V. auto.
  - intros H. pose proof process_verdict as V. destruct V as [f' _ _ _|before t behind k f' E L U _|before t behind E S U W].
    + eauto.
    + exfalso. apply (not_both_1 kf f ts H). exists before, t, behind, k. auto.
    + exfalso. apply (not_both_2 f ts H). exists before, t, behind. auto.
Qed.
Theorem process_throws : (exists e f', process kf s f = Throw e f') <-> does_fail kf f ts.
Proof.
  split.
  - intros (e & f' & E). pose proof process_verdict as V. rewrite E in V. inversion V. unfold does_fail. eauto 8.
  - intros H. pose proof process_verdict as V. destruct V as [f' S U _|before t behind k f' E L U _|before t behind E S U W].
    + exfalso. apply (not_both_1 kf f ts); [split; assumption|exact H].
    + eauto.
    + exfalso. apply (not_both_3 kf f ts H). exists before, t, behind. auto.
Qed.
Theorem process_ub : process kf s f = UB <-> goes_wrong f ts.
Proof.
  split.
  - intros E. pose proof process_verdict as V. rewrite E in V. inversion V. unfold goes_wrong. eauto 8.
  - intros H. pose proof process_verdict as V. destruct V as [f' S U _|before t behind k f' E L U _|before t behind E S U W].
    + exfalso. apply (not_both_2 f ts); [split; assumption|exact H].
    + exfalso. apply (not_both_3 kf f ts); [|exact H]. exists before, t, behind, k. auto.
    + reflexivity.
Qed.
Theorem process_left e f' : process kf s f = Throw e f' -> e = RuntimeError /\ exists before t behind k,
  ts = (before ++ t :: behind)%list /\ lacks kf f before t k /\ unspoiled f (before ++ [t])%list /\
  (forall q, typeIsPrimitive q = false -> (byType f' q <> None <-> byType f q <> None \/ exists u, In u before /\ n_name u = q)) /\
  (forall q, spoiled f' q <-> spoiled f q \/ q = k /\ typeIsPrimitive k = false).
Proof.
  intros E. pose proof process_verdict as V. rewrite E in V.
  inversion V as [|before t behind k f1 H1 H2 H3 H4 H5|]. subst. split; [reflexivity|]. exists before, t, behind, k.
  repeat (split; [assumption|]). split.
  - intros q Hq. destruct (H4 q) as [A _]. unfold avail, available in A.
    assert (N : ~ readable_prim q) by (intros H; apply readable_primitive in H; congruence). tauto.
  - intros q. destruct (H4 q) as [_ A]. unfold spoiled. rewrite A. unfold unpoisoned.
    assert (D : assoc q (types f) = Some None \/ assoc q (types f) <> Some None).
    { destruct (assoc q (types f)) as [[]|]; auto; right; discriminate. }
    assert (D' : (q = k /\ typeIsPrimitive k = false) \/ ~ (q = k /\ typeIsPrimitive k = false)).
    { destruct (String.eqb_spec q k), (typeIsPrimitive k); auto; right; intros [? ?]; congruence. }
    tauto.
Qed.
End Process.

(** ** Which types are spoiled, from the history *)
Definition blamed (kf : bool) (h : list op) (k : string) : Prop :=
  exists h1 s h2 f1 f2 before t behind, h = (h1 ++ Process s :: h2)%list /\
    run kf h1 new_factory f1 /\ process kf s f1 = Throw RuntimeError f2 /\
    List.concat (s_types s) = (before ++ t :: behind)%list /\ lacks kf f1 before t k /\ unspoiled f1 (before ++ [t])%list /\
    typeIsPrimitive k = false /\ forall r, In (Install r) h2 -> reader_type r <> k.

Lemma run_split kf h o f f2 : run kf (h ++ [o]) f f2 -> exists f1, run kf h f f1 /\ careful o f1 /\ steps kf o f1 f2.
Proof.
  revert f. induction h as [|a h IH]; intros f H; cbn [app] in H; inversion H as [|? ? ? f1 ? Hc Hs Hr]; subst.
  - inversion Hr; subst. exists f. split; [apply run_nil|]. auto.
  - destruct (IH _ Hr) as (g & Hg & Hc' & Hs'). exists g. split; [eapply run_cons; eauto|auto].
Qed.
Lemma run_same kf h f f1 : run kf h f f1 -> forall f2, run kf h f f2 -> f1 = f2.
Proof.
  induction 1 as [|o h f g f1 Hc Hs Hr IH]; intros f2 H; inversion H; subst; [reflexivity|]. apply IH.
  assert (g = f3) as ->; [|assumption]. unfold steps in *. destruct Hs as [E|(e & E)];
    match goal with D : _ \/ _ |- _ => destruct D as [E'|(e' & E')] end; rewrite E in E'; congruence.
Qed.
Lemma spoiled_spec f k : spoiled f k <-> assoc k (types f) = Some None.
Proof. unfold spoiled, unpoisoned. destruct (assoc k (types f)) as [[]|]; split; try discriminate; try tauto; intros H; elim H; discriminate. Qed.
Lemma last_or {A} (h1 h2 : list A) a o h : (h ++ [o] = h1 ++ a :: h2)%list ->
  (exists h3, h2 = (h3 ++ [o])%list /\ h = (h1 ++ a :: h3)%list) \/ (h2 = [] /\ o = a /\ h = h1).
Proof.
  intros E. destruct h2 as [|b h2 _] using rev_ind.
  - right. apply app_inj_tail in E as [-> ->]. auto.
  - left. exists h2. rewrite app_comm_cons, app_assoc in E. apply app_inj_tail in E as [-> ->]. auto.
Qed.
(** The entry and the name at fault are determined. *)
Lemma looked_up_same kf t ks : looked_up kf t ks -> forall ks', looked_up kf t ks' -> ks = ks'.
Proof.
  destruct t as [c|x]; cbn [looked_up].
  - induction 1 as [|fd k fds ks Hk HF IH]; intros ks' H; inversion H as [|? k' ? ks'' Hk']; subst; [reflexivity|].
    f_equal; [congruence|auto].
  - destruct (r_kind x); intros -> ks' ->; reflexivity.
Qed.
Lemma first_same {A} (ok : A -> Prop) l1 : forall k1 r1 l2 k2 r2, (l1 ++ k1 :: r1 = l2 ++ k2 :: r2)%list ->
  (forall q, In q l1 -> ok q) -> (forall q, In q l2 -> ok q) -> ~ ok k1 -> ~ ok k2 -> l1 = l2 /\ k1 = k2.
Proof.
  induction l1 as [|a l1 IH]; intros k1 r1 l2 k2 r2 E H1 H2 N1 N2; destruct l2 as [|b l2]; cbn in E; injection E as -> E.
  - auto.
  - elim N1. apply H2. now left.
  - elim N2. apply H1. now left.
  - destruct (IH _ _ _ _ _ E) as [-> ->]; auto; intros q Hq; [apply H1|apply H2]; now right.
Qed.
Lemma supplied_part f a b : supplied f (a ++ b)%list -> supplied f a.
Proof. intros H before t behind ->. apply (H before t (behind ++ b)%list). now rewrite <- app_assoc. Qed.
Lemma lacks_same kf f ts b1 t1 a1 k1 b2 t2 a2 k2 : ts = (b1 ++ t1 :: a1)%list -> ts = (b2 ++ t2 :: a2)%list ->
  lacks kf f b1 t1 k1 -> lacks kf f b2 t2 k2 -> b1 = b2 /\ t1 = t2 /\ k1 = k2.
Proof.
  intros E1 E2 L1 L2.
  assert (b1 = b2 /\ t1 = t2) as [-> ->].
  { assert (X : forall b1 t1 a1 k1 b2 t2 a2 k2, ts = (b1 ++ t1 :: a1)%list -> ts = (b2 ++ t2 :: a2)%list ->
       lacks kf f b1 t1 k1 -> lacks kf f b2 t2 k2 -> List.length b2 <= List.length b1).
    { clear. intros b1 t1 a1 k1 b2 t2 a2 k2 E1 E2 L1 L2. apply Nat.nlt_ge. intros L.
      assert (exists c, b2 = (b1 ++ t1 :: c)%list) as (c & ->).
      { rewrite E1 in E2. clear L1 L2 E1 ts kf f. revert b2 E2 L. induction b1 as [|x b1 IH]; intros [|y b2] E L; cbn in *; try lia; injection E as -> E.
        - now exists b2.
        - destruct (IH _ E ltac:(lia)) as (c & ->). now exists c. }
      exact (lacks_not_satisfied _ _ _ _ _ L1 (proj1 L2 _ _ _ eq_refl)). }
    assert (HL : List.length b1 = List.length b2).
    { apply Nat.le_antisymm; [exact (X _ _ _ _ _ _ _ _ E2 E1 L2 L1)|exact (X _ _ _ _ _ _ _ _ E1 E2 L1 L2)]. }
    rewrite E1 in E2. clear - HL E2. revert b2 HL E2. induction b1 as [|x b1 IH]; intros [|y b2] HL E; cbn in *; try lia; injection E as -> E.
    - auto.
    - destruct (IH b2 ltac:(lia) E) as [-> ->]. auto. }
  split; [reflexivity|]. split; [reflexivity|]. destruct L1 as (_ & _ & x1 & y1 & P1 & P2 & P3 & P4), L2 as (_ & _ & x2 & y2 & Q1 & Q2 & Q3 & Q4).
  eapply (first_same (fun q => own t2 q \/ available f b2 q) x1); [exact (looked_up_same _ _ _ P1 _ Q1)|exact P2|exact Q2|tauto|tauto].
Qed.

Theorem spoiled_exactly kf h : forall f, run kf h new_factory f -> (forall t, In t (entries_of h) -> resolvable t) ->
  forall k, spoiled f k <-> blamed kf h k.
Proof.
  induction h as [|o h IH] using rev_ind; intros f HR Hrs k.
  - inversion HR; subst. split.
    + intros H. elim H. apply new_unpoisoned.
    + intros (h1 & s & h2 & f1 & f2 & before & t & behind & E & _). destruct h1; discriminate.
  - apply run_split in HR as (f1 & HR & Hc & Hs).
    assert (Hrs1 : forall t, In t (entries_of h) -> resolvable t).
    { intros t Ht. apply Hrs. unfold entries_of in *. rewrite map_app, concat_app. apply in_or_app. now left. }
    specialize (IH f1 HR Hrs1).
    assert (Later : (forall r, o = Install r -> reader_type r <> k) -> blamed kf h k -> blamed kf (h ++ [o]) k).
    { intros Ho (h1 & s' & h2 & g1 & g2 & before & t & behind & -> & H1 & H2 & H4 & H5 & H6 & H7 & H8).
      exists h1, s', (h2 ++ [o])%list, g1, g2, before, t, behind. split; [now rewrite <- app_assoc|].
      repeat (split; [solve [auto]|]). intros r Hr. apply in_app_or in Hr as [Hr|[Hr|[]]]; auto. }
    assert (Earlier : blamed kf (h ++ [o]) k -> (blamed kf h k /\ forall r, o = Install r -> reader_type r <> k) \/
       exists s f2 before t behind, o = Process s /\ process kf s f1 = Throw RuntimeError f2 /\
         List.concat (s_types s) = (before ++ t :: behind)%list /\ lacks kf f1 before t k /\ typeIsPrimitive k = false).
    { intros (h1 & s' & h2 & g1 & g2 & before & t & behind & Eh & H1 & H2 & H4 & H5 & H6 & H7 & H8).
      destruct (last_or _ _ _ _ _ Eh) as [(h3 & -> & ->)|(-> & -> & ->)].
      - left. split; [|intros r ->; apply H8; apply in_or_app; right; now left].
        exists h1, s', h3, g1, g2, before, t, behind. repeat (split; [solve [auto]|]). intros r Hr. apply H8. apply in_or_app. now left.
      - right. rewrite (run_same _ _ _ _ H1 _ HR) in *. exists s', g2, before, t, behind. auto. }
    destruct o as [s|r].
    + assert (Hre : Forall resolvable (List.concat (s_types s))).
      { apply Forall_forall. intros t Ht. apply Hrs. unfold entries_of. rewrite map_app, concat_app. apply in_or_app. right. cbn. rewrite app_nil_r. exact Ht. }
      cbn [careful] in Hc. assert (HRe : reachable kf f1) by (now exists h).
      destruct Hs as [E|(e & E)]; cbn [effect] in E.
      * pose proof (process_verdict kf f1 s HRe Hc Hre) as V. rewrite E in V. inversion V as [? _ _ A| |]. subst.
        assert (Q : spoiled f k <-> spoiled f1 k) by (unfold spoiled; destruct (A k) as [_ ->]; tauto).
        rewrite Q, IH. split; [apply Later; discriminate|]. intros H. destruct (Earlier H) as [[H1 _]|(s' & f2 & b & t & bh & [= ->] & P & _)]; [exact H1|congruence].
      * destruct (process_left kf f1 s HRe Hc Hre e f E) as (-> & before & t & behind & k0 & H1 & H2 & H3 & _ & H5). rewrite H5, IH. split.
        -- intros [H|[-> Hnp]]; [apply Later; [discriminate|exact H]|]. exists h, s, [], f1, f, before, t, behind.
           repeat (split; [solve [auto]|]). intros r [].
        -- intros H. destruct (Earlier H) as [[H' _]|(s' & f2 & b & t' & bh & [= <-] & P & Q1 & Q2 & Q3)]; [auto|]. right.
           destruct (lacks_same _ _ _ _ _ _ _ _ _ _ _ H1 Q1 H2 Q2) as (_ & _ & <-). auto.
    + destruct Hs as [E|(e & E)]; cbn in E; unfold installCustomSerialiser, bind, make in E; [|discriminate]. injection E as <-.
      rewrite spoiled_spec. cbn [types set_types]. rewrite assoc_put. destruct (String.eqb_spec k (reader_type r)) as [-> |n].
      * split; [discriminate|]. intros H. destruct (Earlier H) as [[_ N]|(s' & f2 & b & t & bh & D & _)]; [|discriminate]. elim (N r eq_refl eq_refl).
      * rewrite <- spoiled_spec, IH. split; [apply Later; intros q [= <-]; congruence|]. intros H.
        destruct (Earlier H) as [[H1 _]|(s' & f2 & b & t & bh & D & _)]; [exact H1|discriminate].
Qed.

(** ** Checking concrete schemas *)
Definition readableb (k : string) : bool := existsb (fun p => String.eqb k (prim_name p)) [PInt; PLong; PDouble; PBoolean; PString; PFloat; PBinary].
Lemma readableb_spec k : readableb k = true <-> readable_prim k.
Proof.
  unfold readableb. rewrite existsb_exists. split.
  - intros (p & _ & H). apply String.eqb_eq in H. now exists p.
  - intros (p & ->). exists p. split; [destruct p; cbn; tauto|apply String.eqb_refl].
Qed.
Definition availableb (before : list notation) (k : string) : bool := readableb k || existsb (fun u => String.eqb (n_name u) k) before.
Lemma availableb_spec before k : availableb before k = true <-> available new_factory before k.
Proof.
  unfold availableb, available. rewrite orb_true_iff, readableb_spec, existsb_exists. split.
  - intros [H|(u & H1 & H2)]; [auto|]. apply String.eqb_eq in H2. eauto.
  - intros [H|[H|(u & H1 & H2)]]; [auto|now elim H|]. right. exists u. split; [exact H1|]. now apply String.eqb_eq.
Qed.
Definition ownb (t : notation) (k : string) : bool := match t with TComposite c => String.eqb k (c_name c) | TRestricted _ => false end.
Lemma ownb_spec t k : ownb t k = true <-> own t k.
Proof.
  unfold ownb, own. destruct t as [c|x]; cbn [is_restricted n_name]; [rewrite String.eqb_eq; tauto|]. split; [discriminate|tauto].
Qed.
Lemma named_list_exact t k : In k (named_list t) <-> named_by t k.
Proof.
  split; [|apply named_list_spec]. destruct t as [c|x]; cbn [named_list named_by].
  - intros H. apply in_concat in H as (l & Hl & Hk). apply in_map_iff in Hl as (fd & <- & Hfd). exists fd. split; [exact Hfd|].
    destruct (property_type fd); [destruct Hk as [-> |[]]; reflexivity|destruct Hk].
  - destruct (r_kind x); auto.
Qed.
Definition satisfiedb (before : list notation) (t : notation) : bool :=
  availableb before (n_name t) || forallb (fun k => ownb t k || availableb before k) (named_list t).
Lemma satisfiedb_spec before t : satisfiedb before t = true <-> satisfied new_factory before t.
Proof.
  unfold satisfiedb, satisfied. rewrite orb_true_iff, availableb_spec, forallb_forall. split; intros [H|H]; auto; right; intros k Hk.
  - specialize (H k (proj2 (named_list_exact t k) Hk)). apply orb_true_iff in H as [H|H]; [left; now apply ownb_spec|right; now apply availableb_spec].
  - apply orb_true_iff. destruct (H k (proj1 (named_list_exact t k) Hk)); [left; now apply ownb_spec|right; now apply availableb_spec].
Qed.
Fixpoint suppliedb (before ts : list notation) : bool :=
  match ts with [] => true | t :: ts' => satisfiedb before t && suppliedb (before ++ [t]) ts' end.
Lemma suppliedb_from ts : forall before, suppliedb before ts = true <->
  forall b t behind, ts = (b ++ t :: behind)%list -> satisfied new_factory (before ++ b) t.
Proof.
  induction ts as [|t ts IH]; intros before; cbn [suppliedb].
  - split; [|reflexivity]. intros _ [|] t behind H; discriminate.
  - rewrite andb_true_iff, satisfiedb_spec, IH. split.
    + intros [H1 H2] b u behind E. destruct b as [|x b]; cbn in E; injection E as <- E.
      * now rewrite app_nil_r.
      * specialize (H2 b u behind E). now rewrite <- app_assoc in H2.
    + intros H. split; [specialize (H [] t ts eq_refl); now rewrite app_nil_r in H|]. intros b u behind ->.
      specialize (H (t :: b) u behind eq_refl). now rewrite <- app_assoc.
Qed.
Lemma suppliedb_spec ts : suppliedb [] ts = true <-> supplied new_factory ts.
Proof. rewrite suppliedb_from. reflexivity. Qed.
