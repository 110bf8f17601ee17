(** Proofs: what processing any schema comes to (SpecFate.v, [prepare]), and the
    readers it leaves. *)
From Coq Require Import Lia.
From Verif Require Import Base Proton TypeNames Schema SpecSchema SchemaProofs Factory SpecFactory FactoryProofs SpecSupply SupplyProofs FrameProofs Descriptors Readers SpecAccept SpecDisplay SpecParse SpecFate.
Import List ListNotations.
Open Scope string_scope.

Lemma primitives_spec k : memb k primitives = true <-> readable_prim k.
Proof.
  rewrite memb_spec. unfold primitives, readable_prim. cbn [In]. split.
  - intros [<-|[<-|[<-|[<-|[<-|[<-|[<-|[]]]]]]]]; [exists PInt|exists PLong|exists PDouble|exists PBoolean|exists PString|exists PFloat|exists PBinary]; reflexivity.
  - intros ([] & ->); cbn; tauto.
Qed.
Definition known (have : list string) (t : notation) (k : string) : bool := itself t k || memb k primitives || memb k have.
Lemma known_fits have t f k : (forall q, avail f q <-> readable_prim q \/ In q have) -> (known have t k = true <-> fits f t k).
Proof.
  intros A. unfold known, fits. rewrite !orb_true_iff, primitives_spec, memb_spec, A. unfold own, is_restricted, itself. destruct t as [c|x].
  - rewrite String.eqb_eq. cbn. tauto.
  - cbn. intuition discriminate.
Qed.
Lemma look_up_prefix have t ks rest : Forall (fun k => known have t k = true) ks -> look_up have t (map Some ks ++ rest) = look_up have t rest.
Proof. induction 1 as [|k ks H _ IH]; [reflexivity|]. cbn [map app look_up]. unfold known in H. now rewrite H. Qed.
Lemma look_up_missing have t k rest : known have t k = false -> look_up have t (Some k :: rest) = Raises RuntimeError.
Proof. intros H. cbn [look_up]. unfold known in H. now rewrite H. Qed.

Lemma wanted_looked_up kf t ks : looked_up kf t ks -> wanted kf t = map Some ks.
Proof.
  destruct t as [c|x]; cbn [looked_up wanted].
  - induction 1 as [|fd k fds ks H _ IH]; [reflexivity|]. cbn. now rewrite H, IH.
  - destruct (r_kind x); intros ->; reflexivity.
Qed.

(** The loop over the properties in two halves. *)
Lemma property_readers_app self name a b f : property_readers self name (a ++ b) f =
  (let! xs := property_readers self name a in let! ys := property_readers self name b in ret (xs ++ ys)%list) f.
Proof.
  revert f. induction a as [|fd a IH]; intros f; cbn [app property_readers].
  - unfold bind, ret. destruct (property_readers self name b f); reflexivity.
  - unfold bind in *. destruct (lift (resolvedType fd) f) as [t f1| | | |]; try reflexivity.
    match goal with |- context [match ?x with Ok _ _ => _ | Throw _ _ => _ | Abort => _ | UB => _ | Fuel => _ end] => destruct x as [[i|] f2| | | |]; try reflexivity end.
    rewrite IH. destruct (property_readers self name a f2) as [xs f3| | | |]; try reflexivity.
    unfold ret. destruct (property_readers self name b f3) as [ys f4| | | |]; reflexivity.
Qed.
Lemma first_unresolved fds : Forall field_made fds ->
  (forall fd, In fd fds -> f_type fd = "*" -> f_requires fd <> []) \/
  exists a fd b, fds = (a ++ fd :: b)%list /\ (forall fd, In fd a -> f_type fd = "*" -> f_requires fd <> []) /\ resolvedType fd = Undef /\ property_type fd = None.
Proof.
  induction fds as [|fd fds IH]; intros H; [left; intros ? []|]. apply Forall_cons_iff in H as [Hm H].
  assert ((f_type fd = "*" /\ f_requires fd = []) \/ (f_type fd = "*" -> f_requires fd <> [])) as [[E1 E2]|E].
  { destruct (String.eqb_spec (f_type fd) "*"); [|right; contradiction]. destruct (f_requires fd); [auto|]. right. discriminate. }
  - right. exists [], fd, fds. split; [reflexivity|]. split; [intros ? []|]. split.
    + destruct (field_made_cases fd Hm) as [(_ & N & _)|[(_ & N & _)|[(K & _)|[(_ & _ & N & _)|(_ & N & _)]]]]; try contradiction.
      unfold resolvedType. now rewrite K, E2.
    + unfold property_type. now rewrite E1, E2.
  - destruct (IH H) as [G|(a & fd' & b & -> & G & R)].
    + left. intros fd' [<-|Hf]; auto.
    + right. exists (fd :: a), fd', b. split; [reflexivity|]. split; [|exact R]. intros fd'' [<-|Hf]; auto.
Qed.

Definition lands_as {A} (o : outcome factory A) (r : fate unit) : Prop :=
  match r with
  | Gives _ => exists a f', o = Ok a f'
  | Raises e => exists f', o = Throw e f'
  | Stops => False
  | Wild => o = UB
  end.
Lemma comes_to_look_up {A} have t f ks rest (o : outcome factory A) : (forall q, avail f q <-> readable_prim q \/ In q have) ->
  comes_to (fits f t) ks f o ->
  (look_up have t (map Some ks ++ rest) = look_up have t rest /\ exists a f', o = Ok a f' /\ same f f') \/
  (look_up have t (map Some ks ++ rest) = Raises RuntimeError /\ exists f', o = Throw RuntimeError f').
Proof.
  intros A0 [(H & E)|(ks1 & k & ks2 & f' & -> & H & N & E & _)]; [left|right].
  - split; [|exact E]. apply look_up_prefix. eapply Forall_impl; [|exact H]. intros k. apply (known_fits have t f k A0).
  - split; [|eauto]. rewrite map_app, <- app_assoc. rewrite look_up_prefix.
    + apply look_up_missing. destruct (known have t k) eqn:K; [|reflexivity]. elim N. now apply (known_fits have t f k A0).
    + eapply Forall_impl; [|exact H]. intros q. apply (known_fits have t f q A0).
Qed.
Lemma make_entry_fate kf t f have : proper t -> sound f -> (forall q, avail f q <-> readable_prim q \/ In q have) ->
  lands_as (make_entry kf t f) (look_up have t (wanted kf t)).
Proof.
  intros [Hm Hp] S A0.
  assert (D : resolvable t \/ exists c a fd b, t = TComposite c /\ c_fields c = (a ++ fd :: b)%list /\ (forall fd, In fd a -> f_type fd = "*" -> f_requires fd <> []) /\ resolvedType fd = Undef /\ property_type fd = None).
  { destruct t as [c|x]; [|now left]. destruct (first_unresolved _ Hm) as [H|(a & fd & b & H)]; [now left|]. right. exists c, a, fd, b. tauto. }
  destruct D as [Hr|(c & a & fd & b & -> & E & Ha & Hu & Hn)].
  - destruct (looked_up_some kf t Hm Hr) as (ks & HL). rewrite (wanted_looked_up _ _ _ HL), <- (app_nil_r (map Some ks)).
    destruct (comes_to_look_up have t f ks [] _ A0 (make_entry_outcome kf t ks f Hm Hp Hr HL S)) as [(-> & x & f' & -> & _)|(-> & f' & ->)]; cbn; eauto.
  - cbn [wanted make_entry]. rewrite E, map_app. cbn [map]. rewrite Hn. cbn [made] in Hm. rewrite E in Hm. apply Forall_app in Hm as [Hm _].
    assert (Hf : exists ks, Forall2 (fun fd k => property_type fd = Some k) a ks).
    { clear -Hm Ha. induction a as [|fd a IH]; [exists []; constructor|]. apply Forall_cons_iff in Hm as [Hm1 Hm].
      destruct (resolvedType_spec fd Hm1 (Ha fd (or_introl eq_refl))) as (t & _ & H2). destruct IH as (ks & Hks); [exact Hm|intros; apply Ha; auto; now right|].
      exists (t :: ks). now constructor. }
    destruct Hf as (ks & Hks).
    replace (map property_type a) with (map Some ks) by (clear -Hks; induction Hks; cbn; congruence).
    unfold processComposite. unfold bind at 1, make. cbn [n_name] in Hp.
    set (f1 := {| heap := heap f ++ [RComposite (c_name c) []]; types := types f; descriptors := descriptors f |}).
    assert (S1 : same f f1) by now apply same_types.
    pose proof (readers_outcome (List.length (heap f)) (c_name c) a Hp Hm ks (looked_up_fields _ _ Hm Ha Hks) f1 (same_sound _ _ S1 S)) as H.
    assert (H' : comes_to (fits f1 (TComposite c)) ks f1 (property_readers (List.length (heap f)) (c_name c) a f1)).
    { eapply comes_to_ok; [|exact H]. intros k. unfold fits, own. cbn [n_name is_restricted]. tauto. }
    assert (A1 : forall q, avail f1 q <-> readable_prim q \/ In q have) by (intros q; rewrite <- A0; apply S1).
    unfold bind at 1. rewrite E, property_readers_app. unfold bind at 1.
    destruct (comes_to_look_up have (TComposite c) f1 ks (None :: map property_type b) _ A1 H') as [(-> & x & f' & -> & _)|(-> & f' & ->)]; [|cbn; eauto].
    cbn [look_up lands_as property_readers]. unfold bind at 1. unfold bind at 1. now rewrite Hu.
Qed.
Lemma first_resolvable kf have t : made t -> look_up have t (wanted kf t) = Gives tt -> exists ks, resolvable t /\ looked_up kf t ks.
Proof.
  intros Hm E. assert (Hr : resolvable t).
  { destruct t as [c|x]; [|exact I]. cbn [made resolvable wanted] in *. intros fd Hf T R.
    assert (N : property_type fd = None) by (unfold property_type; now rewrite T, R). clear T R.
    induction (c_fields c) as [|fd' fds IH]; [destruct Hf|]. cbn [map look_up] in E. apply Forall_cons_iff in Hm as [_ Hm]. destruct Hf as [->|Hf].
    - rewrite N in E. discriminate.
    - destruct (property_type fd') as [k|]; [|discriminate]. destruct (_ || _ || _); [|discriminate]. auto. }
  destruct (looked_up_some kf t Hm Hr) as (ks & HL). eauto.
Qed.

(** Entries with new names. *)
Fixpoint fresh (have : list string) (ts : list notation) : list notation :=
  match ts with
  | [] => []
  | t :: ts' => if memb (n_name t) have then fresh have ts' else t :: fresh (n_name t :: have) ts'
  end.
Lemma fresh_called have ts u : In u (fresh have ts) -> ~ In (n_name u) have /\ type_called ts (n_name u) = Some u.
Proof.
  unfold type_called. revert have. induction ts as [|t ts IH]; intros have H; [destruct H|]. cbn [fresh find] in H |- *. destruct (memb (n_name t) have) eqn:M.
  - destruct (IH _ H) as [H1 H2]. split; [exact H1|]. destruct (String.eqb_spec (n_name t) (n_name u)) as [E|]; [|exact H2].
    apply memb_spec in M. rewrite E in M. contradiction.
  - assert (N : ~ In (n_name t) have) by (intros X; apply memb_spec in X; congruence). destruct H as [->|H].
    + split; [exact N|]. now rewrite String.eqb_refl.
    + destruct (IH _ H) as [H1 H2]. split; [intros X; apply H1; now right|]. destruct (String.eqb_spec (n_name t) (n_name u)) as [E|]; [|exact H2].
      elim H1. now left.
Qed.

Lemma process_entries_fate kf cs ts : forall us have f, Forall proper ts -> sound f -> (forall q, unpoisoned f q) ->
  (forall q, avail f q <-> readable_prim q \/ In q have) -> backed cs us f ->
  match prepare kf have ts with
  | Gives _ => exists f', process_entries kf ts f = Ok tt f' /\ backed cs (us ++ fresh have ts) f'
  | Raises e => exists f', process_entries kf ts f = Throw e f'
  | Stops => False
  | Wild => process_entries kf ts f = UB
  end.
Proof.
  induction ts as [|t ts IH]; intros us have f Hp S U A0 B; cbn [process_entries prepare fresh].
  - exists f. rewrite app_nil_r. auto.
  - apply Forall_cons_iff in Hp as [Hp1 Hp]. pose proof (proper_okent _ Hp1) as Ho.
    assert (Hb : In (n_name t) have <-> byType f (n_name t) <> None).
    { rewrite <- (nonprim_avail f t Hp1), A0. split; [auto|]. intros [H|H]; [|exact H]. apply readable_primitive in H. destruct Hp1 as [_ Hq]. change (typeIsPrimitive (n_name t) = false) in Hq. congruence. }
    destruct (process_type_cases kf t f (proj1 Ho) (proj2 Ho)) as [(j & E & P)|[(E & P)|(Ha & C)]].
    + assert (Hj : byType f (n_name t) = Some j) by now apply byType_spec.
      assert (M : memb (n_name t) have = true) by (apply memb_spec, Hb; congruence). rewrite M.
      set (f1 := set_descriptors (put (n_descriptor t) (Some j) (descriptors f)) f).
      assert (E1 : process_entry kf t f = Ok tt f1). { unfold process_entry, bind. rewrite P. unfold types_at. now rewrite E. }
      unfold bind. rewrite E1. exact (IH us have f1 Hp S U A0 B).
    + elim (U (n_name t)). exact E.
    + assert (M : memb (n_name t) have = false).
      { destruct (memb (n_name t) have) eqn:M; [|reflexivity]. apply memb_spec, Hb in M. elim M. now apply absent_byType. }
      rewrite M. pose proof (make_entry_fate kf t f have Hp1 S A0) as F.
      assert (B1 : backed cs (us ++ [t]) f) by (eapply backed_incl; [apply incl_refl|apply incl_appl, incl_refl|exact B]).
      pose proof (process_entry_backed kf t cs (us ++ [t]) (proj1 Hp1) Ho (in_or_app us [t] t (or_intror (or_introl eq_refl))) f B1) as B2.
      destruct (look_up have t (wanted kf t)) as [[]|e| |] eqn:EL; cbn [lands_as] in F; cbn [onward].
      * destruct F as (i & f1 & F).
        assert (Gr : exists f2, process_entry kf t f = Ok tt f2 /\ sound f2 /\ (forall q, unpoisoned f2 q) /\ (forall q, avail f2 q <-> readable_prim q \/ In q (n_name t :: have))).
        { destruct (first_resolvable kf have t (proj1 Hp1) EL) as (ks & Hr & HL).
          destruct (entry_outcome kf t ks f Hp1 Hr HL S) as [(_ & _ & f2 & E2 & G)|[(_ & _ & ks1 & k & ks2 & f2 & -> & _ & _ & E2 & _)|(N & _)]].
          - exists f2. split; [exact E2|]. split; [intros q Hq; apply G; auto|]. split; [intros q; apply G; auto|]. intros q. destruct (G q) as [-> _]. rewrite A0. cbn [In].
            intuition congruence.
          - exfalso. unfold process_entry, bind in E2. destruct C as [(i' & g & r & _ & _ & _ & _ & _ & P)|[(e & g & E' & _)|[(_ & E')|[(_ & E')|(_ & E')]]]]; [|congruence..].
            rewrite P in E2. unfold types_at in E2. cbn [types set_types] in E2. rewrite assoc_put_same in E2. discriminate.
          - elim (N (U _)). }
        destruct Gr as (f2 & E2 & S2 & U2 & A2). rewrite E2 in B2. cbn [lands] in B2. unfold bind. rewrite E2.
        pose proof (IH (us ++ [t])%list (n_name t :: have) f2 Hp S2 U2 A2 B2) as G. rewrite <- app_assoc in G. exact G.
      * destruct F as (f1 & F). destruct C as [(i' & g & r & E' & _)|[(e' & g & E' & P)|[(_ & E')|[(_ & E')|(_ & E')]]]]; rewrite F in E'; try discriminate.
        injection E' as <- <-. exists f1. unfold bind, process_entry, bind. now rewrite P.
      * destruct F.
      * destruct C as [(i' & g & r & E' & _)|[(e' & g & E' & P)|[(_ & E')|[(P & E')|(_ & E')]]]]; rewrite F in E'; try discriminate.
        unfold bind, process_entry, bind. now rewrite P.
Qed.
