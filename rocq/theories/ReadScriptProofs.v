(** Programs that read objects: what they get. *)
From Coq Require Import Lia.
From Verif Require Import Base Proton ProtonProofs SpecDescriptors Readers SpecReaders ReadersProofs SpecAccept AcceptProofs SpecDisplay SpecInstalled DisplayProofs
  Writer SpecWriter WriterProofs Deserialise SpecDeserialise DeserialiseProofs SpecReadBack ReadBackProofs SpecTools ReadScript SpecReadScript.
Import List ListNotations.
Open Scope string_scope.

Lemma tidy_children t : tidy t <-> (tree_atom t = ADescribed -> exists body, part 1 t = Some body /\ tree_atom body = AList) /\ Forall tidy (tree_children t).
Proof.
  destruct t as [a cs]. cbn [tidy tree_children]. apply and_iff_compat_l. induction cs as [|t cs IH]; [split; constructor|].
  rewrite IH. split; [intros [H1 H2]; now constructor|intros H; now inversion H].
Qed.
Lemma tidy_part t k b : tidy t -> part k t = Some b -> tidy b.
Proof. intros H E. apply tidy_children in H as [_ H]. rewrite Forall_forall in H. apply H. eapply nth_error_In, E. Qed.

Lemma require_keeps ty d : match require ty d with Ok _ d' | Throw _ d' => d' = d | _ => True end.
Proof. unfold require. destruct (is_type ty d); reflexivity. Qed.
Lemma prim_keeps p d : match prim_get p d with Ok _ d' | Throw _ d' => d' = d | _ => True end.
Proof.
  destruct p; cbn [prim_get]; unfold bind;
    try (match goal with |- context [?m d] => pose proof (require_keeps TNull d) end);
    try (unfold attest_is_int, attest_is_long, attest_is_double, attest_is_bool, attest_is_float, attest_is_char, require; destruct (is_type _ d); reflexivity).
  unfold attest_is_string. rewrite andb_false_l. destruct (negb _), (pn_get_string d); reflexivity.
Qed.

Section Rec.
Context (cs : programs).
Definition after (moves : bool) (d : data) : data := if moves then pn_next d else d.
Definition does_with (m : PM object) (t : ctype) (d : data) : Prop :=
  match m d with
  | Ok x d' => exists mv, meets cs t (view d) (Got x) mv /\ d' = after mv d
  | Throw e d' => exists mv, meets cs t (view d) (Thrown e) mv /\ d' = after mv d
  | UB => exists mv, meets cs t (view d) Undefined mv
  | _ => False
  end.

Lemma prim_does_with p ptr d : on_level d -> does_with (read_prim p ptr) (RPrim p ptr) d.
Proof.
  intros Hd. unfold does_with, read_prim, finally, bind, ret. pose proof (prim_keeps p d) as K. destruct d as [[[|c l]|l t r] u]; [|destruct Hd|].
  - pose proof (prim_none p u) as H. destruct (prim_get p _) as [v d|e d| | |]; try contradiction.
    + destruct H as [-> H]. subst d. exists true. split; [|reflexivity]. now constructor.
    + subst p. exists true. now constructor.
  - pose proof (prim_cases p l t r u) as H. destruct (prim_get p _) as [v d|e d| | |]; try contradiction.
    + destruct H as [-> H]. exists true. split; [|reflexivity]. destruct ptr; now constructor.
    + destruct H as (-> & H1 & H2). subst d. exists true. split; [|reflexivity]. constructor; [|exact H1]. intros t' v [= <-]. apply H2.
    + destruct H as [-> H]. exists true. constructor. intros t' s [= <-]. apply H.
Qed.

Lemma start_tidy d : on_level d -> (forall t, view d = Some t -> tidy t) ->
  match read_startComposite d with
  | Ok _ d' => exists l t r u l1 body r1, d = Data (At l t r) u /\ tree_atom t = ADescribed /\ part 1 t = Some body /\ tree_atom body = AList /\
      upon body 0 (Frame l1 AList r1 :: Frame l ADescribed r :: u) d' /\ tree_children t = (rev l1 ++ body :: r1)%list
  | Throw e d' => e = RuntimeError /\ d' = d /\ forall t, view d = Some t -> tree_atom t <> ADescribed
  | _ => False
  end.
Proof.
  intros Hd Ht. pose proof (start_cases d Hd) as S. destruct (is_type TDescribed d) eqn:E.
  - assert (V : exists t, view d = Some t /\ tree_atom t = ADescribed).
    { destruct d as [[q|l [a bs] r] u]; [discriminate E|]. cbn in E. eexists. split; [reflexivity|]. destruct a; try discriminate E. reflexivity. }
    destruct V as (t & V & Ha). destruct (proj1 (proj1 (tidy_children t) (Ht t V)) Ha) as (body & Hp & Hb).
    destruct (read_startComposite d) as [x d1|e d1| | |]; try contradiction; [exact S|]. destruct S as [_ S]. elim (S t body V Ha Hp Hb).
  - clear S. unfold read_startComposite, bind at 1, attest_is_described, require. rewrite E. split; [reflexivity|]. split; [reflexivity|].
    intros t V H. apply view_some in V as (l & r & u & ->). destruct t as [a bs]. cbn in H. subst a. discriminate E.
Qed.

Section Loop.
Context (rec : ctype -> PM object) (body : tree) (u : list frame).
Hypothesis Hrec : forall t k d, upon body k u d -> does_with (rec t) t d.
Lemma follow_does : forall p k d, upon body k u d ->
  match follow rec p d with
  | Ok xs d' => follows cs body k p (Got xs) /\ exists k', upon body k' u d'
  | Throw e d' => follows cs body k p (Thrown e) /\ exists k', upon body k' u d'
  | UB => follows cs body k p Undefined
  | _ => False
  end.
Proof.
  assert (A : forall mv k d, upon body k u d -> upon body (if mv : bool then S k else k) u (after mv d)).
  { intros [] k d H; [apply upon_next, H|exact H]. }
  induction p as [xs|e|t kk IH|t kk IH h IHh]; intros k d U; cbn [follow].
  - split; [constructor|eauto].
  - split; [constructor|eauto].
  - unfold bind. pose proof (Hrec t k d U) as H. unfold does_with in H. rewrite (upon_view _ _ _ _ U) in H.
    destruct (rec t d) as [x d1|e d1| | |]; try contradiction.
    + destruct H as (mv & H & ->). specialize (IH x _ _ (A mv _ _ U)). destruct (follow rec (kk x) (after mv d)) as [xs d2|e d2| | |]; try contradiction.
      * destruct IH as [I1 I2]. split; [econstructor; eauto|exact I2].
      * destruct IH as [I1 I2]. split; [econstructor; eauto|exact I2].
      * econstructor; eauto.
    + destruct H as (mv & H & ->). split; [eapply follows_get_thrown; eauto|eauto].
    + destruct H as (mv & H). eapply follows_get_undefined; eauto.
  - pose proof (Hrec t k d U) as H. unfold does_with in H. rewrite (upon_view _ _ _ _ U) in H.
    destruct (rec t d) as [x d1|e d1| | |]; try contradiction.
    + destruct H as (mv & H & ->). specialize (IH x _ _ (A mv _ _ U)). destruct (follow rec (kk x) (after mv d)) as [xs d2|e d2| | |]; try contradiction.
      * destruct IH as [I1 I2]. split; [econstructor; eauto|exact I2].
      * destruct IH as [I1 I2]. split; [econstructor; eauto|exact I2].
      * econstructor; eauto.
    + destruct H as (mv & H & ->). specialize (IHh e _ _ (A mv _ _ U)). destruct (follow rec (h e) (after mv d)) as [xs d2|e2 d2| | |]; try contradiction.
      * destruct IHh as [I1 I2]. split; [eapply follows_catch; eauto|exact I2].
      * destruct IHh as [I1 I2]. split; [eapply follows_catch; eauto|exact I2].
      * eapply follows_catch; eauto.
    + destruct H as (mv & H). eapply follows_try_undefined; eauto.
Qed.
End Loop.

Lemma read_does_with : forall fuel t d, on_level d -> (forall v, view d = Some v -> tidy v) -> depth (view d) < fuel ->
  does_with (read_with cs fuel t) t d.
Proof.
  induction fuel as [|fuel IH]; intros t d Hd Ht Hh; [lia|]. destruct t as [p ptr|c ptr|ptr]; cbn [read_with].
  - now apply prim_does_with.
  - unfold does_with. unfold bind at 1. pose proof (start_tidy d Hd Ht) as S.
    destruct (read_startComposite d) as [x d1|e d1| | |]; try contradiction.
    2:{ destruct S as (-> & -> & S). exists false. split; [|reflexivity]. constructor; [discriminate|exact S]. }
    destruct S as (l & t & r & u & l1 & body & r1 & -> & Ha & Hp & Hb & U & Hc). cbn [view here] in *. specialize (Ht t eq_refl).
    assert (Hrec : forall t k d, upon body k (Frame l1 AList r1 :: Frame l ADescribed r :: u) d -> does_with (read_with cs fuel t) t d).
    { intros t' k d' U'. apply IH; [eapply upon_level; eauto| |].
      - rewrite (upon_view _ _ _ _ U'). intros v V. eapply tidy_part; [|exact V]. eapply tidy_part; eauto.
      - rewrite (upon_view _ _ _ _ U'). pose proof (part_depth k body). pose proof (part_depth 1 t). rewrite Hp in *. cbn [depth] in *. lia. }
    pose proof (follow_does _ body _ Hrec (cs c) 0 d1 U) as A. unfold finally, bind, ret.
    destruct (follow (read_with cs fuel) (cs c) d1) as [xs d2|e d2| | |]; try contradiction.
    + destruct A as (A & k & U2). rewrite (end_upon _ _ _ _ _ _ _ _ _ Ha Hb Hc U2). exists true. split; [|reflexivity].
      destruct ptr; [eapply meets_object_pointer|eapply meets_object]; eauto.
    + destruct A as (A & k & U2). rewrite (end_upon _ _ _ _ _ _ _ _ _ Ha Hb Hc U2). exists true. split; [|reflexivity]. eapply meets_failing; eauto.
    + exists true. eapply meets_undefined; eauto.
  - unfold does_with. unfold bind at 1. pose proof (start_tidy d Hd Ht) as S.
    destruct (read_startComposite d) as [x d1|e d1| | |]; try contradiction.
    2:{ destruct S as (-> & -> & S). exists false. split; [|reflexivity]. constructor; [discriminate|exact S]. }
    destruct S as (l & t & r & u & l1 & body & r1 & -> & Ha & Hp & Hb & U & Hc). cbn [view here] in *.
    unfold finally, vector_deserialiseImpl, attest_is_list, require, bind, is_type. pose proof (upon_view _ _ _ _ U) as V.
    destruct (pn_type_eqb (pn_dtype d1) TList) eqn:EL.
    + exists true. destruct d1 as [[q|l2 [a bs] r2] u2]; [discriminate EL|]. cbn in V. symmetry in V. eapply meets_list_in_vector; eauto.
      destruct a; try discriminate EL. reflexivity.
    + exists true. rewrite (end_upon _ _ _ _ _ _ _ _ _ Ha Hb Hc U). split; [|reflexivity]. eapply meets_vector; eauto.
      intros e K5 K. rewrite K5 in V. apply view_some in V as (l2 & r2 & u2 & ->). destruct e as [a bs]. cbn in K. subst a. discriminate EL.
Qed.

Lemma deserialise_with_cases fuel ty t p : height t <= fuel -> payload t p -> tidy p ->
  match deserialise_with cs fuel ty (decoded t) with
  | Ok x _ => exists mv, meets cs ty (Some p) (Got x) mv
  | Throw e _ => exists mv, meets cs ty (Some p) (Thrown e) mv
  | UB => exists mv, meets cs ty (Some p) Undefined mv
  | _ => False
  end.
Proof.
  intros Hh Hp Ht. unfold deserialise_with, bind. pose proof (ready_cases t) as R. destruct (readyPayload (decoded t)) as [x d|e d| | |]; try contradiction.
  2:{ destruct R as [_ R]. elim (R p Hp). }
  destruct R as (q & Hq & V & L). rewrite (payload_once _ _ _ Hp Hq) in V.
  assert (D : depth (view d) < fuel).
  { rewrite V. destruct Hp as (_ & body & H1 & _ & H2 & _). pose proof (part_depth 1 t). pose proof (part_depth 0 body).
    rewrite H1 in *. rewrite H2 in *. cbn [depth] in *. lia. }
  pose proof (read_does_with fuel ty d L ltac:(intros v E; rewrite V in E; injection E as <-; exact Ht) D) as H. unfold does_with in H. rewrite V in H.
  destruct (read_with cs fuel ty d) as [y d1|e d1| | |]; try contradiction.
  - destruct H as (mv & H & _). eauto.
  - destruct H as (mv & H & _). eauto.
  - exact H.
Qed.

(** There is one ending. *)
Scheme meets_mut := Minimality for meets Sort Prop with follows_mut := Minimality for follows Sort Prop.
Lemma meets_once t o r mv : meets cs t o r mv -> forall r' mv', meets cs t o r' mv' -> r' = r /\ mv' = mv.
Proof.
  revert t o r mv.
  apply (meets_mut cs (fun t o r mv => forall r' mv', meets cs t o r' mv' -> r' = r /\ mv' = mv)
                      (fun body i p r => forall r', follows cs body i p r' -> r' = r)).
  - intros p t v H r' mv' K. inversion K as [? ? w|? ? w|? ? ? N|? ? N|? ? N| | | | | |]; subst; try (split; reflexivity).
    + now rewrite (holds_once _ _ _ _ H ltac:(eassumption)).
    + elim (N _ _ eq_refl H).
    + inversion H; subst. elim (N _ _ eq_refl ltac:(symmetry; eassumption)).
    + now elim (N p false).
  - intros p t v H r' mv' K. inversion K as [? ? w|? ? w|? ? ? N|? ? N|? ? N| | | | | |]; subst; try (split; reflexivity).
    + now rewrite (holds_once _ _ _ _ H ltac:(eassumption)).
    + elim (N _ _ eq_refl H).
    + inversion H; subst. elim (N _ _ eq_refl ltac:(symmetry; eassumption)).
    + now elim (N p true).
  - intros p ptr o H Hp r' mv' K. inversion K as [? ? w W|? ? w W|? ? ? N|? ? N|? ? N| | | | | |]; subst; try (split; reflexivity).
    + elim (H _ _ eq_refl W).
    + elim (H _ _ eq_refl W).
    + now elim Hp.
    + now elim (N p ptr).
  - intros ptr o H r' mv' K. inversion K as [? ? w W|? ? w W|? ? ? N1 N2|? ? N|? ? N| | | | | |]; subst; try (split; reflexivity).
    + inversion W; subst. elim (H _ _ eq_refl ltac:(symmetry; eassumption)).
    + inversion W; subst. elim (H _ _ eq_refl ltac:(symmetry; eassumption)).
    + now elim N2.
    + now elim (N CString ptr).
  - intros t o H Ho r' mv' K. inversion K; subst; try (split; reflexivity); try (now elim (H p false)); try (now elim (H p true)); try (now elim (H p ptr));
      try (now elim (H CString ptr)); exfalso; eapply Ho; eauto.
  - intros c t body xs Ha Hp Hb _ IH r' mv' K. inversion K as [| | | |? ? N1 N2|c0 t0 b0 ys K1 K2 K3 K4|c0 t0 b0 ys K1 K2 K3 K4|c0 q t0 b0 e K1 K2 K3 K4|c0 q t0 b0 K1 K2 K3 K4| |]; subst;
      try (exfalso; eapply N2; eauto; fail); assert (b0 = body) by congruence; subst b0; specialize (IH _ K4); try discriminate; injection IH as ->; split; reflexivity.
  - intros c t body xs Ha Hp Hb _ IH r' mv' K. inversion K as [| | | |? ? N1 N2|c0 t0 b0 ys K1 K2 K3 K4|c0 t0 b0 ys K1 K2 K3 K4|c0 q t0 b0 e K1 K2 K3 K4|c0 q t0 b0 K1 K2 K3 K4| |]; subst;
      try (exfalso; eapply N2; eauto; fail); assert (b0 = body) by congruence; subst b0; specialize (IH _ K4); try discriminate; injection IH as ->; split; reflexivity.
  - intros c ptr t body e Ha Hp Hb _ IH r' mv' K. inversion K as [| | | |? ? N1 N2|c0 t0 b0 ys K1 K2 K3 K4|c0 t0 b0 ys K1 K2 K3 K4|c0 q t0 b0 e0 K1 K2 K3 K4|c0 q t0 b0 K1 K2 K3 K4| |]; subst;
      try (exfalso; eapply N2; eauto; fail); assert (b0 = body) by congruence; subst b0; specialize (IH _ K4); try discriminate; injection IH as ->; split; reflexivity.
  - intros c ptr t body Ha Hp Hb _ IH r' mv' K. inversion K as [| | | |? ? N1 N2|c0 t0 b0 ys K1 K2 K3 K4|c0 t0 b0 ys K1 K2 K3 K4|c0 q t0 b0 e0 K1 K2 K3 K4|c0 q t0 b0 K1 K2 K3 K4| |]; subst;
      try (exfalso; eapply N2; eauto; fail); assert (b0 = body) by congruence; subst b0; specialize (IH _ K4); try discriminate; split; reflexivity.
  - intros ptr t body Ha Hp Hb H r' mv' K. inversion K as [| | | |? ? N1 N2| | | | |q t0 b0 K1 K2 K3 K4|q t0 b0 e K1 K2 K3 K4 K5]; subst; try (split; reflexivity); [exfalso; eapply N2; eauto|].
    assert (b0 = body) by congruence. subst b0. elim (H _ K4 K5).
  - intros ptr t body e Ha Hp Hb H He r' mv' K. inversion K as [| | | |? ? N1 N2| | | | |q t0 b0 K1 K2 K3 K4|q t0 b0 e0 K1 K2 K3 K4 K5]; subst; try (split; reflexivity); [exfalso; eapply N2; eauto|].
    assert (b0 = body) by congruence. subst b0. elim (K4 _ H He).
  - intros body i xs r' K. now inversion K.
  - intros body i e r' K. now inversion K.
  - intros body i t k x m r _ IH _ IH2 r' K. inversion K as [| |? ? ? ? y m' ? K1 K2|? ? ? ? y m' K1|? ? ? ? m' K1| | |]; subst; destruct (IH _ _ K1) as [E E']; try discriminate.
    injection E as ->. subst m'. auto.
  - intros body i t k e m _ IH r' K. inversion K as [| |? ? ? ? y m' ? K1 K2|? ? ? ? y m' K1|? ? ? ? m' K1| | |]; subst; destruct (IH _ _ K1) as [E E']; congruence.
  - intros body i t k m _ IH r' K. inversion K as [| |? ? ? ? y m' ? K1 K2|? ? ? ? y m' K1|? ? ? ? m' K1| | |]; subst; destruct (IH _ _ K1) as [E E']; congruence.
  - intros body i t k h x m r _ IH _ IH2 r' K. inversion K as [| | | | |? ? ? ? ? y m' ? K1 K2|? ? ? ? ? y m' ? K1|? ? ? ? ? m' K1]; subst; destruct (IH _ _ K1) as [E E']; try discriminate.
    injection E as ->. subst m'. auto.
  - intros body i t k h e m r _ IH _ IH2 r' K. inversion K as [| | | | |? ? ? ? ? y m' ? K1 K2|? ? ? ? ? y m' ? K1|? ? ? ? ? m' K1]; subst; destruct (IH _ _ K1) as [E E']; try discriminate.
    injection E as ->. subst m'. auto.
  - intros body i t k h m _ IH r' K. inversion K as [| | | | |? ? ? ? ? y m' ? K1 K2|? ? ? ? ? y m' ? K1|? ? ? ? ? m' K1]; subst; destruct (IH _ _ K1) as [E E']; congruence.
Qed.

Lemma deserialise_with_exactly fuel ty t p r : height t <= fuel -> payload t p -> tidy p ->
  ends_as (deserialise_with cs fuel ty (decoded t)) r <-> exists mv, meets cs ty (Some p) r mv.
Proof.
  intros Hh Hp Ht. pose proof (deserialise_with_cases fuel ty t p Hh Hp Ht) as C. split.
  - destruct r as [x|e|]; cbn [ends_as].
    + intros (d & E). now rewrite E in C.
    + intros (d & E). now rewrite E in C.
    + intros E. now rewrite E in C.
  - intros (mv & M). destruct (deserialise_with cs fuel ty (decoded t)) as [x d|e d| | |]; try contradiction; destruct C as (mv' & C);
      destruct (meets_once _ _ _ _ M _ _ C) as [<- _]; cbn; eauto.
Qed.
End Rec.

(** Reading one property after the other is a special case. *)
Lemma follow_straight rd : forall ts acc d, follow rd (straight acc ts) d = (let! xs := read_all rd ts in ret (rev acc ++ xs)%list) d.
Proof.
  induction ts as [|t ts IH]; intros acc d.
  - cbn. now rewrite app_nil_r.
  - cbn [straight follow]. rewrite read_all_cons. unfold bind at 1 2 3. destruct (rd t d) as [x d1|e d1| | |]; try reflexivity. rewrite IH. cbn [rev].
    unfold bind. destruct (read_all rd ts d1); try reflexivity. unfold ret. now rewrite <- app_assoc.
Qed.
Lemma follow_ext r1 r2 : (forall t d, r1 t d = r2 t d) -> forall p d, follow r1 p d = follow r2 p d.
Proof.
  intros E. induction p as [xs|e|t k IH|t k IH h IHh]; intros d; cbn [follow]; try reflexivity.
  - unfold bind. rewrite E. destruct (r2 t d); auto.
  - rewrite E. destruct (r2 t d); auto.
Qed.
Lemma read_straight cs : forall fuel t d, read_with (fun c => straight [] (cs c)) fuel t d = read cs fuel t d.
Proof.
  induction fuel as [|fuel IH]; intros t d; [reflexivity|]. destruct t as [p ptr|c ptr|ptr]; [reflexivity| |reflexivity].
  rewrite read_class. cbn [read_with]. unfold bind at 1 3. destruct (read_startComposite d) as [x d1|e d1| | |]; try reflexivity.
  unfold finally, bind. rewrite (follow_ext _ _ IH), follow_straight. unfold bind. destruct (read_all (read cs fuel) (cs c) d1); reflexivity.
Qed.
Lemma deserialise_straight cs fuel t d : deserialise_with (fun c => straight [] (cs c)) fuel t d = deserialise cs fuel t d.
Proof. unfold deserialise_with, deserialise, bind. destruct (readyPayload d); try reflexivity. apply read_straight. Qed.

(** Objects without maps. *)
Lemma tidy_leaf a : a <> ADescribed -> tidy (leaf a).
Proof. intros H. cbn. split; [intros E; contradiction|exact I]. Qed.
Lemma tidy_described fp ts : Forall tidy ts -> tidy (payload_tree fp [list_of ts]).
Proof.
  intros H. apply tidy_children. split; [intros _; eexists; split; [reflexivity|reflexivity]|]. constructor; [apply tidy_leaf; discriminate|].
  constructor; [|constructor]. apply tidy_children. split; [discriminate|exact H].
Qed.
Lemma tidy_prim v : tidy (prim_tree v).
Proof. destruct v; apply tidy_leaf; discriminate. Qed.
Lemma tidy_wire i : without_maps i -> tidy (wire i).
Proof.
  induction i as [v|t v|n fp ps H|n fp es H|n fp kvs H| |o IH] using item_induction; cbn [without_maps wire]; intros W.
  - apply tidy_prim.
  - destruct v; [apply tidy_prim|apply tidy_leaf; discriminate].
  - apply tidy_described. apply fold_and in W. rewrite Forall_forall in *. intros t Ht. apply in_map_iff in Ht as (p & <- & Hp). apply (H p Hp), (W p Hp).
  - apply tidy_described. apply fold_and in W. rewrite Forall_forall in *. intros t Ht. apply in_map_iff in Ht as (p & <- & Hp). apply (H p Hp), (W p Hp).
  - contradiction.
  - apply tidy_leaf. discriminate.
  - apply IH, W.
Qed.
Lemma envelope_payload p groups more : tree_atom p = ADescribed -> payload (envelope_tree p groups more) p.
Proof. intros H. split; [reflexivity|]. eexists. split; [reflexivity|]. split; [reflexivity|]. split; [reflexivity|exact H]. Qed.
