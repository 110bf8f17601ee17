(** Which blobs can be deserialised, and as what. *)
From Coq Require Import Lia.
From Verif Require Import Base Proton ProtonProofs TypeNames Schema SpecSchema Descriptors Factory SpecFactory FactoryProofs Readers SpecReaders
  ReadersProofs SpecAccept AcceptProofs SpecDisplay SpecInstalled DisplayProofs Writer SpecWriter WriterProofs Deserialise SpecDeserialise DeserialiseProofs SpecReadBack.
Import List ListNotations.
Open Scope string_scope.

Lemma c_str_up s : c_str s = up_to_nul s.
Proof. induction s as [|c s IH]; [reflexivity|]. cbn. unfold nul. now rewrite IH. Qed.
Lemma to_char_is n : is_char n (to_char n).
Proof.
  unfold is_char, to_char. pose proof (Z.mod_pos_bound (Z.of_N n + 128) 256 eq_refl). split; [lia|].
  exists ((Z.of_N n + 128) / 256)%Z. pose proof (Z.div_mod (Z.of_N n + 128) 256 ltac:(lia)). lia.
Qed.
Lemma is_char_to n z : is_char n z -> to_char n = z.
Proof.
  intros [H [k Hk]]. unfold to_char. rewrite Hk. replace (z + 256 * k + 128)%Z with ((z + 128) + k * 256)%Z by lia.
  rewrite Z.mod_add by lia. rewrite Z.mod_small; lia.
Qed.

Lemma prim_cases p l t r u :
  match prim_get p (Data (At l t r) u) with
  | Ok v d => d = Data (At l t r) u /\ holds p (tree_atom t) v
  | Throw e _ => e = RuntimeError /\ p <> CString /\ forall v, ~ holds p (tree_atom t) v
  | UB => p = CString /\ forall s, tree_atom t <> AString s
  | _ => False
  end.
Proof.
  destruct t as [a cs]. destruct p, a; cbn;
    first [split; [reflexivity|split; [discriminate|intros v H; inversion H]]|split; [reflexivity|discriminate]|split; [reflexivity|constructor]].
  apply to_char_is.
Qed.
Lemma prim_none p u :
  match prim_get p (Data (Before []) u) with
  | Throw e _ => e = RuntimeError /\ p <> CString
  | UB => p = CString
  | _ => False
  end.
Proof. destruct p; cbn; try (split; [reflexivity|discriminate]); reflexivity. Qed.

Lemma holds_once p a v w : holds p a v -> holds p a w -> w = v.
Proof. intros H K. inversion H; subst; inversion K; subst; try reflexivity. f_equal. rewrite <- (is_char_to n z), <- (is_char_to n z0); auto. Qed.

Section Rec.
Context (cs : classes).
Notation rd := (reads_as cs).
Notation un := (undefined cs).
(** What reading does in a place. *)
Definition does (m : PM object) (t : ctype) (d : data) : Prop :=
  match m d with
  | Ok x d' => d' = pn_next d /\ ~ un t (view d) /\ forall y, rd t (view d) y <-> y = x
  | Throw e _ => e = RuntimeError /\ ~ un t (view d) /\ forall x, ~ rd t (view d) x
  | UB => un t (view d) /\ forall x, ~ rd t (view d) x
  | _ => False
  end.
Lemma prim_does p ptr d : on_level d -> does (read_prim p ptr) (RPrim p ptr) d.
Proof.
  intros Hd. unfold does, read_prim, finally, bind. destruct d as [[[|c l]|l t r] u]; [|destruct Hd|].
  - pose proof (prim_none p u) as H. destruct (prim_get p _) as [v d|e d| | |]; try contradiction.
    + destruct H as [-> H]. split; [reflexivity|]. split; [intros K|intros x K]; inversion K; subst; now elim H.
    + subst p. split; [|intros x K; inversion K]. now constructor.
  - pose proof (prim_cases p l t r u) as H. destruct (prim_get p _) as [v d|e d| | |]; try contradiction.
    + destruct H as [-> H]. split; [reflexivity|]. split.
      * intros K. inversion K as [q o Ho| |]; subst. inversion H; subst. eapply Ho; [reflexivity|symmetry; eassumption].
      * cbn [view here]. intros y. split.
        -- intros K. inversion K; subst; now rewrite (holds_once _ _ _ _ H ltac:(eassumption)).
        -- intros ->. destruct ptr; now constructor.
    + destruct H as (-> & H1 & H2). split; [reflexivity|]. split; [intros K|intros x K]; inversion K; subst; [now elim H1|eapply H2; eauto..].
    + destruct H as [-> H]. split; [|intros x K; inversion K as [? ? ? W|? ? ? W| |]; subst; inversion W; subst; eapply H; symmetry; eassumption].
      constructor. intros t' s [= <-]. apply H.
Qed.

(** The class's properties, from the [k]-th on. *)
Definition rd_from (body : tree) (k : nat) (ts : list ctype) (xs : list object) : Prop :=
  Forall2 (fun p x => rd (snd p) (part (k + fst p) body) x) (numbered ts) xs.
Lemma rd_from_nil body k xs : rd_from body k [] xs <-> xs = [].
Proof. unfold rd_from. cbn. split; [intros H; inversion H; reflexivity|intros ->; constructor]. Qed.
Lemma rd_from_cons body k t ts xs : rd_from body k (t :: ts) xs <-> exists x xs', xs = x :: xs' /\ rd t (part k body) x /\ rd_from body (S k) ts xs'.
Proof.
  unfold rd_from. rewrite numbered_cons. split.
  - intros H. inversion H as [|? x ? xs' H1 H2]; subst. exists x, xs'. cbn [fst snd] in H1. rewrite Nat.add_0_r in H1. split; [reflexivity|]. split; [exact H1|].
    clear - H2. remember (map _ _) as l eqn:E. revert E. generalize (numbered ts). induction H2 as [|p x l xs H _ IH]; intros [|q qs] E; try discriminate; constructor.
    + injection E as -> _. cbn [fst snd] in H. now replace (S k + fst q) with (k + S (fst q)) by lia.
    + apply IH. now injection E.
  - intros (x & xs' & -> & H1 & H2). constructor; [cbn [fst snd]; now rewrite Nat.add_0_r|].
    induction H2 as [|q y qs ys H _ IH]; [constructor|]. cbn [map]. constructor; [|exact IH]. cbn [fst snd]. now replace (k + S (fst q)) with (S k + fst q) by lia.
Qed.
Definition un_from (body : tree) (k : nat) (ts : list ctype) : Prop :=
  exists before ty after xs, ts = (before ++ ty :: after)%list /\ rd_from body k before xs /\ un ty (part (k + length before) body).
Lemma un_from_nil body k : ~ un_from body k [].
Proof. intros (b & ty & a & xs & E & _). now destruct b. Qed.
Lemma un_from_cons body k t ts : un_from body k (t :: ts) <-> un t (part k body) \/ exists x, rd t (part k body) x /\ un_from body (S k) ts.
Proof.
  split.
  - intros (b & ty & a & xs & E & H1 & H2). destruct b as [|b bs].
    + injection E as -> ->. left. cbn in H2. now rewrite Nat.add_0_r in H2.
    + injection E as -> ->. apply rd_from_cons in H1 as (x & xs' & -> & H1 & H3). right. exists x. split; [exact H1|].
      exists bs, ty, a, xs'. split; [reflexivity|]. split; [exact H3|]. cbn [length] in H2. now replace (S k + length bs) with (k + S (length bs)) by lia.
  - intros [H|(x & H & b & ty & a & xs & -> & H1 & H2)].
    + exists [], t, ts, []. split; [reflexivity|]. split; [now apply rd_from_nil|]. cbn. now rewrite Nat.add_0_r.
    + exists (t :: b), ty, a, (x :: xs). split; [reflexivity|]. split; [apply rd_from_cons; eauto|]. cbn [length]. now replace (k + S (length b)) with (S k + length b) by lia.
Qed.

Section Loop.
Context (rec : ctype -> PM object) (body : tree) (u : list frame).
Hypothesis Hrec : forall t k d, upon body k u d -> does (rec t) t d.
Lemma all_does : forall ts k d, upon body k u d ->
  match read_all rec ts d with
  | Ok xs d' => (exists k', upon body k' u d') /\ ~ un_from body k ts /\ forall ys, rd_from body k ts ys <-> ys = xs
  | Throw e _ => e = RuntimeError /\ ~ un_from body k ts /\ forall ys, ~ rd_from body k ts ys
  | UB => un_from body k ts /\ forall ys, ~ rd_from body k ts ys
  | _ => False
  end.
Proof.
  induction ts as [|t ts IH]; intros k d Hd.
  - cbn. split; [eauto|]. split; [apply un_from_nil|]. intros ys. apply rd_from_nil.
  - rewrite read_all_cons. unfold bind at 1. pose proof (Hrec t k d Hd) as H. unfold does in H. rewrite (upon_view _ _ _ _ Hd) in H.
    destruct (rec t d) as [x d1|e d1| | |]; try contradiction.
    + destruct H as (-> & H1 & H2). apply upon_next in Hd. specialize (IH (S k) _ Hd). unfold bind. destruct (read_all rec ts (pn_next d)) as [xs d2|e d2| | |]; try contradiction.
      * destruct IH as (Hk & I1 & I2). split; [exact Hk|]. split.
        -- rewrite un_from_cons. intros [K|(y & _ & K)]; contradiction.
        -- intros ys. rewrite rd_from_cons. split.
           ++ intros (y & ys' & -> & K1 & K2). apply H2 in K1 as ->. apply I2 in K2 as ->. reflexivity.
           ++ intros ->. exists x, xs. split; [reflexivity|]. split; [now apply H2|now apply I2].
      * destruct IH as (-> & I1 & I2). split; [reflexivity|]. split.
        -- rewrite un_from_cons. intros [K|(y & _ & K)]; contradiction.
        -- intros ys. rewrite rd_from_cons. intros (y & ys' & -> & K1 & K2). eapply I2; eauto.
      * destruct IH as (I1 & I2). split.
        -- rewrite un_from_cons. right. exists x. split; [now apply H2|exact I1].
        -- intros ys. rewrite rd_from_cons. intros (y & ys' & -> & K1 & K2). eapply I2; eauto.
    + destruct H as (-> & H1 & H2). split; [reflexivity|]. split.
      * rewrite un_from_cons. intros [K|(y & K & _)]; [contradiction|eapply H2; eauto].
      * intros ys. rewrite rd_from_cons. intros (y & ys' & -> & K1 & K2). eapply H2; eauto.
    + destruct H as (H1 & H2). split.
      * rewrite un_from_cons. now left.
      * intros ys. rewrite rd_from_cons. intros (y & ys' & -> & K1 & K2). eapply H2; eauto.
Qed.
End Loop.

(** startComposite goes to the first part of the list that the value describes. *)
Lemma start_cases d : on_level d ->
  match read_startComposite d with
  | Ok _ d' => exists l t r u l1 body r1, d = Data (At l t r) u /\ tree_atom t = ADescribed /\ part 1 t = Some body /\ tree_atom body = AList /\
      upon body 0 (Frame l1 AList r1 :: Frame l ADescribed r :: u) d' /\ tree_children t = (rev l1 ++ body :: r1)%list
  | Throw e _ => e = RuntimeError /\ forall t body, view d = Some t -> tree_atom t = ADescribed -> part 1 t = Some body -> tree_atom body <> AList
  | _ => False
  end.
Proof.
  intros Hd. unfold read_startComposite. unfold bind at 1. unfold attest_is_described, require at 1, is_type.
  destruct d as [[[|c l]|l t r] u]; [|destruct Hd|].
  - split; [reflexivity|]. discriminate.
  - destruct (pn_type_eqb (pn_dtype (Data (At l t r) u)) TDescribed) eqn:E.
    2:{ split; [reflexivity|]. cbn [view here]. intros t' body [= <-] H. destruct t as [a cs']. cbn in H. subst a. discriminate E. }
    assert (Ha : tree_atom t = ADescribed) by (destruct t as [[] cs']; try discriminate E; reflexivity).
    unfold bind at 1. cbv beta. unfold readAndNext_ulong, read_raw, bind at 1.
    destruct t as [a cs']. cbn [tree_atom] in Ha. subst a.
    pose proof (upon_enter l ADescribed cs' r u) as U.
    apply upon_next in U. revert U. generalize (pn_next (w_enter (Data (At l (Node ADescribed cs') r) u))). intros d U.
    unfold bind, attest_is_list, require, is_type. pose proof (upon_view _ _ _ _ U) as V.
    destruct U as [(l1 & body & r1 & -> & Hc & _)|[Hc ->]].
    + cbn [view here] in V. symmetry in V. destruct (pn_type_eqb _ TList) eqn:EL.
      * exists l, (Node ADescribed cs'), r, u, l1, body, r1. repeat (split; [first [reflexivity|exact V]|]).
        destruct body as [a bs]. destruct a; try discriminate EL. split; [reflexivity|]. split; [apply upon_enter|]. symmetry. exact Hc.
      * split; [reflexivity|]. cbn [view here]. intros t' body' [= <-] _ H K. rewrite V in H. injection H as <-.
        destruct body as [a bs]. cbn in K. subst a. discriminate EL.
    + split; [reflexivity|]. cbn [view here]. intros t' body' [= <-] _ H K. rewrite H in V. discriminate V.
Qed.
Lemma end_upon l t r u l1 body r1 k d : tree_atom t = ADescribed -> tree_atom body = AList -> tree_children t = (rev l1 ++ body :: r1)%list ->
  upon body k (Frame l1 AList r1 :: Frame l ADescribed r :: u) d -> endComposite d = pn_next (Data (At l t r) u).
Proof.
  intros Ht Hb Hc U. unfold endComposite. rewrite <- Hb in U. rewrite (upon_exit _ _ _ _ _ _ U).
  destruct t as [a cs']. cbn in Ht. subst a. cbn in Hc. rewrite (exit_among l ADescribed cs' r u); [reflexivity|]. split; [|reflexivity].
  cbn. rewrite rev_append_rev. now rewrite Hc.
Qed.

Lemma read_does : forall fuel t d, on_level d -> depth (view d) < fuel -> does (read cs fuel t) t d.
Proof.
  induction fuel as [|fuel IH]; intros t d Hd Hh; [lia|]. destruct t as [p ptr|c ptr|ptr].
  - change (read cs (S fuel) (RPrim p ptr)) with (read_prim p ptr). now apply prim_does.
  - rewrite read_class. unfold does. unfold bind at 1. pose proof (start_cases d Hd) as S.
    destruct (read_startComposite d) as [x d1|e d1| | |]; try contradiction.
    2:{ destruct S as [-> S]. split; [reflexivity|]. split; [intros K|intros y K]; inversion K; subst; eapply S; eauto. }
    destruct S as (l & t & r & u & l1 & body & r1 & -> & Ht & Hp & Hb & U & Hc). cbn [view here] in *.
    assert (Hrec : forall t k d, upon body k (Frame l1 AList r1 :: Frame l ADescribed r :: u) d -> does (read cs fuel t) t d).
    { intros t' k d' U'. apply IH; [eapply upon_level; eauto|]. rewrite (upon_view _ _ _ _ U').
      pose proof (part_depth k body). pose proof (part_depth 1 t). rewrite Hp in *. cbn [depth] in *. lia. }
    pose proof (all_does _ body _ Hrec (cs c) 0 d1 U) as A. unfold finally, bind, ret.
    destruct (read_all (read cs fuel) (cs c) d1) as [xs d2|e d2| | |]; try contradiction.
    + destruct A as ((k & U2) & A1 & A2). rewrite (end_upon _ _ _ _ _ _ _ _ _ Ht Hb Hc U2). split; [reflexivity|]. split.
      * intros K. inversion K as [| |c0 q t0 body0 b ty a ys K1 K2 K3 K4 K5 K6]; subst. assert (body0 = body) by congruence. subst body0. apply A1. exists b, ty, a, ys. auto.
      * intros y. split.
        -- intros K. inversion K as [| |c0 t0 body0 ys K1 K2 K3 K4|c0 t0 body0 ys K1 K2 K3 K4]; subst; assert (body0 = body) by congruence; subst body0; apply A2 in K4 as ->; reflexivity.
        -- intros ->. destruct ptr; econstructor; eauto; now apply A2.
    + destruct A as (-> & A1 & A2). split; [reflexivity|]. split.
      * intros K. inversion K as [| |c0 q t0 body0 b ty a ys K1 K2 K3 K4 K5 K6]; subst. assert (body0 = body) by congruence. subst body0. apply A1. exists b, ty, a, ys. auto.
      * intros y K. inversion K as [| |c0 t0 body0 ys K1 K2 K3 K4|c0 t0 body0 ys K1 K2 K3 K4]; subst; assert (body0 = body) by congruence; subst body0; now apply A2 in K4.
    + destruct A as ((b & ty & a & ys & E1 & E2 & E3) & A2). split; [econstructor; eauto|].
      intros y K. inversion K as [| |c0 t0 body0 zs K1 K2 K3 K4|c0 t0 body0 zs K1 K2 K3 K4]; subst; assert (body0 = body) by congruence; subst body0; now apply A2 in K4.
  - change (read cs (S fuel) (RVector ptr)) with (read_startComposite ;; finally vector_deserialiseImpl endComposite).
    unfold does. unfold bind at 1. pose proof (start_cases d Hd) as S.
    destruct (read_startComposite d) as [x d1|e d1| | |]; try contradiction.
    2:{ destruct S as [-> S]. split; [reflexivity|]. split; [intros K|intros y K]; inversion K; subst; eapply S; eauto. }
    destruct S as (l & t & r & u & l1 & body & r1 & -> & Ht & Hp & Hb & U & Hc). cbn [view here] in *.
    unfold finally, vector_deserialiseImpl, attest_is_list, require, bind, is_type. pose proof (upon_view _ _ _ _ U) as V.
    destruct (pn_type_eqb (pn_dtype d1) TList) eqn:EL.
    + split; [|intros y K; inversion K]. destruct d1 as [[q|l2 [a bs] r2] u2]; [discriminate EL|]. cbn in V. symmetry in V. econstructor; eauto.
      destruct a; try discriminate EL. reflexivity.
    + split; [reflexivity|]. split; [|intros y K; inversion K]. intros K. inversion K as [|q t0 body0 e K1 K2 K3 K4 K5|]; subst.
      assert (body0 = body) by congruence. subst body0. rewrite K4 in V. apply view_some in V as (l2 & r2 & u2 & ->). destruct e as [a bs]. cbn in K5. subst a. discriminate EL.
Qed.

Definition found (t : tree) : option tree := match part 1 t with Some body => part 0 body | None => None end.
Lemma payload_found t p : payload t p <-> tree_atom t = ADescribed /\ (exists body, part 1 t = Some body /\ tree_atom body = AList) /\ found t = Some p /\ tree_atom p = ADescribed.
Proof.
  unfold payload, found. split.
  - intros (H & body & H1 & H2 & H3 & H4). rewrite H1. eauto 6.
  - intros (H & (body & H1 & H2) & H3 & H4). rewrite H1 in H3. eauto 7.
Qed.
Lemma ready_cases t :
  match readyPayload (decoded t) with
  | Ok _ d => exists p, payload t p /\ view d = Some p /\ on_level d
  | Throw e _ => e = RuntimeError /\ forall p, ~ payload t p
  | _ => False
  end.
Proof.
  assert (E : readyPayload (decoded t) = (read_startComposite ;; (attest_is_described ;; auto_enter false (ret tt))) (decoded t)).
  { unfold readyPayload, read_startComposite, bind. destruct (attest_is_described (decoded t)) as [x d| | | |]; try reflexivity.
    destruct (readAndNext_ulong (w_enter d)) as [y d'| | | |]; try reflexivity. destruct (attest_is_list d'); reflexivity. }
  rewrite E. clear E. unfold bind at 1. pose proof (start_cases (decoded t) I) as S.
  destruct (read_startComposite (decoded t)) as [x d1|e d1| | |]; try contradiction.
  2:{ destruct S as [-> S]. split; [reflexivity|]. intros p (H1 & body & H2 & H3 & _). eapply S; eauto. reflexivity. }
  destruct S as (l & t' & r & u & l1 & body & r1 & E & Ht & Hp & Hb & U & Hc). injection E as <- <- <- <-.
  unfold bind, attest_is_described, require, is_type. pose proof (upon_view _ _ _ _ U) as V.
  destruct (pn_type_eqb (pn_dtype d1) TDescribed) eqn:ED.
  - destruct d1 as [[q|l2 [a bs] r2] u2]; [discriminate ED|]. cbn in V. symmetry in V. destruct a; try discriminate ED.
    unfold auto_enter, finally, ret. exists (Node ADescribed bs). split; [split; [exact Ht|exists body; auto]|].
    rewrite (exit_among l2 ADescribed bs r2 u2); [split; reflexivity|]. eapply upon_among. apply upon_enter.
  - split; [reflexivity|]. intros p (_ & body' & H2 & _ & H4 & H5). assert (body' = body) by congruence. subst body'. rewrite H4 in V.
    apply view_some in V as (l2 & r2 & u2 & ->). destruct p as [a bs]. cbn in H5. subst a. discriminate ED.
Qed.

(** What deserialising does. *)
Theorem deserialise_cases fuel ty t : height t <= fuel ->
  match deserialise cs fuel ty (decoded t) with
  | Ok x _ => exists p, payload t p /\ ~ un ty (Some p) /\ forall y, rd ty (Some p) y <-> y = x
  | Throw e _ => e = RuntimeError /\ forall p, payload t p -> ~ un ty (Some p) /\ forall x, ~ rd ty (Some p) x
  | UB => exists p, payload t p /\ un ty (Some p) /\ forall x, ~ rd ty (Some p) x
  | _ => False
  end.
Proof.
  intros Hh. unfold deserialise. unfold bind. pose proof (ready_cases t) as R. destruct (readyPayload (decoded t)) as [x d|e d| | |]; try contradiction.
  - destruct R as (p & Hp & V & L). assert (D : depth (view d) < fuel).
    { rewrite V. destruct Hp as (_ & body & H1 & _ & H2 & _). pose proof (part_depth 1 t). pose proof (part_depth 0 body).
      rewrite H1 in *. rewrite H2 in *. cbn [depth] in *. lia. }
    pose proof (read_does fuel ty d L D) as H. unfold does in H. rewrite V in H.
    destruct (read cs fuel ty d) as [y d1|e d1| | |]; try contradiction.
    + exists p. tauto.
    + destruct H as (-> & H). split; [reflexivity|]. intros p' Hp'. replace p' with p; [exact H|].
      apply payload_found in Hp as (_ & _ & Hp & _). apply payload_found in Hp' as (_ & _ & Hp' & _). congruence.
    + exists p. tauto.
  - destruct R as [-> R]. split; [reflexivity|]. intros p Hp. elim (R p Hp).
Qed.
End Rec.
Lemma payload_once t p q : payload t p -> payload t q -> q = p.
Proof. intros Hp Hq. apply payload_found in Hp as (_ & _ & Hp & _). apply payload_found in Hq as (_ & _ & Hq & _). congruence. Qed.

Theorem deserialised_exactly : forall cs fuel ty t x, height t <= fuel ->
  (exists d, deserialise cs fuel ty (decoded t) = Ok x d) <-> exists p, payload t p /\ reads_as cs ty (Some p) x.
Proof.
  intros cs fuel ty t x H. pose proof (deserialise_cases cs fuel ty t H) as C. split.
  - intros [d E]. rewrite E in C. destruct C as (p & Hp & _ & C). exists p. split; [exact Hp|]. now apply C.
  - intros (p & Hp & R). destruct (deserialise cs fuel ty (decoded t)) as [y d|e d| | |]; try contradiction.
    + destruct C as (q & Hq & _ & C). rewrite (payload_once _ _ _ Hp Hq) in C. apply C in R as ->. eauto.
    + destruct C as [_ C]. now apply C in R.
    + destruct C as (q & Hq & _ & C). rewrite (payload_once _ _ _ Hp Hq) in C. now apply C in R.
Qed.
Theorem undefined_exactly : forall cs fuel ty t, height t <= fuel ->
  deserialise cs fuel ty (decoded t) = UB <-> exists p, payload t p /\ undefined cs ty (Some p).
Proof.
  intros cs fuel ty t H. pose proof (deserialise_cases cs fuel ty t H) as C. split.
  - intros E. rewrite E in C. destruct C as (p & Hp & C & _). eauto.
  - intros (p & Hp & R). destruct (deserialise cs fuel ty (decoded t)) as [y d|e d| | |]; try contradiction; [| |reflexivity].
    + destruct C as (q & Hq & C & _). rewrite (payload_once _ _ _ Hp Hq) in C. contradiction.
    + destruct C as [_ C]. now apply C in R.
Qed.
Theorem otherwise_throws : forall cs fuel ty t, height t <= fuel ->
  (exists x d, deserialise cs fuel ty (decoded t) = Ok x d) \/ (exists d, deserialise cs fuel ty (decoded t) = Throw RuntimeError d) \/
  deserialise cs fuel ty (decoded t) = UB.
Proof.
  intros cs fuel ty t H. pose proof (deserialise_cases cs fuel ty t H) as C. destruct (deserialise cs fuel ty (decoded t)) as [y d|e d| | |]; try contradiction; eauto.
  destruct C as [-> _]. eauto.
Qed.
