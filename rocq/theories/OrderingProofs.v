From Coq Require Import Lia Permutation.
From Verif Require Import Base Ordering SpecOrdering.
Import List ListNotations.

Section Total.
  Variable T : Type.
  Variable dep : T -> T -> res nat.
  Variable P : T -> Prop.
  Hypothesis scored : forall j p, P j -> P p -> exists n, n <= 2 /\ dep j p = Ret n.

  Definition all_in (levels : list (list T)) : Prop := forall x, In x (concat levels) -> P x.

  Lemma scan_level_total p i : P p -> forall lvl ip, (forall x, In x lvl -> P x) ->
    exists ip' stop, scan_level T dep p i lvl ip = Ret (ip', stop) /\ (ip' = ip \/ ip' = S i \/ ip' = i).
  Proof.
    intros Hp. induction lvl as [|j lvl IH]; intros ip Hl; simpl.
    - eauto.
    - destruct (scored j p) as (n & Hn & ->); [apply Hl; simpl; auto|exact Hp|]. simpl.
      assert (Hl' : forall x, In x lvl -> P x) by (intros x Hx; apply Hl; simpl; auto).
      destruct n as [|[|[|n]]]; [| | |lia].
      + apply IH, Hl'.
      + destruct (IH (S i) Hl') as (a & b & -> & Hc). exists a, b. split; [reflexivity|]. intuition.
      + eauto 6.
  Qed.

  Lemma scan_total p : P p -> forall levels i ip, all_in levels ->
    exists k, scan T dep p i levels ip = Ret k.
  Proof.
    intros Hp. induction levels as [|lvl levels IH]; intros i ip Hl; simpl.
    - eauto.
    - destruct (scan_level_total p i Hp lvl ip) as (a & b & -> & _).
      { intros x Hx. apply Hl. simpl. apply in_or_app; auto. }
      simpl. destruct b; [eauto|]. apply IH. intros x Hx. apply Hl. simpl. apply in_or_app; auto.
  Qed.

  Definition no_empty (levels : list (list T)) : Prop := forall l, In l levels -> l <> [].

  Definition rec_good (bound : nat) (rec : T -> list (list T) -> res (list (list T))) : Prop :=
    forall e levels, P e -> all_in levels -> List.length (concat levels) < bound ->
    exists levels', rec e levels = Ret levels' /\
      Permutation (concat levels') (e :: concat levels) /\ (no_empty levels -> no_empty levels').

  Lemma shuffle_total bound rec p : P p -> rec_good bound rec -> forall members pre kept behind,
    (forall x, In x members -> P x) -> all_in behind ->
    List.length members + List.length (concat behind) < S bound ->
    exists pre' kept' behind', shuffle T dep rec p members pre kept behind = Ret (pre', kept', behind') /\
      Permutation (concat pre' ++ kept' ++ concat behind')
                  (concat pre ++ kept ++ members ++ concat behind) /\
      (no_empty pre -> no_empty pre') /\ (no_empty behind -> no_empty behind').
  Proof.
    intros Hp Hrec. induction members as [|e members IH]; intros pre kept behind Hm Hb Hlen; simpl.
    - exists pre, (rev kept), behind. split; [reflexivity|]. split; [|auto].
      apply Permutation_app_head. apply Permutation_app_tail. symmetry. apply Permutation_rev.
    - assert (Hm' : forall x, In x members -> P x) by (intros x Hx; apply Hm; simpl; auto).
      assert (He : P e) by (apply Hm; simpl; auto).
      simpl in Hlen.
      destruct (scored p e Hp He) as (n & Hn & ->). simpl. destruct n as [|[|[|n]]]; [| | |lia].
      + destruct (IH pre (e :: kept) behind Hm' Hb) as (a & b & c & -> & Hperm & H1 & H2); [lia|].
        exists a, b, c. split; [reflexivity|]. split; [|auto]. rewrite Hperm. apply Permutation_app_head.
        simpl. rewrite <- !Permutation_middle. reflexivity.
      + destruct (Hrec e behind He Hb) as (behind' & -> & Hpb & Hne); [lia|]. simpl.
        destruct (IH pre kept behind' Hm') as (a & b & c & -> & Hperm & H1 & H2).
        * intros x Hx. apply (Permutation_in _ Hpb) in Hx as [<-|Hx]; auto.
        * rewrite (Permutation_length Hpb). simpl. lia.
        * exists a, b, c. split; [reflexivity|]. split; [|auto]. rewrite Hperm.
          apply Permutation_app_head. apply Permutation_app_head. rewrite Hpb.
          symmetry. apply Permutation_middle.
      + destruct (IH (pre ++ [[e]]) kept behind Hm' Hb) as (a & b & c & -> & Hperm & H1 & H2); [lia|].
        exists a, b, c. split; [reflexivity|]. split.
        * rewrite Hperm. rewrite concat_app. simpl. rewrite <- !app_assoc. apply Permutation_app_head.
          simpl. rewrite <- Permutation_middle. reflexivity.
        * split; [|exact H2]. intros Hne. apply H1. intros l Hl.
          apply in_app_or in Hl as [Hl|[<-|[]]]; [now apply Hne|discriminate].
  Qed.

  Lemma insert_at_total : forall fuel, rec_good fuel (insert_at T dep fuel).
  Proof.
    induction fuel as [|fuel IH]; intros p levels Hp Hl Hlen; [lia|]. simpl.
    destruct (scan_total p Hp levels 0 0 Hl) as (ip & ->). simpl.
    pose proof (firstn_skipn ip levels) as Hsplit.
    destruct (skipn ip levels) as [|lvl behind] eqn:Es.
    - exists (levels ++ [[p]]). split; [reflexivity|]. split.
      + rewrite concat_app. simpl. rewrite Permutation_app_comm. reflexivity.
      + intros Hne l Hin. apply in_app_or in Hin as [Hin|[<-|[]]]; [now apply Hne|discriminate].
    - assert (Hcat : concat levels = concat (firstn ip levels) ++ lvl ++ concat behind).
      { rewrite <- Hsplit at 1. rewrite concat_app. reflexivity. }
      destruct (shuffle_total fuel (insert_at T dep fuel) p Hp IH lvl [] [] behind)
        as (pre & kept & behind' & -> & Hperm & H1 & H2).
      + intros x Hx. apply Hl. rewrite Hcat. rewrite !in_app_iff. auto.
      + intros x Hx. apply Hl. rewrite Hcat. rewrite !in_app_iff. auto.
      + rewrite Hcat, !app_length in Hlen. lia.
      + simpl. eexists. split; [reflexivity|]. split.
        * rewrite Hcat, !concat_app. simpl in *.
          transitivity (concat (firstn ip levels) ++ p :: (lvl ++ concat behind));
            [|symmetry; apply Permutation_middle].
          apply Permutation_app_head. rewrite <- Hperm.
          symmetry. apply Permutation_middle.
        * intros Hne l Hin. rewrite !in_app_iff in Hin. destruct Hin as [Hin|[Hin|[<-|Hin]]].
          -- apply Hne. rewrite <- Hsplit. apply in_or_app; auto.
          -- revert l Hin. apply H1. intros l [].
          -- discriminate.
          -- revert l Hin. apply H2. intros l Hin. apply Hne. rewrite <- Hsplit.
             apply in_or_app; right; simpl; auto.
  Qed.

  Lemma insert_total p levels : P p -> all_in levels ->
    exists levels', insert T dep p levels = Ret levels' /\
      Permutation (concat levels') (p :: concat levels) /\ (no_empty levels -> no_empty levels').
  Proof. intros Hp Hl. apply insert_at_total; auto. Qed.

  Lemma inserts_total : forall ps levels, (forall x, In x ps -> P x) -> all_in levels ->
    exists levels', inserts T dep ps levels = Ret levels' /\
      Permutation (concat levels') (ps ++ concat levels) /\ (no_empty levels -> no_empty levels').
  Proof.
    induction ps as [|p ps IH]; intros levels Hp Hl; simpl.
    - exists levels. auto.
    - destruct (insert_total p levels) as (l1 & -> & P1 & N1); [apply Hp; simpl; auto|exact Hl|]. simpl.
      destruct (IH l1) as (l2 & -> & P2 & N2).
      + intros x Hx. apply Hp. simpl; auto.
      + intros x Hx. apply (Permutation_in _ P1) in Hx as [<-|Hx]; [apply Hp; simpl; auto|auto].
      + exists l2. split; [reflexivity|]. split; [|auto]. rewrite P2, P1.
        symmetry. apply Permutation_middle.
  Qed.
End Total.

Section Ordered.
  Variable T : Type.
  Variable dep : T -> T -> res nat.
  Variable D : T -> T -> Prop.       (* D a b: a depends on b *)
  Variable D0 : T -> T -> Prop.      (* the dependencies seen from both sides *)

  (** The score of an ordered pair: a dependency of the second on the first is
      always seen, one of the first on the second only when it is in [D0]. *)
  Definition score_ok (j p : T) : Prop :=
    (D p j /\ dep j p = Ret 1) \/ (~ D p j /\ D0 j p /\ dep j p = Ret 2) \/
    (~ D p j /\ ~ D0 j p /\ dep j p = Ret 0).

  Variable P : T -> Prop.
  Hypothesis Dscore : forall j p, P j -> P p -> j <> p -> score_ok j p.
  Hypothesis D0sub : forall a b, D0 a b -> D a b.
  Hypothesis Dirr : forall a, P a -> ~ D a a.

  (** No member depends on a member of the same or a later group. *)
  Fixpoint ordered (levels : list (list T)) : Prop :=
    match levels with
    | [] => True
    | l :: ls => (forall a b, In a l -> In b (l ++ concat ls) -> ~ D a b) /\ ordered ls
    end.

  Lemma ordered_app l1 l2 : ordered (l1 ++ l2) <->
    ordered l1 /\ ordered l2 /\ (forall a b, In a (concat l1) -> In b (concat l2) -> ~ D a b).
  Proof.
    induction l1 as [|l l1 IH]; simpl.
    - split; [intros H; repeat split; auto; intros a b []|tauto].
    - rewrite IH. rewrite concat_app. split.
      + intros (H1 & H2 & H3 & H4). repeat split; auto.
        * intros a b Ha Hb. apply H1; auto. rewrite !in_app_iff in *. tauto.
        * intros a b Ha Hb. apply in_app_or in Ha as [Ha|Ha]; [|now apply H4].
          apply H1; auto. rewrite !in_app_iff. auto.
      + intros ((H1 & H2) & H3 & H4). repeat split; auto.
        * intros a b Ha Hb. rewrite app_assoc in Hb. apply in_app_or in Hb as [Hb|Hb]; [now apply H1|].
          apply H4; auto. apply in_or_app; auto.
        * intros a b Ha Hb. apply H4; auto. apply in_or_app; auto.
  Qed.

  Lemma ordered_spec levels : ordered levels <-> dependency_order D levels.
  Proof.
    unfold dependency_order, in_group. induction levels as [|l ls IH]; simpl.
    - split; [|auto]. intros _ x y n m (g & Hg & _). destruct n; discriminate.
    - split.
      + intros [H1 H2] x y n m (g & Hg & Hx) (g' & Hg' & Hy) Hd.
        assert (IH' := proj1 IH H2).
        destruct n as [|n], m as [|m]; simpl in *.
        * injection Hg as <-. injection Hg' as <-. exfalso. apply (H1 x y); auto. apply in_or_app; auto.
        * injection Hg as <-. exfalso. apply (H1 x y); auto. apply in_or_app. right.
          apply nth_error_In in Hg'. apply in_concat. eauto.
        * lia.
        * apply -> Nat.succ_lt_mono. apply (IH' x y); eauto.
      + intros H. split.
        * intros a b Ha Hb Hd. apply in_app_or in Hb as [Hb|Hb].
          -- specialize (H a b 0 0). simpl in H. assert (0 < 0) by eauto 8. lia.
          -- apply in_concat in Hb as (g & Hg & Hb). apply In_nth_error in Hg as [m Hm].
             specialize (H a b 0 (S m)). simpl in H. assert (S m < 0) by eauto 8. lia.
        * apply IH.
          intros x y n m Hx Hy Hd. specialize (H x y (S n) (S m) Hx Hy Hd). lia.
  Qed.

  (** Every dependency of [p] lies in an earlier group than every dependent. *)
  Definition compatible (p : T) (levels : list (list T)) : Prop :=
    exists k, (forall x, In x (concat (firstn k levels)) -> ~ D x p) /\
              (forall x, In x (concat (skipn k levels)) -> ~ D p x).

  (** A chain of dependencies whose inner members are in [S]. *)
  Inductive chain (S : list T) : T -> T -> Prop :=
  | ch_one x y : D x y -> chain S x y
  | ch_more x y z : D x y -> In y S -> chain S y z -> chain S x z.

  (** Whoever depends on [p] does so through some [c] that is seen from both
      sides. *)
  Definition mediated (p : T) (S : list T) : Prop :=
    forall x, In x S -> D x p -> exists c, In c S /\ D0 c p /\ (x = c \/ chain S x c).

  Definition visible (p : T) (S : list T) : Prop :=
    mediated p S /\ forall e, In e S -> chain S e p -> mediated e S.

  Lemma chain_incl S S' x y : incl S S' -> chain S x y -> chain S' x y.
  Proof.
    intros Hi H. induction H as [x y H|x y z H Hy _ IH]; [now apply ch_one|].
    apply ch_more with y; auto.
  Qed.

  Lemma mediated_perm p S S' : Permutation S S' -> mediated p S -> mediated p S'.
  Proof.
    intros Hp H x Hx Hd. apply (Permutation_in _ (Permutation_sym Hp)) in Hx.
    destruct (H x Hx Hd) as (c & Hc & H0 & H1). exists c. split; [now apply (Permutation_in _ Hp)|].
    split; [exact H0|]. destruct H1 as [->|H1]; [auto|]. right.
    apply (chain_incl S); [|exact H1]. intros z Hz. now apply (Permutation_in _ Hp).
  Qed.

  Lemma visible_perm p S S' : Permutation S S' -> visible p S -> visible p S'.
  Proof.
    intros Hp [H1 H2]. split; [now apply (mediated_perm p S)|]. intros e He Hc.
    apply (mediated_perm e S); [exact Hp|]. apply H2.
    - now apply (Permutation_in _ (Permutation_sym Hp)).
    - apply (chain_incl S'); [|exact Hc]. intros z Hz. now apply (Permutation_in _ (Permutation_sym Hp)).
  Qed.

  (** A chain that starts in a part closed under dependencies stays there. *)
  Lemma chain_stays A B x y : In x A -> In y (A ++ B) ->
    (forall a b, In a A -> In b B -> ~ D a b) -> chain (A ++ B) x y -> In y A.
  Proof.
    intros Hx Hy Hc H. revert Hx Hy. induction H as [x y H|x y z H Hin _ IH]; intros Hx Hy.
    - apply in_app_or in Hy as [Hy|Hy]; [exact Hy|]. exfalso. exact (Hc x y Hx Hy H).
    - apply IH; auto. apply in_app_or in Hin as [Hin|Hin]; [exact Hin|]. exfalso. exact (Hc x y Hx Hin H).
  Qed.

  (** A group without dependents: no stop; the insertion point moves exactly if
      there is a dependency. *)
  Lemma scan_level_nodependent p i lvl ip : P p -> (forall x, In x lvl -> P x /\ x <> p) ->
    (forall x, In x lvl -> ~ D0 x p) ->
    exists ip', scan_level T dep p i lvl ip = Ret (ip', false) /\
      ((ip' = ip /\ (ip = S i \/ forall x, In x lvl -> ~ D p x)) \/ ip' = S i).
  Proof.
    intros Hp. revert ip. induction lvl as [|j lvl IH]; intros ip Hl Hd; simpl.
    - exists ip. split; [reflexivity|]. left. split; auto.
    - destruct (Hl j) as [Hj Hne]; [simpl; auto|].
      assert (Hl' : forall x, In x lvl -> P x /\ x <> p) by (intros x Hx; apply Hl; simpl; auto).
      assert (Hd' : forall x, In x lvl -> ~ D0 x p) by (intros x Hx; apply Hd; simpl; auto).
      destruct (Dscore j p Hj Hp Hne) as [[H ->]|[(_ & H & _)|(Hn & _ & ->)]]; simpl.
      + destruct (IH (S i) Hl' Hd') as (ip' & -> & [[-> _]| ->]); eauto.
      + exfalso. apply (Hd j); simpl; auto.
      + destruct (IH ip Hl' Hd') as (ip' & -> & [[-> [-> |H]]| ->]); eauto.
        exists ip. split; [reflexivity|]. left. split; [reflexivity|]. right.
        intros x [<-|Hx]; auto.
  Qed.

  (** A group without dependencies of [p]: stops at this group if there is a
      dependent, otherwise nothing changes. *)
  Lemma scan_level_nodependency p i lvl ip : P p -> (forall x, In x lvl -> P x /\ x <> p) ->
    (forall x, In x lvl -> ~ D p x) ->
    scan_level T dep p i lvl ip = Ret (i, true) \/
    (scan_level T dep p i lvl ip = Ret (ip, false) /\ forall x, In x lvl -> ~ D0 x p).
  Proof.
    intros Hp. revert ip. induction lvl as [|j lvl IH]; intros ip Hl Hd; simpl.
    - right. auto.
    - destruct (Hl j) as [Hj Hne]; [simpl; auto|].
      assert (Hl' : forall x, In x lvl -> P x /\ x <> p) by (intros x Hx; apply Hl; simpl; auto).
      assert (Hd' : forall x, In x lvl -> ~ D p x) by (intros x Hx; apply Hd; simpl; auto).
      destruct (Dscore j p Hj Hp Hne) as [[H _]|[(_ & H & ->)|(Hn & Hn' & ->)]]; simpl.
      + exfalso. apply (Hd j); simpl; auto.
      + auto.
      + destruct (IH ip Hl' Hd') as [H|[H H']]; [auto|]. right. split; [exact H|].
        intros x [<-|Hx]; auto.
  Qed.

  (** The insertion point: no dependency at or behind it, no (visible)
      dependent before it. *)
  Definition good_point0 (p : T) (levels : list (list T)) (ip : nat) : Prop :=
    (forall x, In x (concat (firstn ip levels)) -> ~ D0 x p) /\
    (forall x, In x (concat (skipn ip levels)) -> ~ D p x).
  Definition good_point (p : T) (levels : list (list T)) (ip : nat) : Prop :=
    (forall x, In x (concat (firstn ip levels)) -> ~ D x p) /\
    (forall x, In x (concat (skipn ip levels)) -> ~ D p x).

  Lemma scan_nodep p : P p -> forall levels i ip,
    (forall x, In x (concat levels) -> P x /\ x <> p) ->
    (forall x, In x (concat levels) -> ~ D p x) ->
    exists ip', scan T dep p i levels ip = Ret ip' /\
      ((ip' = ip /\ forall x, In x (concat levels) -> ~ D0 x p) \/
       (exists n, ip' = i + n /\ n <= List.length levels /\
                  forall x, In x (concat (firstn n levels)) -> ~ D0 x p)).
  Proof.
    intros Hp. induction levels as [|lvl levels IH]; intros i ip Hl Hd; simpl.
    - exists ip. split; [reflexivity|]. left. auto.
    - simpl in Hl, Hd.
      assert (Hl1 : forall x, In x lvl -> P x /\ x <> p) by (intros x Hx; apply Hl, in_or_app; auto).
      assert (Hd1 : forall x, In x lvl -> ~ D p x) by (intros x Hx; apply Hd, in_or_app; auto).
      destruct (scan_level_nodependency p i lvl ip Hp Hl1 Hd1) as [->|[-> Hf]]; simpl.
      + exists i. split; [reflexivity|]. right. exists 0. split; [lia|]. split; [lia|]. intros x [].
      + destruct (IH (S i) ip) as (ip' & -> & [[-> H]|(n & -> & Hn & H)]).
        * intros x Hx. apply Hl, in_or_app; auto.
        * intros x Hx. apply Hd, in_or_app; auto.
        * exists ip. split; [reflexivity|]. left. split; [reflexivity|].
          intros x Hx. apply in_app_or in Hx as [Hx|Hx]; auto.
        * exists (S i + n). split; [reflexivity|]. right. exists (S n). split; [lia|]. split; [lia|].
          intros x Hx. simpl in Hx. apply in_app_or in Hx as [Hx|Hx]; auto.
  Qed.

  Lemma scan_good p : P p -> forall k levels i ip,
    (forall x, In x (concat levels) -> P x /\ x <> p) ->
    (forall x, In x (concat (firstn k levels)) -> ~ D0 x p) ->
    (forall x, In x (concat (skipn k levels)) -> ~ D p x) ->
    exists ip', scan T dep p i levels ip = Ret ip' /\
      ((ip' = ip /\ (forall x, In x (concat levels) -> ~ D p x) /\ (forall x, In x (concat levels) -> ~ D0 x p)) \/
       (exists n, ip' = i + n /\ n <= List.length levels /\ good_point0 p levels n)).
  Proof.
    intros Hp. induction k as [|k IH]; intros levels i ip Hl H1 H2.
    - simpl in H2. destruct (scan_nodep p Hp levels i ip Hl H2) as (ip' & -> & [[-> H]|(n & -> & Hn & H)]).
      + exists ip. split; [reflexivity|]. left. auto.
      + eexists. split; [reflexivity|]. right. exists n. split; [reflexivity|]. split; [exact Hn|].
        split; [exact H|]. intros x Hx. apply H2. rewrite <- (firstn_skipn n levels), concat_app.
        apply in_or_app; auto.
    - destruct levels as [|lvl levels]; simpl.
      { exists ip. split; [reflexivity|]. left. split; [auto|]. split; intros x []. }
      simpl in Hl, H1, H2.
      destruct (scan_level_nodependent p i lvl ip Hp) as (ip1 & -> & Hip1).
      { intros x Hx; apply Hl, in_or_app; auto. }
      { intros x Hx; apply H1, in_or_app; auto. }
      simpl. destruct (IH levels (S i) ip1) as (ip' & -> & [(-> & Hn1 & Hn2)|(n & -> & Hn & [G1 G2])]).
      { intros x Hx; apply Hl, in_or_app; auto. }
      { intros x Hx; apply H1, in_or_app; auto. }
      { exact H2. }
      + assert (Hi : ip1 = S i \/ ip1 = ip /\ (forall x, In x lvl -> ~ D p x)).
        { destruct Hip1 as [[-> [-> |H]]| ->]; auto. }
        clear Hip1. eexists. split; [reflexivity|]. destruct Hi as [->|[-> Hnp]].
        * right. exists 1. split; [lia|]. split; [simpl; lia|]. split; simpl.
          -- rewrite app_nil_r. intros x Hx. apply H1, in_or_app; auto.
          -- exact Hn1.
        * left. split; [reflexivity|]. split; intros x Hx; apply in_app_or in Hx as [Hx|Hx]; auto.
          apply H1, in_or_app; auto.
      + eexists. split; [reflexivity|]. right. exists (S n). split; [lia|]. split; [simpl; lia|].
        split; simpl; [|exact G2]. intros x Hx. apply in_app_or in Hx as [Hx|Hx]; auto.
        apply H1, in_or_app; auto.
  Qed.

  Lemma good_point_full p levels n : ordered levels -> NoDup (concat levels) ->
    mediated p (concat levels) -> good_point0 p levels n -> good_point p levels n.
  Proof.
    intros Ho Hnd Hm [G1 G2]. split; [|exact G2]. intros x Hx Hd.
    assert (Hcat : concat levels = concat (firstn n levels) ++ concat (skipn n levels))
      by (rewrite <- concat_app, firstn_skipn; reflexivity).
    rewrite <- (firstn_skipn n levels) in Ho. apply ordered_app in Ho as (_ & _ & Ho).
    rewrite Hcat in Hm.
    destruct (Hm x) as (c & Hc & H0 & Hxc); [apply in_or_app; auto|exact Hd|].
    destruct Hxc as [->|Hxc]; [exact (G1 c Hx H0)|].
    apply (G1 c); [|exact H0]. apply (chain_stays _ _ x c Hx Hc Ho Hxc).
  Qed.

  Lemma scan_point p levels : P p -> (forall x, In x (concat levels) -> P x /\ x <> p) ->
    ordered levels -> NoDup (concat levels) -> mediated p (concat levels) ->
    compatible p levels -> exists ip, scan T dep p 0 levels 0 = Ret ip /\ good_point p levels ip.
  Proof.
    intros Hp Hl Ho Hnd Hm (k & H1 & H2).
    destruct (scan_good p Hp k levels 0 0 Hl) as (ip & -> & [(-> & H3 & H4)|(n & -> & _ & G)]).
    - intros x Hx H. apply (H1 x Hx). now apply D0sub.
    - exact H2.
    - exists 0. split; [reflexivity|]. split; [intros x []|exact H3].
    - exists n. split; [reflexivity|]. now apply good_point_full.
  Qed.

  Definition rec_ordered (bound : nat) (rec : T -> list (list T) -> res (list (list T))) : Prop :=
    forall e levels, (forall x, In x (e :: concat levels) -> P x) -> NoDup (e :: concat levels) ->
    ordered levels -> visible e (concat levels) -> compatible e levels ->
    List.length (concat levels) < bound ->
    exists levels', rec e levels = Ret levels' /\
      Permutation (concat levels') (e :: concat levels) /\ ordered levels'.

  (** Putting back one more member of the group keeps the others visible. *)
  Lemma visible_cons e e1 B : ~ D e1 e -> ~ D e1 e1 -> (forall b, In b B -> ~ D e1 b) ->
    visible e B -> visible e (e1 :: B).
  Proof.
    intros H1 Hi HB [Hm Hv].
    assert (Hup : forall z, ~ D e1 z -> mediated z B -> mediated z (e1 :: B)).
    { intros z Hz Hmz x [<-|Hx] Hd; [contradiction|].
      destruct (Hmz x Hx Hd) as (c & Hc & H0 & Hxc). exists c. split; [simpl; auto|]. split; [exact H0|].
      destruct Hxc as [->|Hxc]; [auto|]. right. apply (chain_incl B); [|exact Hxc]. intros w Hw; simpl; auto. }
    assert (Hno : ~ chain (e1 :: B) e1 e).
    { intros H. inversion H as [? ? Hd|? y ? Hd Hy _]; subst; [contradiction|].
      destruct Hy as [<-|Hy]; [contradiction|]. exact (HB y Hy Hd). }
    assert (Hch : forall x z, chain (e1 :: B) x z -> ~ chain (e1 :: B) e1 z -> x <> e1 -> chain B x z).
    { clear. intros x z H. induction H as [x y H|x y z H Hy Hyz IH]; intros Hn Hx; [now apply ch_one|].
      destruct Hy as [<-|Hy]; [contradiction|].
      apply ch_more with y; auto. apply IH; auto. intros ->. contradiction. }
    split; [now apply Hup|].
    intros e' [<-|He'] Hc; [contradiction|].
    apply Hup; [now apply HB|]. apply Hv; [exact He'|].
    apply Hch; auto. intros ->. contradiction.
  Qed.

  Lemma shuffle_ordered bound rec p : P p -> rec_ordered bound rec -> forall members kept behind,
    (forall x, In x (members ++ concat behind) -> P x) -> NoDup (members ++ concat behind) ->
    ~ In p members ->
    ordered behind ->
    (forall a b, In a members -> In b (members ++ concat behind) -> ~ D a b) ->
    (forall x, In x members -> ~ D p x) ->
    (forall e, In e members -> D e p -> visible e (concat behind)) ->
    List.length members + List.length (concat behind) < S bound ->
    exists kept' behind', shuffle T dep rec p members [] kept behind = Ret ([], rev kept ++ kept', behind') /\
      Permutation (kept' ++ concat behind') (members ++ concat behind) /\
      (forall x, In x kept' -> In x members /\ ~ D x p) /\ ordered behind'.
  Proof.
    intros Hp Hrec. induction members as [|e members IH]; intros kept behind HP Hnd Hnp Ho Hm Hd Hv Hlen; simpl.
    - exists [], behind. rewrite app_nil_r. split; [reflexivity|]. split; [reflexivity|]. split; [intros x []|exact Ho].
    - simpl in HP, Hnd, Hnp, Hlen. assert (He : P e) by (apply HP; auto).
      assert (Hne : p <> e) by (intros ->; apply Hnp; auto).
      inversion Hnd as [|? ? Hnin Hnd']; subst.
      assert (Hm' : forall a b, In a members -> In b (members ++ concat behind) -> ~ D a b).
      { intros a b Ha Hb. apply Hm; [simpl; auto|]. simpl. auto. }
      assert (Hd' : forall x, In x members -> ~ D p x) by (intros x Hx; apply Hd; simpl; auto).
      assert (Hv' : forall x, In x members -> D x p -> visible x (concat behind))
        by (intros x Hx; apply Hv; simpl; auto).
      destruct (Dscore p e Hp He Hne) as [[H ->]|[(_ & H & _)|(Hn & _ & ->)]]; simpl.
      + destruct (Hrec e behind) as (behind' & -> & Hperm & Ho').
        * intros x [<-|Hx]; [exact He|]. apply HP. right. apply in_or_app; auto.
        * constructor; [intros Hx; apply Hnin, in_or_app; auto|].
          clear -Hnd'. induction members as [|m ms IHm]; [exact Hnd'|]. simpl in Hnd'.
          inversion Hnd'; auto.
        * exact Ho.
        * apply Hv; simpl; auto.
        * exists 0. split; [intros x []|]. simpl. intros x Hx. apply Hm; [simpl; auto|].
          simpl. right. apply in_or_app; auto.
        * lia.
        * simpl. assert (Hpp : Permutation (members ++ concat behind') (e :: members ++ concat behind)).
          { rewrite Hperm. symmetry. apply Permutation_middle. }
          destruct (IH kept behind') as (kept' & b' & -> & H1 & H2 & H3).
          -- intros x Hx. apply HP. apply (Permutation_in _ Hpp) in Hx. exact Hx.
          -- apply (Permutation_NoDup (Permutation_sym Hpp)). exact Hnd.
          -- intros Hx. apply Hnp. auto.
          -- exact Ho'.
          -- intros a b Ha Hb. apply (Permutation_in _ Hpp) in Hb. apply Hm; simpl; auto.
          -- exact Hd'.
          -- intros x Hx Hxp. apply (visible_perm x (e :: concat behind)); [now symmetry|].
             apply visible_cons; [|now apply Dirr| |now apply Hv'].
             ++ apply Hm; simpl; auto. right. apply in_or_app; auto.
             ++ intros b Hb. apply Hm; simpl; auto. right. apply in_or_app; auto.
          -- rewrite (Permutation_length Hperm). simpl. lia.
          -- exists kept', b'. split; [reflexivity|]. split; [now rewrite H1|]. split; [|exact H3].
             intros x Hx. destruct (H2 x Hx). auto.
      + exfalso. apply (Hd e); simpl; auto.
      + destruct (IH (e :: kept) behind) as (kept' & b' & -> & H1 & H2 & H3); auto.
        * lia.
        * exists (e :: kept'), b'. split; [simpl; rewrite <- app_assoc; reflexivity|].
          split; [simpl; now rewrite H1|]. split; [|exact H3].
          intros x [<-|Hx]; [auto|]. destruct (H2 x Hx). auto.
  Qed.

  (** Only later groups matter for what is visible. *)
  Lemma mediated_behind e A B : ~ (exists a, In a A /\ D a e) ->
    (forall a b, In a A -> In b B -> ~ D a b) ->
    (forall x, In x A -> ~ In x B) ->
    mediated e (A ++ B) -> mediated e B.
  Proof.
    intros HA HAB Hdis Hm x Hx Hd.
    destruct (Hm x) as (c & Hc & H0 & Hxc); [apply in_or_app; auto|exact Hd|].
    assert (HcB : In c B).
    { apply in_app_or in Hc as [Hc|Hc]; [|exact Hc]. exfalso. apply HA. exists c. auto. }
    exists c. split; [exact HcB|]. split; [exact H0|]. destruct Hxc as [->|Hxc]; [auto|]. right.
    clear - Hxc HcB Hx HAB Hdis. induction Hxc as [x y H|x y z H Hin Hyz IH]; [now apply ch_one|].
    assert (HyB : In y B).
    { apply in_app_or in Hin as [Hin|Hin]; [|exact Hin]. exfalso.
      apply (Hdis z); [|exact HcB]. apply (chain_stays A B y z); auto. apply in_or_app; auto. }
    apply ch_more with y; auto.
  Qed.

  Lemma insert_at_ordered : forall fuel, rec_ordered fuel (insert_at T dep fuel).
  Proof.
    induction fuel as [|fuel IH]; intros p levels HP Hnd Ho Hvis Hc Hlen; [lia|]. simpl.
    assert (Hp : P p) by (apply HP; simpl; auto).
    inversion Hnd as [|? ? Hnin Hnd']; subst.
    destruct (scan_point p levels Hp) as (ip & -> & G1 & G2).
    { intros x Hx. split; [apply HP; simpl; auto|]. intros ->. contradiction. }
    { exact Ho. }
    { exact Hnd'. }
    { exact (proj1 Hvis). }
    { exact Hc. }
    simpl. pose proof (firstn_skipn ip levels) as Hsplit.
    destruct (skipn ip levels) as [|lvl behind] eqn:Es.
    - exists (levels ++ [[p]]). split; [reflexivity|]. split.
      + rewrite concat_app. simpl. rewrite Permutation_app_comm. reflexivity.
      + rewrite app_nil_r in Hsplit. rewrite Hsplit in G1. apply ordered_app. split; [exact Ho|]. split.
        * simpl. split; [|exact I]. intros a b [<-|[]] [<-|[]]. now apply Dirr.
        * intros a b Ha [<-|[]]. now apply G1.
    - assert (Hcat : concat levels = concat (firstn ip levels) ++ lvl ++ concat behind).
      { rewrite <- Hsplit at 1. rewrite concat_app. reflexivity. }
      assert (Hoo : ordered (firstn ip levels ++ lvl :: behind)) by now rewrite Hsplit.
      apply ordered_app in Hoo as (Ho1 & Ho2 & Ho3). simpl in Ho2, Ho3. destruct Ho2 as [Ho2 Ho4].
      simpl in G2.
      assert (Hin : forall x, In x (lvl ++ concat behind) -> In x (concat levels))
        by (intros x Hx; rewrite Hcat; apply in_or_app; auto).
      assert (Hdis : forall x, In x (concat (firstn ip levels) ++ lvl) -> ~ In x (concat behind)).
      { rewrite Hcat, app_assoc in Hnd'. clear -Hnd'. intros x Hx Hy.
        induction (concat (firstn ip levels) ++ lvl) as [|m ms IHm]; [destruct Hx|].
        simpl in Hnd'. inversion Hnd'; subst. destruct Hx as [<-|Hx]; [|auto].
        apply H1. apply in_or_app; auto. }
      destruct (shuffle_ordered fuel (insert_at T dep fuel) p Hp IH lvl [] behind)
        as (kept & behind' & -> & Hperm & Hk & Ho').
      + intros x Hx. apply HP. right. auto.
      + rewrite Hcat in Hnd'. clear -Hnd'. induction (concat (firstn ip levels)) as [|m ms IHm]; [exact Hnd'|].
        simpl in Hnd'. inversion Hnd'; auto.
      + intros Hx. apply Hnin, Hin, in_or_app; auto.
      + exact Ho4.
      + exact Ho2.
      + intros x Hx. apply G2, in_or_app; auto.
      + (* the members to be put back are visible from behind *)
        intros e He Hep. destruct Hvis as [_ Hvis]. rewrite Hcat, app_assoc in Hvis.
        assert (HAB : forall a b, In a (concat (firstn ip levels) ++ lvl) -> In b (concat behind) -> ~ D a b).
        { intros a b Ha Hb. apply in_app_or in Ha as [Ha|Ha];
            [apply Ho3; auto; apply in_or_app; auto|apply Ho2; auto; apply in_or_app; auto]. }
        assert (HeA : In e (concat (firstn ip levels) ++ lvl)) by (apply in_or_app; auto).
        split.
        * apply (mediated_behind e (concat (firstn ip levels) ++ lvl)); auto.
          -- intros (a & Ha & Hae). apply in_app_or in Ha as [Ha|Ha].
             ++ apply (Ho3 a e); auto. apply in_or_app; auto.
             ++ apply (Ho2 a e); auto. apply in_or_app; auto.
          -- apply Hvis; [apply in_or_app; auto|now apply ch_one].
        * intros e' He' Hch. apply (mediated_behind e' (concat (firstn ip levels) ++ lvl)); auto.
          -- intros (a & Ha & Hae). exact (HAB a e' Ha He' Hae).
          -- apply Hvis; [apply in_or_app; auto|].
             apply (chain_incl (concat behind) ((concat (firstn ip levels) ++ lvl) ++ concat behind)) in Hch;
               [|intros z Hz; apply in_or_app; auto].
             clear -Hch HeA Hep. induction Hch as [x y H|x y z H Hy Hyz IHc].
             ++ apply ch_more with y; [exact H|apply in_or_app; auto|now apply ch_one].
             ++ apply ch_more with y; auto.
      + rewrite Hcat, !app_length in Hlen. lia.
      + simpl. eexists. split; [reflexivity|]. split.
        * rewrite Hcat, !concat_app. simpl.
          transitivity (concat (firstn ip levels) ++ p :: (lvl ++ concat behind));
            [|symmetry; apply Permutation_middle].
          apply Permutation_app_head. now rewrite Hperm.
        * apply ordered_app. split; [exact Ho1|]. split.
          -- simpl. split; [|exact Ho'].
             intros a b [<-|Ha] [<-|Hb].
             ++ now apply Dirr.
             ++ apply G2. apply (Permutation_in _ Hperm) in Hb. exact Hb.
             ++ now apply Hk.
             ++ apply Ho2; [now apply Hk|]. apply (Permutation_in _ Hperm) in Hb. exact Hb.
          -- simpl. intros a b Ha [<-|Hb]; [now apply G1|].
             apply Ho3; [exact Ha|]. apply (Permutation_in _ Hperm) in Hb. exact Hb.
  Qed.

  (** One insertion keeps the order whenever the newcomer's dependencies all
      come before its dependents. *)
  Lemma insert_ordered p levels :
    (forall x, In x (p :: concat levels) -> P x) -> NoDup (p :: concat levels) ->
    ordered levels -> visible p (concat levels) -> compatible p levels ->
    exists levels', insert T dep p levels = Ret levels' /\
      Permutation (concat levels') (p :: concat levels) /\ ordered levels'.
  Proof. intros. apply insert_at_ordered; auto. Qed.

  Lemma inserts_ordered_gen :
    forall ps done levels, Permutation (concat levels) done ->
    (forall x, In x (done ++ ps) -> P x) -> NoDup (done ++ ps) ->
    ordered levels ->
    (forall l p r, ps = l ++ p :: r -> visible p (done ++ l)) ->
    (forall l p r levels, ps = l ++ p :: r -> Permutation (concat levels) (done ++ l) ->
       ordered levels -> compatible p levels) ->
    exists levels', inserts T dep ps levels = Ret levels' /\
      Permutation (concat levels') (done ++ ps) /\ ordered levels'.
  Proof.
    induction ps as [|p ps IH]; intros done levels Hperm HP Hnd Ho Hv Hc; simpl.
    - exists levels. rewrite app_nil_r. auto.
    - destruct (insert_ordered p levels) as (l1 & -> & P1 & O1).
      + intros x Hx. apply HP. simpl in Hx. rewrite in_app_iff. simpl.
        destruct Hx as [<-|Hx]; [auto|]. left. now apply (Permutation_in _ Hperm).
      + apply (Permutation_NoDup (l := p :: done)); [constructor; symmetry; exact Hperm|].
        apply NoDup_remove in Hnd as [H1 H2]. constructor.
        * intros Hx. apply H2, in_or_app; auto.
        * clear -H1. induction done as [|d ds IHd]; [constructor|]. simpl in H1. inversion H1; subst.
          constructor; [intros Hx; apply H2, in_or_app; auto|auto].
      + exact Ho.
      + apply (visible_perm p done); [now symmetry|]. specialize (Hv [] p ps eq_refl). now rewrite app_nil_r in Hv.
      + apply (Hc [] p ps levels eq_refl); [now rewrite app_nil_r|exact Ho].
      + simpl. destruct (IH (done ++ [p]) l1) as (l2 & -> & P2 & O2).
        * rewrite P1. rewrite Hperm. apply Permutation_cons_append.
        * rewrite <- app_assoc. exact HP.
        * rewrite <- app_assoc. exact Hnd.
        * exact O1.
        * intros l q r E. rewrite <- app_assoc. simpl. apply (Hv (p :: l) q r). simpl. now rewrite E.
        * intros l q r lv E. rewrite <- app_assoc. simpl. apply (Hc (p :: l) q r). simpl. now rewrite E.
        * exists l2. split; [reflexivity|]. split; [|exact O2]. rewrite P2, <- app_assoc. reflexivity.
  Qed.

  (** Dependencies first. *)
  Theorem inserts_dependencies_first ps : (forall x, In x ps -> P x) -> NoDup ps ->
    dependencies_first D ps ->
    exists levels, inserts T dep ps [] = Ret levels /\
      Permutation (concat levels) ps /\ dependency_order D levels.
  Proof.
    intros HP Hnd Hf.
    assert (Hno : forall l p r, ps = l ++ p :: r -> forall x, In x l -> ~ D x p).
    { intros l p r E x Hx. apply in_split in Hx as (l1 & l2 & ->).
      apply (Hf l1 x (l2 ++ p :: r)); [rewrite E, <- app_assoc; reflexivity|]. apply in_or_app; simpl; auto. }
    destruct (inserts_ordered_gen ps [] []) as (levels & E & Hp & Ho); auto.
    - simpl. auto.
    - intros l p r E. simpl. split.
      + intros x Hx Hd. exfalso. exact (Hno l p r E x Hx Hd).
      + intros e He Hch. exfalso.
        assert (H : exists y, In y l /\ D y p).
        { clear - Hch He. induction Hch as [x y H|x y z H Hy _ IH]; eauto. }
        destruct H as (y & Hy & Hd). exact (Hno l p r E y Hy Hd).
    - intros l p r levels E Hp _. exists (List.length levels). rewrite firstn_all, skipn_all. split.
      + intros x Hx. apply (Hno l p r E). simpl in Hp. now apply (Permutation_in _ Hp).
      + intros x [].
    - exists levels. split; [exact E|]. split; [exact Hp|]. now apply ordered_spec.
  Qed.

  (** Dependencies last: every dependency not seen from both sides must go
      through types that are in the collection. *)
  Theorem inserts_dependencies_last ps : (forall x, In x ps -> P x) -> NoDup ps ->
    dependencies_last D ps ->
    (forall x y, In x ps -> In y ps -> D x y ->
       exists c, In c ps /\ D0 c y /\ (x = c \/ chain ps x c)) ->
    exists levels, inserts T dep ps [] = Ret levels /\
      Permutation (concat levels) ps /\ dependency_order D levels.
  Proof.
    intros HP Hnd Hl Hmed.
    (* what a member reaches comes later; so chains to a member stay before it *)
    assert (Hno : forall l p r, ps = l ++ p :: r -> forall x, In x l -> ~ D p x).
    { intros l p r E x Hx. apply in_split in Hx as (l1 & l2 & ->).
      apply (Hl l1 x (l2 ++ p :: r)); [rewrite E, <- app_assoc; reflexivity|]. apply in_or_app; simpl; auto. }
    assert (Hback : forall l r, ps = l ++ r -> forall x y, In x ps -> In y l -> D x y -> In x l).
    { intros l r E x y Hx Hy Hd. rewrite E in Hx. apply in_app_or in Hx as [Hx|Hx]; [exact Hx|]. exfalso.
      apply in_split in Hx as (r1 & r2 & ->). apply (Hno (l ++ r1) x r2) with y; auto.
      - rewrite E. now rewrite <- app_assoc.
      - apply in_or_app; auto. }
    assert (HM : forall l r, ps = l ++ r -> forall e, In e ps -> (forall x, In x ps -> D x e -> In x l) -> mediated e l).
    { intros l r E e He Hpre x Hx Hd.
      assert (Hlps : forall z, In z l -> In z ps) by (intros z Hz; rewrite E; apply in_or_app; auto).
      destruct (Hmed x e) as (c & Hc & H0 & Hxc); auto.
      assert (Hcl : In c l) by (apply Hpre; auto).
      exists c. split; [exact Hcl|]. split; [exact H0|]. destruct Hxc as [->|Hxc]; [auto|]. right.
      clear - Hxc Hcl Hback E. induction Hxc as [x y H|x y z H Hin Hyz IH]; [now apply ch_one|].
      apply ch_more with y; auto.
      assert (Hs : forall y z, chain ps y z -> In y ps -> In z l -> In y l).
      { clear - Hback E. intros y z H. induction H as [a b H|a b c H Hb Hbc IH]; intros Ha Hz.
        - now apply (Hback l r E a b).
        - apply (Hback l r E a b); auto. }
      now apply (Hs y z). }
    destruct (inserts_ordered_gen ps [] []) as (levels & E & Hp & Ho); auto.
    - simpl. auto.
    - intros l p r E. simpl.
      assert (Hpl : forall x, In x ps -> D x p -> In x l).
      { intros x Hx Hd. destruct (in_app_or l (p :: r) x) as [H|[<-|H]]; [rewrite <- E; exact Hx|exact H| |].
        - exfalso. apply (Dirr p); auto.
        - exfalso. apply in_split in H as (r1 & r2 & ->).
          apply (Hno (l ++ p :: r1) x r2) with p; auto.
          + rewrite E, <- app_assoc. reflexivity.
          + apply in_or_app; simpl; auto. }
      split.
      + apply (HM l (p :: r) E); auto. rewrite E. apply in_or_app; simpl; auto.
      + intros e He Hch. apply (HM l (p :: r) E).
        * rewrite E. apply in_or_app; auto.
        * intros x Hx Hd. now apply (Hback l (p :: r) E x e).
    - intros l p r levels E Hp _. exists 0. split; [intros x []|]. simpl. intros x Hx.
      apply (Hno l p r E). simpl in Hp. now apply (Permutation_in _ Hp).
    - exists levels. split; [exact E|]. split; [exact Hp|]. now apply ordered_spec.
  Qed.
  Lemma leads_chain S x y : leads D S x y -> chain S x y.
  Proof. intros H. induction H as [x y H|x y z H Hy _ IH]; [now apply ch_one|now apply ch_more with y]. Qed.
  Lemma chain_leads S x y : chain S x y -> leads D S x y.
  Proof. intros H. induction H as [x y H|x y z H Hy _ IH]; [now apply lead_one|now apply lead_more with y]. Qed.

  Lemma in_some_group (x : T) (levels : list (list T)) : In x (concat levels) -> exists n, in_group x n levels.
  Proof.
    intros H. apply in_concat in H as (g & Hg & Hx). apply In_nth_error in Hg as [n Hn].
    exists n, g. auto.
  Qed.

  (** In a dependency order a chain leads to earlier groups. *)
  Lemma chain_earlier levels x y n m : dependency_order D levels -> chain (concat levels) x y ->
    in_group x n levels -> in_group y m levels -> m < n.
  Proof.
    intros Ho H. revert n m. induction H as [x y H|x y z H Hy _ IH]; intros n m Hx Hz.
    - now apply (Ho x y).
    - destruct (in_some_group y levels Hy) as [k Hk]. specialize (IH k m Hk Hz).
      specialize (Ho x y n k Hx Hk H). lia.
  Qed.

  (** Where the first dependent is. *)
  Lemma first_dependent p : P p -> forall levels, (forall x, In x (concat levels) -> P x /\ x <> p) ->
    exists k, (forall x, In x (concat (firstn k levels)) -> ~ D x p) /\
      ((k = List.length levels) \/ (exists x, in_group x k levels /\ D x p)).
  Proof.
    intros Hp. induction levels as [|lvl levels IH]; intros Hl.
    - exists 0. split; [intros x []|]. now left.
    - assert (Hdec : (exists x, In x lvl /\ D x p) \/ (forall x, In x lvl -> ~ D x p)).
      { assert (Hl1 : forall x, In x lvl -> P x /\ x <> p) by (intros x Hx; apply Hl; simpl; apply in_or_app; auto).
        clear -Hl1 Hp Dscore. induction lvl as [|e lvl IH]; [right; intros x []|].
        destruct (Hl1 e) as [He Hne]; [simpl; auto|].
        destruct (Dscore p e Hp He (not_eq_sym Hne)) as [[H _]|[(H & _)|(H & _)]].
        - left. exists e. simpl. auto.
        - destruct IH as [(x & Hx & Hd)|IH]; [intros x Hx; apply Hl1; simpl; auto| |].
          + left. exists x. simpl. auto.
          + right. intros x [<-|Hx]; auto.
        - destruct IH as [(x & Hx & Hd)|IH]; [intros x Hx; apply Hl1; simpl; auto| |].
          + left. exists x. simpl. auto.
          + right. intros x [<-|Hx]; auto. }
      destruct Hdec as [(x & Hx & Hd)|Hno].
      + exists 0. split; [intros z []|]. right. exists x. split; [|exact Hd]. exists lvl. auto.
      + destruct IH as (k & H1 & H2); [intros x Hx; apply Hl; simpl; apply in_or_app; auto|].
        exists (S k). split.
        * simpl. intros x Hx. apply in_app_or in Hx as [Hx|Hx]; auto.
        * destruct H2 as [->|(x & (g & Hg & Hx) & Hd)]; [now left|]. right. exists x. split; [|exact Hd]. exists g. auto.
  Qed.

  Lemma in_skipn (levels : list (list T)) : forall k y, In y (concat (skipn k levels)) ->
    exists m, k <= m /\ in_group y m levels.
  Proof.
    induction levels as [|l ls IH]; intros k y H; [destruct k; destruct H|].
    destruct k as [|k].
    - destruct (in_some_group y (l :: ls) H) as [m Hm]. exists m. split; [lia|exact Hm].
    - destruct (IH k y H) as (m & Hm & g & Hg & Hy). exists (S m). split; [lia|]. exists g. auto.
  Qed.

  (** Any order in which newcomers find their neighbours in order already. *)
  Theorem inserts_bridged ps : (forall x, In x ps -> P x) -> NoDup ps -> bridged D ps ->
    (forall l p r, ps = l ++ p :: r -> visible p l) ->
    exists levels, inserts T dep ps [] = Ret levels /\
      Permutation (concat levels) ps /\ dependency_order D levels.
  Proof.
    intros HP Hnd Hb Hv.
    destruct (inserts_ordered_gen ps [] []) as (levels & E & Hp & Ho); auto.
    - simpl. auto.
    - intros l p r levels E Hperm Ho. simpl in Hperm.
      assert (Hpp : P p) by (apply HP; rewrite E; apply in_or_app; simpl; auto).
      assert (Hl : forall x, In x (concat levels) -> P x /\ x <> p).
      { intros x Hx. apply (Permutation_in _ Hperm) in Hx. split; [apply HP; rewrite E; apply in_or_app; auto|].
        intros ->. rewrite E in Hnd. apply NoDup_remove_2 in Hnd. apply Hnd, in_or_app; auto. }
      destruct (first_dependent p Hpp levels Hl) as (k & H1 & H2). exists k. split; [exact H1|].
      intros y Hy Hd. destruct H2 as [->|(x & Hx & Hxp)].
      + rewrite skipn_all in Hy. destruct Hy.
      + destruct (in_skipn levels k y Hy) as (m & Hm & Hg).
        assert (Hin : forall z n, in_group z n levels -> In z l).
        { intros z n (g & Hg' & Hz). apply (Permutation_in _ Hperm). apply in_concat. exists g. split; [|exact Hz].
          now apply nth_error_In in Hg'. }
        assert (Hch := Hb l p r x y E (Hin x k Hx) (Hin y m Hg) Hxp Hd).
        apply leads_chain, (chain_incl l (concat levels)) in Hch.
        * apply ordered_spec in Ho. assert (m < k) by now apply (chain_earlier levels x y). lia.
        * intros z Hz. now apply (Permutation_in _ (Permutation_sym Hperm)).
    - exists levels. split; [exact E|]. split; [exact Hp|]. now apply ordered_spec.
  Qed.
End Ordered.

(** One insertion, with scores that report the relation exactly. *)
Section Exact.
  Variable T : Type.
  Variable dep : T -> T -> res nat.
  Variable D : T -> T -> Prop.
  Variable P : T -> Prop.
  Hypothesis Dscore : forall j p, P j -> P p -> j <> p -> score_ok T dep D D j p.
  Hypothesis Dirr : forall a, P a -> ~ D a a.

  Lemma all_visible p S : visible T D D p S.
  Proof. split; [intros x Hx Hd; exists x; auto|]. intros e He _ x Hx Hd. exists x. auto. Qed.

  Lemma single_concat (l : list T) : concat (map (fun e => [e]) l) = l.
  Proof. induction l as [|e l IH]; simpl; [reflexivity|now rewrite IH]. Qed.

  Lemma shuffle_exact bound rec p : P p -> rec_ordered T D D P bound rec -> forall members pre kept behind,
    (forall x, In x (members ++ concat behind) -> P x) -> NoDup (members ++ concat behind) ->
    ~ In p members ->
    ordered T D behind ->
    (forall a b, In a members -> In b (members ++ concat behind) -> ~ D a b) ->
    (forall x, In x members -> D x p -> ~ D p x) ->
    List.length members + List.length (concat behind) < S bound ->
    exists needed kept' behind',
      shuffle T dep rec p members pre kept behind = Ret (pre ++ map (fun e => [e]) needed, rev kept ++ kept', behind') /\
      Permutation (needed ++ kept' ++ concat behind') (members ++ concat behind) /\
      (forall x, In x needed -> In x members /\ D p x) /\
      (forall x, In x kept' -> In x members /\ ~ D x p /\ ~ D p x) /\
      (forall x, In x (concat behind') -> In x (concat behind) \/ In x members /\ D x p) /\
      ordered T D behind'.
  Proof.
    intros Hp Hrec. induction members as [|e members IH]; intros pre kept behind HP Hnd Hnp Ho Hm Hd Hlen; simpl.
    - exists [], [], behind. rewrite !app_nil_r. split; [reflexivity|]. split; [reflexivity|].
      split; [intros x []|]. split; [intros x []|]. split; [auto|exact Ho].
    - simpl in HP, Hnd, Hnp, Hlen. assert (He : P e) by (apply HP; auto).
      assert (Hne : p <> e) by (intros ->; apply Hnp; auto).
      inversion Hnd as [|? ? Hnin Hnd']; subst.
      assert (Hm' : forall a b, In a members -> In b (members ++ concat behind) -> ~ D a b).
      { intros a b Ha Hb. apply Hm; [simpl; auto|]. simpl. auto. }
      assert (Hd' : forall x, In x members -> D x p -> ~ D p x) by (intros x Hx; apply Hd; simpl; auto).
      destruct (Dscore p e Hp He Hne) as [[H ->]|[(Hn & H & ->)|(Hn & Hn2 & ->)]]; simpl.
      + destruct (Hrec e behind) as (behind' & -> & Hperm & Ho').
        * intros x [<-|Hx]; [exact He|]. apply HP. right. apply in_or_app; auto.
        * constructor; [intros Hx; apply Hnin, in_or_app; auto|].
          clear -Hnd'. induction members as [|m ms IHm]; [exact Hnd'|]. simpl in Hnd'.
          inversion Hnd'; auto.
        * exact Ho.
        * apply all_visible.
        * exists 0. split; [intros x []|]. simpl. intros x Hx. apply Hm; [simpl; auto|].
          simpl. right. apply in_or_app; auto.
        * lia.
        * simpl. assert (Hpp : Permutation (members ++ concat behind') (e :: members ++ concat behind)).
          { rewrite Hperm. symmetry. apply Permutation_middle. }
          destruct (IH pre kept behind') as (needed & kept' & b' & -> & H1 & H2 & H3 & H4 & H5).
          -- intros x Hx. apply HP. apply (Permutation_in _ Hpp) in Hx. exact Hx.
          -- apply (Permutation_NoDup (Permutation_sym Hpp)). exact Hnd.
          -- intros Hx. apply Hnp. auto.
          -- exact Ho'.
          -- intros a b Ha Hb. apply (Permutation_in _ Hpp) in Hb. apply Hm; simpl; auto.
          -- exact Hd'.
          -- rewrite (Permutation_length Hperm). simpl. lia.
          -- exists needed, kept', b'. split; [reflexivity|]. split; [now rewrite H1|].
             split; [intros x Hx; destruct (H2 x Hx); auto|].
             split; [intros x Hx; destruct (H3 x Hx); auto|].
             split; [|exact H5].
             intros x Hx. destruct (H4 x Hx) as [Hb|[Hb Hb']]; [|auto].
             apply (Permutation_in _ Hperm) in Hb as [<-|Hb]; auto.
      + destruct (IH (pre ++ [[e]]) kept behind) as (needed & kept' & b' & -> & H1 & H2 & H3 & H4 & H5); auto; [lia|].
        exists (e :: needed), kept', b'. split; [rewrite <- app_assoc; reflexivity|].
        split; [simpl; now rewrite H1|].
        split; [intros x [<-|Hx]; [auto|destruct (H2 x Hx); auto]|].
        split; [intros x Hx; destruct (H3 x Hx); auto|].
        split; [|exact H5]. intros x Hx. destruct (H4 x Hx) as [Hb|[Hb Hb']]; auto.
      + destruct (IH pre (e :: kept) behind) as (needed & kept' & b' & -> & H1 & H2 & H3 & H4 & H5); auto; [lia|].
        exists needed, (e :: kept'), b'. split; [simpl; rewrite <- app_assoc; reflexivity|].
        split; [simpl; rewrite <- Permutation_middle; now rewrite H1|].
        split; [intros x Hx; destruct (H2 x Hx); auto|].
        split; [intros x [<-|Hx]; [auto|destruct (H3 x Hx); auto]|].
        split; [|exact H5]. intros x Hx. destruct (H4 x Hx) as [Hb|[Hb Hb']]; auto.
  Qed.

  (** Where the newcomer goes: to the group of the first dependent, or else behind
      the last dependency. *)
  Lemma scan_level_exact p i lvl ip : P p -> (forall x, In x lvl -> P x /\ x <> p) ->
    (forall x, In x lvl -> D x p -> ~ D p x) ->
    ((exists x, In x lvl /\ D x p) /\ scan_level T dep p i lvl ip = Ret (i, true)) \/
    ((forall x, In x lvl -> ~ D x p) /\
     (((exists x, In x lvl /\ D p x) /\ scan_level T dep p i lvl ip = Ret (S i, false)) \/
      ((forall x, In x lvl -> ~ D p x) /\ scan_level T dep p i lvl ip = Ret (ip, false)))).
  Proof.
    intros Hp. revert ip. induction lvl as [|j lvl IH]; intros ip Hl Ha; simpl.
    - right. split; [intros x []|]. right. split; [intros x []|reflexivity].
    - destruct (Hl j) as [Hj Hne]; [simpl; auto|].
      assert (Hl' : forall x, In x lvl -> P x /\ x <> p) by (intros x Hx; apply Hl; simpl; auto).
      assert (Ha' : forall x, In x lvl -> D x p -> ~ D p x) by (intros x Hx; apply Ha; simpl; auto).
      destruct (Dscore j p Hj Hp Hne) as [[H ->]|[(Hn & H & ->)|(Hn & Hn2 & ->)]]; simpl.
      + assert (Hjp : ~ D j p) by (intros Hjp; apply (Ha j); simpl; auto).
        destruct (IH (S i) Hl' Ha') as [[(x & Hx & Hd) E]|[Hno [[(x & Hx & Hd) E]|[Hno2 E]]]].
        * left. split; [exists x; simpl; auto|exact E].
        * right. split; [intros y [<-|Hy]; auto|]. left. split; [exists x; simpl; auto|exact E].
        * right. split; [intros y [<-|Hy]; auto|]. left. split; [exists j; simpl; auto|exact E].
      + left. split; [exists j; simpl; auto|reflexivity].
      + destruct (IH ip Hl' Ha') as [[(x & Hx & Hd) E]|[Hno [[(x & Hx & Hd) E]|[Hno2 E]]]].
        * left. split; [exists x; simpl; auto|exact E].
        * right. split; [intros y [<-|Hy]; auto|]. left. split; [exists x; simpl; auto|exact E].
        * right. split; [intros y [<-|Hy]; auto|]. right. split; [intros y [<-|Hy]; auto|exact E].
  Qed.

  Lemma scan_exact p : P p -> forall levels i ip, (forall x, In x (concat levels) -> P x /\ x <> p) ->
    (forall x, In x (concat levels) -> D x p -> ~ D p x) ->
    exists ip', scan T dep p i levels ip = Ret ip' /\
      ((exists n x, ip' = i + n /\ in_group x n levels /\ D x p /\ forall z, In z (concat (firstn n levels)) -> ~ D z p) \/
       ((forall z, In z (concat levels) -> ~ D z p) /\
        ((exists n x, ip' = i + S n /\ n < List.length levels /\ in_group x n levels /\ D p x /\ forall z, In z (concat (skipn (S n) levels)) -> ~ D p z) \/
         (ip' = ip /\ forall z, In z (concat levels) -> ~ D p z)))).
  Proof.
    intros Hp. induction levels as [|lvl levels IH]; intros i ip Hl Ha; simpl.
    - exists ip. split; [reflexivity|]. right. split; [intros z []|]. right. split; [reflexivity|intros z []].
    - simpl in Hl, Ha.
      assert (Hl1 : forall x, In x lvl -> P x /\ x <> p) by (intros x Hx; apply Hl, in_or_app; auto).
      assert (Ha1 : forall x, In x lvl -> D x p -> ~ D p x) by (intros x Hx; apply Ha, in_or_app; auto).
      assert (Hl2 : forall x, In x (concat levels) -> P x /\ x <> p) by (intros x Hx; apply Hl, in_or_app; auto).
      assert (Ha2 : forall x, In x (concat levels) -> D x p -> ~ D p x) by (intros x Hx; apply Ha, in_or_app; auto).
      destruct (scan_level_exact p i lvl ip Hp Hl1 Ha1) as [[(x & Hx & Hd) ->]|[Hno [[(x & Hx & Hd) ->]|[Hno2 ->]]]]; simpl.
      + exists i. split; [reflexivity|]. left. exists 0, x. split; [lia|]. split; [exists lvl; auto|]. split; [exact Hd|intros z []].
      + destruct (IH (S i) (S i) Hl2 Ha2) as (ip' & -> & [(n & y & -> & (g & Hg & Hy) & Hd' & Hf)|[Hf [(n & y & -> & Hlt & (g & Hg & Hy) & Hd' & Hf')|[-> Hf']]]]).
        * eexists. split; [reflexivity|]. left. exists (S n), y. split; [lia|]. split; [exists g; auto|]. split; [exact Hd'|].
          simpl. intros z Hz. apply in_app_or in Hz as [Hz|Hz]; auto.
        * eexists. split; [reflexivity|]. right. split; [intros z Hz; apply in_app_or in Hz as [Hz|Hz]; auto|].
          left. exists (S n), y. split; [lia|]. split; [lia|]. split; [exists g; auto|]. split; [exact Hd'|exact Hf'].
        * eexists. split; [reflexivity|]. right. split; [intros z Hz; apply in_app_or in Hz as [Hz|Hz]; auto|].
          left. exists 0, x. split; [lia|]. split; [lia|]. split; [exists lvl; auto|]. split; [exact Hd|exact Hf'].
      + destruct (IH (S i) ip Hl2 Ha2) as (ip' & -> & [(n & y & -> & (g & Hg & Hy) & Hd' & Hf)|[Hf [(n & y & -> & Hlt & (g & Hg & Hy) & Hd' & Hf')|[-> Hf']]]]).
        * eexists. split; [reflexivity|]. left. exists (S n), y. split; [lia|]. split; [exists g; auto|]. split; [exact Hd'|].
          simpl. intros z Hz. apply in_app_or in Hz as [Hz|Hz]; auto.
        * eexists. split; [reflexivity|]. right. split; [intros z Hz; apply in_app_or in Hz as [Hz|Hz]; auto|].
          left. exists (S n), y. split; [lia|]. split; [lia|]. split; [exists g; auto|]. split; [exact Hd'|exact Hf'].
        * eexists. split; [reflexivity|]. right. split; [intros z Hz; apply in_app_or in Hz as [Hz|Hz]; auto|].
          right. split; [reflexivity|]. intros z Hz. apply in_app_or in Hz as [Hz|Hz]; auto.
  Qed.

  Lemma ordered_singles (l : list T) : (forall a b, In a l -> In b l -> ~ D a b) -> ordered T D (map (fun e => [e]) l).
  Proof.
    induction l as [|e l IH]; intros H; simpl; [exact I|]. split.
    - rewrite single_concat. intros a b [<-|[]] Hb. apply H; simpl in *; auto.
    - apply IH. intros a b Ha Hb. apply H; simpl; auto.
  Qed.

  (** Nothing the newcomer depends on is in a later group than something that
      depends on it: exactly then the result is a dependency order. *)
  Theorem insert_exactly p levels :
    (forall x, In x (p :: concat levels) -> P x) -> NoDup (p :: concat levels) ->
    (forall x, In x (concat levels) -> D x p -> ~ D p x) ->
    dependency_order D levels ->
    exists levels', insert T dep p levels = Ret levels' /\ Permutation (concat levels') (p :: concat levels) /\
      (dependency_order D levels' <->
       forall x y n m, in_group x n levels -> in_group y m levels -> D x p -> D p y -> m <= n).
  Proof.
    intros HP Hnd Has Hord. assert (Ho := proj2 (ordered_spec T D levels) Hord).
    unfold insert. cbn [insert_at].
    assert (Hp : P p) by (apply HP; simpl; auto).
    inversion Hnd as [|? ? Hnin Hnd']; subst.
    assert (Hl : forall x, In x (concat levels) -> P x /\ x <> p).
    { intros x Hx. split; [apply HP; simpl; auto|]. intros ->. contradiction. }
    destruct (scan_exact p Hp levels 0 0 Hl Has) as (ip & -> & Hip). cbn [rbind].
    assert (Hin : forall x n, in_group x n levels -> In x (concat levels)).
    { intros x n (g & Hg & Hx). apply in_concat. exists g. split; [now apply nth_error_In in Hg|exact Hx]. }
    (* no dependent before the insertion point *)
    assert (G1 : forall x, In x (concat (firstn ip levels)) -> ~ D x p).
    { destruct Hip as [(n & x & -> & _ & _ & H)|[H _]]; [exact H|].
      intros x Hx. apply H. rewrite <- (firstn_skipn ip levels), concat_app. apply in_or_app; auto. }
    pose proof (firstn_skipn ip levels) as Hsplit.
    destruct (skipn ip levels) as [|lvl behind] eqn:Es.
    - exists (levels ++ [[p]]). split; [reflexivity|]. split; [rewrite concat_app; simpl; now rewrite Permutation_app_comm|].
      rewrite app_nil_r in Hsplit. rewrite Hsplit in G1. split.
      + intros _ x y n m Hx _ Hd. exfalso. apply (G1 x); [now apply (Hin x n)|exact Hd].
      + intros _. apply ordered_spec. apply ordered_app. split; [exact Ho|]. split.
        * simpl. split; [|exact I]. intros a b [<-|[]] [<-|[]]. now apply Dirr.
        * simpl. intros a b Ha [<-|[]]. now apply G1.
    - assert (Hcat : concat levels = concat (firstn ip levels) ++ lvl ++ concat behind).
      { rewrite <- Hsplit at 1. rewrite concat_app. reflexivity. }
      assert (Hoo : ordered T D (firstn ip levels ++ lvl :: behind)) by now rewrite Hsplit.
      apply ordered_app in Hoo as (Ho1 & Ho2 & Ho3). simpl in Ho2, Ho3. destruct Ho2 as [Ho2 Ho4].
      assert (Hin' : forall x, In x (lvl ++ concat behind) -> In x (concat levels))
        by (intros x Hx; rewrite Hcat; apply in_or_app; auto).
      destruct (shuffle_exact (List.length (concat levels)) (insert_at T dep (List.length (concat levels))) p Hp
                 (insert_at_ordered T dep D D P Dscore (fun a b H => H) Dirr (List.length (concat levels))) lvl [] [] behind)
        as (needed & kept & behind' & -> & Hperm & Hn & Hk & Hb & Ho').
      + intros x Hx. apply HP. right. auto.
      + rewrite Hcat in Hnd'. clear -Hnd'. induction (concat (firstn ip levels)) as [|m ms IHm]; [exact Hnd'|].
        simpl in Hnd'. inversion Hnd'; auto.
      + intros Hx. apply Hnin, Hin', in_or_app; auto.
      + exact Ho4.
      + exact Ho2.
      + intros x Hx. apply Has. apply Hin', in_or_app; auto.
      + rewrite Hcat, !app_length. lia.
      + cbn [rbind app rev]. eexists. split; [reflexivity|].
        set (front := firstn ip levels) in *.
        assert (Hlater : forall y, In y (concat behind) -> exists m, ip < m /\ in_group y m levels).
        { intros y Hy. destruct (in_skipn T levels (S ip) y) as (m & Hm & Hg).
          - replace (skipn (S ip) levels) with behind; [exact Hy|].
            clear -Es. revert levels Es. induction ip as [|ip IH]; intros [|l ls] Es; simpl in *; try discriminate.
            + now injection Es as _ <-.
            + now apply IH.
          - exists m. split; [lia|exact Hg]. }
        split.
        { rewrite Hcat, !concat_app, single_concat. simpl.
          transitivity (concat front ++ p :: (lvl ++ concat behind)); [|symmetry; apply Permutation_middle].
          apply Permutation_app_head. rewrite <- Permutation_middle. now rewrite Hperm. }
        split.
        * intros H x y n m Hx Hy Hxp Hpy. destruct (le_gt_dec m n) as [Hle|Hgt]; [exact Hle|]. exfalso.
          destruct Hip as [(i & w & -> & Hw & Hwp & Hf)|[Hf _]]; [|apply (Hf x); [now apply (Hin x n)|exact Hxp]].
          cbn [Nat.add] in *.
          (* the first dependent is not behind [x], so [y] is behind the insertion point *)
          assert (Hiy : i < m).
          { destruct (le_gt_dec i n) as [Hle|Hlt]; [lia|]. exfalso. apply (Hf x); [|exact Hxp].
            destruct Hx as (g & Hg & Hx). subst front. apply in_concat. exists g. split; [|exact Hx].
            clear -Hg Hlt. revert n levels Hg Hlt. induction i as [|i IH]; intros n levels Hg Hlt; [lia|].
            destruct levels as [|l ls]; [destruct n; discriminate|]. destruct n as [|n]; simpl in *.
            - injection Hg as ->. auto.
            - right. apply (IH n); auto. lia. }
          assert (Hyb : In y (concat behind)).
          { destruct Hy as (g & Hg & Hy). apply in_concat. exists g. split; [|exact Hy].
            clear -Hg Hiy Es. revert m levels Hg Hiy Es. induction i as [|i IH]; intros m levels Hg Hiy Es;
              destruct levels as [|l ls]; try discriminate; destruct m as [|m]; try lia; simpl in *.
            - injection Es as -> ->. now apply nth_error_In in Hg.
            - apply (IH m ls); auto. lia. }
          assert (Hyb' : In y (concat behind')).
          { assert (Hy' : In y (needed ++ kept ++ concat behind')).
            { apply (Permutation_in _ (Permutation_sym Hperm)). apply in_or_app; auto. }
            assert (Hdis : ~ In y lvl).
            { rewrite Hcat in Hnd'. clear -Hnd' Hyb. induction (concat front) as [|a l IH]; simpl in Hnd'; [|inversion Hnd'; auto].
              intros Hy. induction lvl as [|a l IH]; [destruct Hy|]. simpl in Hnd'. inversion Hnd'; subst.
              destruct Hy as [<-|Hy]; [apply H1, in_or_app; auto|auto]. }
            apply in_app_or in Hy' as [Hy'|Hy']; [exfalso; apply Hdis; now apply Hn|].
            apply in_app_or in Hy' as [Hy'|Hy']; [exfalso; apply Hdis; now apply Hk|exact Hy']. }
          apply ordered_spec in H. apply ordered_app in H as (_ & H & _). apply ordered_app in H as (_ & H & _).
          simpl in H. destruct H as [H _]. apply (H p y); auto. right. apply in_or_app; auto.
        * intros Hc.
          (* nothing behind the insertion point is needed *)
          assert (G2 : forall y, In y (concat behind) -> ~ D p y).
          { intros y Hy Hd. destruct (Hlater y Hy) as (m & Hm & Hg).
            destruct Hip as [(i & w & -> & Hw & Hwp & _)|[_ [(i & w & -> & _ & _ & _ & Hf)|[-> Hf]]]].
            - specialize (Hc w y i m Hw Hg Hwp Hd). simpl in Hm. lia.
            - apply (Hf y); [|exact Hd]. simpl in Es |- *. rewrite Es. simpl. apply in_or_app; auto.
            - apply (Hf y); [|exact Hd]. now apply (Hin y m). }
          assert (G3 : forall y, In y (concat behind') -> ~ D p y).
          { intros y Hy Hd. destruct (Hb y Hy) as [Hy'|[Hy' Hyp]]; [now apply (G2 y)|].
            apply (Has y); auto. apply Hin', in_or_app; auto. }
          assert (Hall : forall x, In x (needed ++ kept ++ concat behind') -> In x (lvl ++ concat behind))
            by (intros x Hx; now apply (Permutation_in _ Hperm)).
          apply ordered_spec. apply ordered_app. split; [exact Ho1|]. split.
          -- apply ordered_app. split; [|split].
             ++ apply ordered_singles. intros a b Ha Hb'. apply Ho2; [now apply Hn|]. apply in_or_app. left. now apply Hn.
             ++ simpl. split; [|exact Ho']. intros a b [<-|Ha] [<-|Hb'].
                ** now apply Dirr.
                ** apply in_app_or in Hb' as [Hb'|Hb']; [now apply Hk|now apply G3].
                ** now apply Hk.
                ** apply Ho2; [now apply Hk|]. apply Hall. apply in_or_app. now right.
             ++ rewrite single_concat. simpl. intros a b Ha [<-|Hb'].
                ** intros Hap. apply (Has a); auto; [|now apply Hn]. apply Hin', in_or_app. left. now apply Hn.
                ** apply Ho2; [now apply Hn|]. apply Hall. apply in_or_app. now right.
          -- rewrite concat_app, single_concat. simpl. intros a b Ha Hb'.
             apply in_app_or in Hb' as [Hb'|[<-|Hb']].
             ++ apply Ho3; [exact Ha|]. apply Hall, in_or_app; auto.
             ++ now apply G1.
             ++ apply Ho3; [exact Ha|]. apply Hall. apply in_or_app. now right.
  Qed.
End Exact.

(** Groups without mutual dependencies, for symmetric scores. *)
Section Independent.
  Variable T : Type.
  Variable dep : T -> T -> res nat.
  Variable P : T -> Prop.
  Hypothesis scored : forall j p, P j -> P p -> exists n, n <= 2 /\ dep j p = Ret n.
  Hypothesis sym : forall j p, P j -> P p -> dep j p = Ret 0 -> dep p j = Ret 0.

  Definition none (a b : T) : Prop := dep a b = Ret 0 /\ dep b a = Ret 0.
  Definition indep (levels : list (list T)) : Prop := Forall (ForallOrdPairs none) levels.

  Definition rec_indep (rec : T -> list (list T) -> res (list (list T))) : Prop :=
    forall e levels levels', P e -> all_in T P levels -> indep levels -> rec e levels = Ret levels' ->
    indep levels' /\ all_in T P levels'.

  Lemma FOP_app_single (R : T -> T -> Prop) l x : ForallOrdPairs R l -> Forall (fun y => R y x) l ->
    ForallOrdPairs R (l ++ [x]).
  Proof.
    induction l as [|a l IH]; simpl; intros H1 H2; [repeat constructor|].
    inversion H1; subst. inversion H2; subst. constructor; [|auto].
    apply Forall_app; split; auto.
  Qed.

  Lemma shuffle_indep rec p : P p -> rec_indep rec -> forall members pre kept behind pre' kept' behind',
    (forall x, In x members -> P x) -> (forall x, In x kept -> P x) ->
    all_in T P pre -> all_in T P behind -> indep pre -> indep behind ->
    ForallOrdPairs none (rev kept ++ members) -> Forall (none p) kept ->
    shuffle T dep rec p members pre kept behind = Ret (pre', kept', behind') ->
    indep pre' /\ indep behind' /\ ForallOrdPairs none kept' /\ Forall (none p) kept' /\
    all_in T P pre' /\ all_in T P behind' /\ (forall x, In x kept' -> P x).
  Proof.
    intros Hp Hrec. induction members as [|e members IH];
      intros pre kept behind pre' kept' behind' Hm Hk Hpre Hb Ipre Ib Hf Hn E; simpl in E.
    - injection E as <- <- <-. rewrite app_nil_r in Hf. repeat split; auto.
      + now apply Forall_rev.
      + intros x Hx. apply Hk. now apply in_rev.
    - assert (He : P e) by (apply Hm; simpl; auto).
      assert (Hm' : forall x, In x members -> P x) by (intros x Hx; apply Hm; simpl; auto).
      assert (Hf' : ForallOrdPairs none (rev kept ++ members)).
      { clear -Hf. induction (rev kept) as [|a l IHl]; simpl in *.
        - inversion Hf; auto.
        - inversion Hf; subst. constructor; [|auto]. apply Forall_app in H1 as [Ha Hb].
          apply Forall_app; split; [exact Ha|]. now inversion Hb. }
      destruct (scored p e Hp He) as (n & Hle & En). rewrite En in E. simpl in E.
      destruct n as [|[|[|n]]]; [| | |lia].
      + apply (IH _ _ _ _ _ _ Hm') in E; auto.
        * intros x [<-|Hx]; auto.
        * simpl. rewrite <- app_assoc. exact Hf.
        * constructor; [|exact Hn]. split; [exact En|]. now apply sym.
      + destruct (rec e behind) as [b1| | | |] eqn:Er; try discriminate. simpl in E.
        destruct (Hrec e behind b1 He Hb Ib Er) as [Ib1 Hb1].
        apply (IH _ _ _ _ _ _ Hm') in E; auto.
      + apply (IH _ _ _ _ _ _ Hm') in E; auto.
        * intros x Hx. rewrite concat_app in Hx. apply in_app_or in Hx as [Hx|Hx]; [auto|].
          simpl in Hx. destruct Hx as [<-|[]]. exact He.
        * apply Forall_app; split; [exact Ipre|]. repeat constructor.
  Qed.

  Lemma Forall_firstn_skipn {A} (Q : A -> Prop) n l : Forall Q l -> Forall Q (firstn n l) /\ Forall Q (skipn n l).
  Proof. intros H. rewrite <- (firstn_skipn n l) in H. now apply Forall_app in H. Qed.

  Lemma insert_at_indep fuel : rec_indep (insert_at T dep fuel).
  Proof.
    induction fuel as [|fuel IH]; intros p levels levels' Hp Hl Hi E; simpl in E; [discriminate|].
    destruct (scan T dep p 0 levels 0) as [ip| | | |]; try discriminate. simpl in E.
    pose proof (firstn_skipn ip levels) as Hsplit.
    destruct (Forall_firstn_skipn _ ip levels Hi) as [Hi1 Hi2].
    destruct (skipn ip levels) as [|lvl behind].
    - injection E as <-. split.
      + apply Forall_app; split; [exact Hi|]. repeat constructor.
      + intros x Hx. rewrite concat_app in Hx. apply in_app_or in Hx as [Hx|Hx]; [auto|].
        simpl in Hx. destruct Hx as [<-|[]]. exact Hp.
    - assert (Hcat : concat levels = concat (firstn ip levels) ++ lvl ++ concat behind).
      { rewrite <- Hsplit at 1. rewrite concat_app. reflexivity. }
      inversion Hi2; subst.
      destruct (shuffle T dep (insert_at T dep fuel) p lvl [] [] behind) as [[[pre kept] b']| | | |] eqn:Es;
        try discriminate. simpl in E. injection E as <-.
      apply (shuffle_indep _ p Hp IH) in Es as (A1 & A2 & A3 & A4 & A5 & A6 & A7); simpl; auto.
      + split.
        * apply Forall_app; split; [exact Hi1|]. apply Forall_app; split; [exact A1|].
          constructor; [|exact A2]. constructor; assumption.
        * intros x Hx. rewrite !concat_app in Hx. simpl in Hx. rewrite !in_app_iff in Hx.
          destruct Hx as [Hx|[Hx|[<-|Hx]]]; auto.
          -- apply Hl. rewrite Hcat. apply in_or_app; auto.
          -- apply in_app_or in Hx as [Hx|Hx]; auto.
      + intros x Hx. apply Hl. rewrite Hcat. rewrite !in_app_iff. auto.
      + intros x [].
      + intros x [].
      + intros x Hx. apply Hl. rewrite Hcat. rewrite !in_app_iff. auto.
      + constructor.
  Qed.

  Lemma inserts_indep : forall ps levels levels', (forall x, In x ps -> P x) -> all_in T P levels ->
    indep levels -> inserts T dep ps levels = Ret levels' -> indep levels'.
  Proof.
    induction ps as [|p ps IH]; intros levels levels' Hp Hl Hi E; simpl in E.
    - now injection E as <-.
    - destruct (insert T dep p levels) as [l1| | | |] eqn:E1; try discriminate. simpl in E.
      apply insert_at_indep in E1 as [I1 A1]; auto; [|apply Hp; simpl; auto].
      apply (IH l1 levels'); auto. intros x Hx. apply Hp; simpl; auto.
  Qed.
End Independent.

(** The recursion bound of [insert] is never what stops it. *)
Section Fuel.
  Variable T : Type.
  Variable dep : T -> T -> res nat.
  Hypothesis dep_fuel : forall j p, dep j p <> NoFuel.

  Definition size (levels : list (list T)) : nat := List.length (concat levels).

  Lemma scan_level_fuel p i : forall lvl ip, scan_level T dep p i lvl ip <> NoFuel.
  Proof.
    induction lvl as [|j lvl IH]; intros ip; simpl; [discriminate|].
    pose proof (dep_fuel j p). destruct (dep j p) as [[|[|[|]]]| | | |]; cbn [rbind]; auto; discriminate.
  Qed.
  Lemma scan_fuel p : forall levels i ip, scan T dep p i levels ip <> NoFuel.
  Proof.
    induction levels as [|lvl levels IH]; intros i ip; simpl; [discriminate|].
    pose proof (scan_level_fuel p i lvl ip). destruct (scan_level T dep p i lvl ip) as [[ip' []]| | | |]; cbn [rbind]; auto; discriminate.
  Qed.

  Definition rec_fuel (fuel : nat) (rec : T -> list (list T) -> res (list (list T))) : Prop :=
    forall p levels, size levels < fuel ->
      match rec p levels with NoFuel => False | Ret l => size l <= S (size levels) | _ => True end.

  Lemma shuffle_fuel fuel rec p : rec_fuel fuel rec -> forall members pre kept behind,
    List.length members + size behind <= fuel ->
    match shuffle T dep rec p members pre kept behind with
    | NoFuel => False
    | Ret (pre', kept', behind') =>
        size pre' + List.length kept' + size behind' <= size pre + List.length kept + size behind + List.length members
    | _ => True
    end.
  Proof.
    intros Hrec. induction members as [|e members IH]; intros pre kept behind Hf; simpl.
    - rewrite rev_length. lia.
    - simpl in Hf. pose proof (dep_fuel p e). destruct (dep p e) as [[|[|[|]]]| | | |]; cbn [rbind]; try exact I; try congruence.
      + specialize (IH pre (e :: kept) behind ltac:(lia)). destruct shuffle as [[[a b] c]| | | |]; auto. simpl in IH. lia.
      + specialize (Hrec e behind ltac:(lia)). destruct (rec e behind) as [b'| | | |]; cbn [rbind]; auto.
        specialize (IH pre kept b' ltac:(lia)). destruct shuffle as [[[a b] c]| | | |]; auto. lia.
      + specialize (IH (pre ++ [[e]]) kept behind ltac:(lia)). destruct shuffle as [[[a b] c]| | | |]; auto.
        revert IH. unfold size at 3. rewrite concat_app, app_length. simpl. fold (size pre). lia.
      + specialize (IH pre kept behind ltac:(lia)). destruct shuffle as [[[a b] c]| | | |]; auto. lia.
  Qed.

  Lemma insert_at_fuel : forall fuel, rec_fuel fuel (insert_at T dep fuel).
  Proof.
    induction fuel as [|fuel IH]; intros p levels Hs; [lia|]. simpl.
    pose proof (scan_fuel p levels 0 0). destruct (scan T dep p 0 levels 0) as [ip| | | |]; cbn [rbind]; auto.
    pose proof (firstn_skipn ip levels) as Hsplit.
    destruct (skipn ip levels) as [|lvl behind] eqn:Es.
    - unfold size. rewrite concat_app, app_length. simpl. lia.
    - assert (Hcat : size levels = size (firstn ip levels) + List.length lvl + size behind).
      { unfold size. rewrite <- Hsplit at 1. rewrite concat_app, app_length. simpl. rewrite app_length. lia. }
      pose proof (shuffle_fuel fuel (insert_at T dep fuel) p IH lvl [] [] behind ltac:(lia)) as K.
      destruct shuffle as [[[pre kept] behind']| | | |]; cbn [rbind]; auto.
      unfold size in *. rewrite !concat_app, !app_length. simpl in *. rewrite app_length. lia.
  Qed.

  Lemma insert_fuel p levels : insert T dep p levels <> NoFuel.
  Proof.
    pose proof (insert_at_fuel (S (size levels)) p levels (Nat.lt_succ_diag_r _)) as K.
    unfold insert. fold (size levels). intros E. rewrite E in K. exact K.
  Qed.
End Fuel.
