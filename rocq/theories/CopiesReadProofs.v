(** Proofs for C99: the objects made for pointers. *)
From Coq Require Import Lia.
From Verif Require Import Base Proton ProtonProofs SpecDescriptors Readers SpecReaders Factory SpecFactory Writer SpecWriter WriterProofs
  Deserialise SpecDeserialise DeserialiseProofs Copies SpecCopies.
Import List ListNotations.
Open Scope string_scope.

Definition c_read_all (rd : ctype -> DM object) : list ctype -> DM (list object) :=
  fix properties (ts : list ctype) : DM (list object) :=
    match ts with
    | [] => ret []
    | t :: ts' => let! v := rd t in let! vs := properties ts' in ret (v :: vs)
    end.
Lemma c_read_class cs fuel c ptr : c_read cs (S fuel) (RClass c ptr) =
  (plain read_startComposite ;;
   finally (let! vs := c_read_all (c_read cs fuel) (cs c) in
            (if ptr then new_ else ret tt) ;;
            ret (if ptr then OClassPtr c vs else OClass c vs)) (move endComposite)).
Proof. reflexivity. Qed.

Definition worth (os : list object) : nat := list_sum (map pointers os).
Lemma worth_cons o os : worth (o :: os) = pointers o + worth os.
Proof. reflexivity. Qed.

(** ** The same as without counting *)

Definition agrees {A} (made : A -> nat) (m : DM A) (m0 : PM A) : Prop := forall d n,
  match m (d, n) with
  | Ok a (d', n') => m0 d = Ok a d' /\ n' = n + made a
  | Throw e (d', n') => m0 d = Throw e d' /\ n <= n'
  | Abort => m0 d = Abort | UB => m0 d = UB | Fuel => m0 d = Fuel
  end.
Lemma agrees_plain {A} (m : PM A) : agrees (fun _ => 0) (plain m) m.
Proof. intros d n. unfold plain. destruct (m d); auto; split; auto; lia. Qed.
Lemma agrees_finally {A} (made : A -> nat) (m : DM A) m0 g : agrees made m m0 -> agrees made (finally m (move g)) (finally m0 g).
Proof.
  intros H d n. unfold finally. specialize (H d n). destruct (m (d, n)) as [a [d' n']|e [d' n']| | |]; cbn [move fst snd];
    [destruct H as [-> H]|destruct H as [-> H]|rewrite H|rewrite H|rewrite H]; auto.
Qed.
Lemma agrees_first {A B} (made : B -> nat) (m : PM A) (k : A -> DM B) k0 : (forall a, agrees made (k a) (k0 a)) -> agrees made (bind (plain m) k) (bind m k0).
Proof. intros H d n. unfold bind, plain. destruct (m d) as [a d'|e d'| | |]; auto. apply H. Qed.

Lemma agrees_prim t ptr : agrees pointers (c_read_prim t ptr) (read_prim t ptr).
Proof.
  apply agrees_finally. intros d n. unfold bind, plain, new_. destruct ptr; cbn [ret]; (destruct (prim_get t d) as [v d'|e d'| | |]; cbn [ret pointers]; auto; split; auto; lia).
Qed.
Lemma agrees_all (rd : ctype -> DM object) rd0 : (forall t, agrees pointers (rd t) (rd0 t)) ->
  forall ts, agrees worth (c_read_all rd ts) (read_all rd0 ts).
Proof.
  intros H. induction ts as [|t ts IH]; intros d n.
  - cbn. split; [reflexivity|]. unfold worth. cbn. lia.
  - rewrite read_all_cons. change (c_read_all rd (t :: ts)) with (let! v := rd t in let! vs := c_read_all rd ts in ret (v :: vs)).
    unfold bind. specialize (H t d n). destruct (rd t (d, n)) as [o [d1 n1]|e [d1 n1]| | |].
    + destruct H as [-> ->]. specialize (IH d1 (n + pointers o)). destruct (c_read_all rd ts (d1, n + pointers o)) as [os [d2 n2]|e [d2 n2]| | |].
      * destruct IH as [-> ->]. cbn [ret]. rewrite worth_cons. split; [reflexivity|lia].
      * destruct IH as [-> IH]. split; [reflexivity|lia].
      * now rewrite IH.
      * now rewrite IH.
      * now rewrite IH.
    + destruct H as [-> H]. auto.
    + now rewrite H.
    + now rewrite H.
    + now rewrite H.
Qed.
Lemma agrees_read cs : forall fuel t, agrees pointers (c_read cs fuel t) (read cs fuel t).
Proof.
  induction fuel as [|fuel IH]; intros t; [intros d n; reflexivity|]. destruct t as [p ptr|c ptr|ptr].
  - apply agrees_prim.
  - rewrite c_read_class, read_class. apply agrees_first. intros _. apply agrees_finally. intros d n.
    pose proof (agrees_all _ _ IH (cs c) d n) as H. unfold bind.
    destruct (c_read_all (c_read cs fuel) (cs c) (d, n)) as [os [d1 n1]|e [d1 n1]| | |].
    + destruct H as [-> ->]. destruct ptr; cbn [new_ ret pointers]; (split; [reflexivity|unfold worth; lia]).
    + destruct H as [-> H]. auto.
    + now rewrite H.
    + now rewrite H.
    + now rewrite H.
  - change (agrees pointers (plain read_startComposite ;; finally (plain vector_deserialiseImpl) (move endComposite))
      (read_startComposite ;; finally vector_deserialiseImpl endComposite)).
    apply agrees_first. intros _. apply agrees_finally. intros d n.
    unfold vector_deserialiseImpl, plain, bind, attest_is_list, require. destruct (is_type TList d); cbn; auto.
Qed.
Theorem same_object : forall cs fuel t d n,
  match c_deserialise cs fuel t (d, n) with
  | Ok o (d', n') => deserialise cs fuel t d = Ok o d' /\ n' = n + pointers o
  | Throw e (d', n') => deserialise cs fuel t d = Throw e d' /\ n <= n'
  | Abort => deserialise cs fuel t d = Abort
  | UB => deserialise cs fuel t d = UB
  | Fuel => deserialise cs fuel t d = Fuel
  end.
Proof. intros cs fuel t. apply agrees_first. intros _. apply agrees_read. Qed.

(** ** Without pointers nothing is made *)

Definition idle {A} (m : DM A) : Prop := forall d n, match m (d, n) with Ok _ (_, n') | Throw _ (_, n') => n' = n | _ => True end.
Lemma idle_plain {A} (m : PM A) : idle (plain m).
Proof. intros d n. unfold plain. destruct (m d); auto. Qed.
Lemma idle_bind {A B} (m : DM A) (k : A -> DM B) : idle m -> (forall a, idle (k a)) -> idle (bind m k).
Proof.
  intros H1 H2 d n. unfold bind. specialize (H1 d n). destruct (m (d, n)) as [a [d' n']|e [d' n']| | |]; auto. subst. apply H2.
Qed.
Lemma idle_ret {A} (a : A) : idle (ret a).
Proof. exact (idle_plain (ret a)). Qed.
Lemma idle_finally {A} (m : DM A) g : idle m -> idle (finally m (move g)).
Proof. intros H d n. unfold finally. specialize (H d n). destruct (m (d, n)) as [a [d' n']|e [d' n']| | |]; auto. Qed.
Lemma idle_read cs : forall fuel t, pointer_free cs t -> idle (c_read cs fuel t).
Proof.
  induction fuel as [|fuel IH]; intros t H; [intros d n; exact I|]. destruct H as [p|c H|p].
  - cbn [c_read]. apply idle_finally, idle_bind; [apply idle_ret|]. intros _. apply idle_bind; [apply idle_plain|]. intros v. apply idle_ret.
  - rewrite c_read_class. apply idle_bind; [apply idle_plain|]. intros _. apply idle_finally, idle_bind.
    + induction (cs c) as [|t ts IHts]; [apply idle_ret|].
      change (idle (let! v := c_read cs fuel t in let! vs := c_read_all (c_read cs fuel) ts in ret (v :: vs))).
      apply idle_bind; [apply IH, H; now left|]. intros v. apply idle_bind; [apply IHts; intros u Hu; apply H; now right|]. intros vs. apply idle_ret.
    + intros vs. apply idle_bind; [apply idle_ret|]. intros _. apply idle_ret.
  - change (idle (plain read_startComposite ;; finally (plain vector_deserialiseImpl) (move endComposite))).
    apply idle_bind; [apply idle_plain|]. intros _. apply idle_finally, idle_plain.
Qed.
Theorem none_made : forall cs fuel t d n, pointer_free cs t ->
  match c_deserialise cs fuel t (d, n) with
  | Ok _ (_, n') | Throw _ (_, n') => n' = n
  | _ => True
  end.
Proof. intros cs fuel t d n H. revert d n. apply idle_bind; [apply idle_plain|]. intros _. now apply idle_read. Qed.

(** ** Up to the value that is wrong *)

Lemma agrees_ok {A} (made : A -> nat) m m0 d n a d' : agrees made m m0 -> m0 d = Ok a d' -> m (d, n) = Ok a (d', n + made a).
Proof.
  intros H E. specialize (H d n). destruct (m (d, n)) as [b [d2 n2]|e [d2 n2]| | |]; try (rewrite E in H; discriminate).
  - destruct H as [H ->]. rewrite E in H. now injection H as -> ->.
  - destruct H as [H _]. rewrite E in H. discriminate.
Qed.

Lemma prefix_throws cs fuel ts1 is1 os1 : reads_all (read cs fuel) ts1 is1 os1 ->
  forall t ts2 w ws l u n e d k, c_read cs fuel t (Data (At (rev (map wire is1) ++ l) w ws) u, n + worth os1) = Throw e (d, k) ->
  c_read_all (c_read cs fuel) (ts1 ++ t :: ts2) (onto l u (map wire is1) w ws, n) = Throw e (d, k).
Proof.
  induction 1 as [|t1 ts1 i is1 o os Ho Hos IH]; intros t ts2 w ws l u n e d k E.
  - cbn [app map rev onto] in *. unfold worth in E. cbn in E. rewrite Nat.add_0_r in E.
    change (c_read_all (c_read cs fuel) (t :: ts2)) with (let! v := c_read cs fuel t in let! vs := c_read_all (c_read cs fuel) ts2 in ret (v :: vs)).
    unfold bind. now rewrite E.
  - cbn [app map onto].
    change (c_read_all (c_read cs fuel) (t1 :: ts1 ++ t :: ts2)) with
      (let! v := c_read cs fuel t1 in let! vs := c_read_all (c_read cs fuel) (ts1 ++ t :: ts2) in ret (v :: vs)).
    unfold bind. rewrite (agrees_ok _ _ _ _ n _ _ (agrees_read cs fuel t1) (Ho l (map wire is1 ++ w :: ws)%list u)).
    rewrite onto_next. erewrite IH; [reflexivity|]. cbn [map rev] in E. rewrite <- app_assoc in E. cbn [app] in E.
    rewrite worth_cons, Nat.add_assoc in E. exact E.
Qed.

Lemma object_throws cs fuel c (ptr : bool) n fp ps ts1 t ts2 is1 i is2 os1 l r u m e :
  cs c = (ts1 ++ t :: ts2)%list -> values ps = (is1 ++ i :: is2)%list -> reads_all (read cs fuel) ts1 is1 os1 ->
  forall k, (forall l' u' m', exists d, c_read cs fuel t (Data (At l' (wire i) (map wire is2)) u', m') = Throw e (d, m' + k)) ->
  exists d, c_read cs (S fuel) (RClass c ptr) (Data (At l (wire (IObject n fp ps)) r) u, m) = Throw e (d, m + (worth os1 + k)).
Proof.
  intros Hc Hv H k K. set (up := Frame [leaf (ASymbol fp)] AList [] :: Frame l ADescribed r :: u).
  destruct (K (rev (map wire is1) ++ [])%list up (m + worth os1)) as [d E].
  rewrite c_read_class. unfold bind at 1, plain at 1. cbn [wire]. unfold payload_tree. rewrite start_composite.
  replace (map (fun p : string * (string * item) => wire (snd (snd p))) ps) with (map wire (values ps))
    by (unfold values; now rewrite map_map).
  fold up. rewrite Hv, Hc, map_app. cbn [map]. rewrite onto_before. unfold finally, bind.
  rewrite (prefix_throws cs fuel ts1 is1 os1 H t ts2 (wire i) (map wire is2) [] up m e d _ E). rewrite Nat.add_assoc. eexists. reflexivity.
Qed.

Lemma abandoned_throws cs (bad : ctype -> item -> Prop) e :
  (forall p i fuel l r u n, bad (RPrim p true) i -> height (wire i) <= fuel ->
     exists d, c_read cs fuel (RPrim p true) (Data (At l (wire i) r) u, n) = Throw e (d, n + 1)) ->
  (forall t i fuel l r u n, bad t i -> (forall p, t <> RPrim p true) -> height (wire i) <= fuel ->
     exists d, c_read cs fuel t (Data (At l (wire i) r) u, n) = Throw e (d, n + 0)) ->
  forall t i k, abandoned cs bad t i k -> forall fuel l r u n, height (wire i) <= fuel ->
  exists d, c_read cs fuel t (Data (At l (wire i) r) u, n) = Throw e (d, n + k).
Proof.
  intros H1 H0 t i k H. induction H as [p i H|t i H Hp|c n fp ps ts1 t ts2 is1 i is2 os1 k Hc Hv Ha H IH|c n fp ps ts1 t ts2 is1 i is2 os1 k Hc Hv Ha H IH];
    intros fuel l r u m Hf; [now apply H1|now apply H0|..].
  - destruct fuel as [|fuel]; [rewrite height_object in Hf; lia|].
    destruct (fuel_object n fp _ _ _ _ _ Hv Hf) as [Hi Hi1].
    eapply object_throws; [exact Hc|exact Hv|exact (proj2 (back_reads cs) _ _ _ Ha fuel Hi1)|]. intros. now apply IH.
  - destruct fuel as [|fuel]; [change (height (wire (IObject n fp ps)) <= 0) in Hf; rewrite height_object in Hf; lia|].
    destruct (fuel_object n fp _ _ _ _ _ Hv Hf) as [Hi Hi1].
    eapply (object_throws cs fuel c true n fp ps); [exact Hc|exact Hv|exact (proj2 (back_reads cs) _ _ _ Ha fuel Hi1)|]. intros. now apply IH.
Qed.

(** The value itself: only a pointer to a primitive has been made. *)
Lemma here_throws cs t fuel d n e d' : read cs fuel t d = Throw e d' -> (forall c p, t = RClass c p -> exists d0, read_startComposite d = Throw e d0) ->
  c_read cs fuel t (d, n) = Throw e (d', n + match t with RPrim _ true => 1 | _ => 0 end).
Proof.
  intros E Hc. destruct fuel as [|fuel]; [discriminate|]. destruct t as [p ptr|c ptr|ptr].
  - cbn [read c_read] in *. unfold read_prim, c_read_prim, finally, bind, plain, new_ in *. 
    destruct ptr; unfold ret, move in *; (destruct (prim_get p d) as [v d1|x d1| | |]; try discriminate); injection E as <- <-; cbn [fst snd];
      [rewrite Nat.add_1_r|rewrite Nat.add_0_r]; reflexivity.
  - rewrite c_read_class. rewrite read_class in E. unfold bind at 1 in E. unfold bind at 1, plain at 1.
    destruct (Hc c ptr eq_refl) as [d0 X]. rewrite X in *. injection E as ->. now rewrite Nat.add_0_r.
  - change (bind read_startComposite (fun _ => finally vector_deserialiseImpl endComposite) d = Throw e d') in E.
    change ((plain read_startComposite ;; finally (plain vector_deserialiseImpl) (move endComposite)) (d, n) = Throw e (d', n + 0)).
    rewrite Nat.add_0_r. unfold bind, finally, plain, move in *. destruct (read_startComposite d) as [[] d1|x d1| | |]; try discriminate; [|injection E as -> ->; reflexivity].
    destruct (vector_deserialiseImpl d1) as [v d2|x d2| | |]; try discriminate. injection E as <- <-. reflexivity.
Qed.

Lemma start_throws c ptr i l r u : wrong_kind (RClass c ptr) i -> exists d, read_startComposite (Data (At l (wire i) r) u) = Throw RuntimeError d.
Proof.
  intros [Hk Hw]. destruct i as [v|q [v|]|n fp ps|n fp es|n fp kvs|[[v|q v|n fp ps|n fp es|n fp kvs|o]|]];
    try (now elim Hk); try discriminate Hw; try (destruct v; eexists; reflexivity); eexists; reflexivity.
Qed.

Lemma kind_abandons cs t i fuel l r u n : wrong_kind t i /\ reads_string t = false -> height (wire i) <= fuel ->
  exists d, c_read cs fuel t (Data (At l (wire i) r) u, n) = Throw RuntimeError (d, n + match t with RPrim _ true => 1 | _ => 0 end).
Proof.
  intros H Hf. destruct (kind_throws cs t i fuel l r u H Hf) as [d E]. exists d. apply here_throws; [exact E|].
  intros c p ->. eapply start_throws. apply H.
Qed.

Theorem pointers_lost : forall cs t root k fuel n,
  abandoned cs (fun t i => (~ right_kind t i /\ well_formed i) /\ reads_string t = false) t root k ->
  well_formed root -> is_target root = true -> no_clash root -> height (wire root) <= fuel ->
  exists blob w d, serialise_blob root new_writer = Ok blob w /\ c_deserialise cs fuel t (blob, n) = Throw RuntimeError (d, n + k).
Proof.
  intros cs t root k fuel n F W T N H. assert (Pt : is_pointer root = false) by (destruct root; auto; discriminate).
  destruct (serialise_correct root W Pt N) as [w [ts [E _]]].
  destruct (wire_described root T) as (tag & body & Ew).
  assert (X : exists d, c_read cs fuel t (Data (At [] (wire root) [schema_tree [ts]; leaf ANull]) [Frame [leaf (AULong (vendor 1))] AList []; Frame [] ADescribed []], n)
              = Throw RuntimeError (d, n + k)).
  { eapply abandoned_throws; [| |exact F|exact H]; cbn beta.
    - intros p i f' l r u m [[K F'] S] Hf. apply (kind_abandons cs (RPrim p true)); [repeat split; auto using formed_shaped|exact Hf].
    - intros t' i f' l r u m [[K F'] S] Hp Hf.
      destruct (kind_abandons cs t' i f' l r u m) as [d D]; [repeat split; auto using formed_shaped|exact Hf|]. exists d. rewrite D.
      destruct t' as [p [|]|c q|q]; auto. now elim (Hp p). }
  destruct X as [d X]. do 3 eexists. split; [exact E|]. rewrite Ew in X |- *. exact X.
Qed.

Theorem abandoned_iff : forall cs bad t i, first_wrong cs bad t i <-> exists k, abandoned cs bad t i k.
Proof.
  intros cs bad t i. split.
  - intros H. induction H as [t i H|c n fp ps ts1 t ts2 is1 i is2 os1 Hc Hv Ha H [k IH]|c n fp ps ts1 t ts2 is1 i is2 os1 Hc Hv Ha H [k IH]].
    + destruct t as [p [|]|c q|q]; [exists 1; now constructor|..]; exists 0; apply abandoned_here; auto; discriminate.
    + eexists. eapply abandoned_inside; eauto.
    + eexists. eapply abandoned_inside_ptr; eauto.
  - intros [k H]. induction H; [now apply wrong_here|now apply wrong_here|eapply wrong_inside; eauto|eapply wrong_inside_ptr; eauto].
Qed.

Theorem owned : forall cs c root o fuel n,
  back cs (RClass c false) root o -> well_formed root -> no_clash root -> height (wire root) <= fuel ->
  exists blob w d, serialise_blob root new_writer = Ok blob w /\ c_deserialise cs fuel (RClass c false) (blob, n) = Ok o (d, n + pointers o).
Proof.
  intros cs c root o fuel n B W N H. destruct (round_trip cs c root o fuel B W N H) as (blob & w & d & E & D).
  exists blob, w, d. split; [exact E|]. apply agrees_ok with (m0 := deserialise cs fuel (RClass c false)); [|exact D].
  intros d0 n0. apply same_object.
Qed.
