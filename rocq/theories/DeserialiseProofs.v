From Coq Require Import Lia.
From Verif Require Import Base Proton ProtonProofs SpecDescriptors TypeNames Schema Descriptors Factory Readers SpecReaders Blob ReadersProofs InspectProofs RawProofs
  Writer SpecWriter WriterProofs Deserialise SpecDeserialise.
Import List ListNotations.
Open Scope string_scope.

Scheme back_mut := Minimality for back Sort Prop
with back_all_mut := Minimality for back_all Sort Prop.
Combined Scheme back_both from back_mut, back_all_mut.

(** ** The loop over the properties *)

Definition read_all (rd : ctype -> PM object) :=
  fix properties (ts : list ctype) : PM (list object) :=
  match ts with
  | [] => ret []
  | t :: ts' => let! v := rd t in let! vs := properties ts' in ret (v :: vs)
  end.
Lemma read_all_cons rd t ts : read_all rd (t :: ts) = (let! v := rd t in let! vs := read_all rd ts in ret (v :: vs)).
Proof. reflexivity. Qed.
Lemma read_class cs fuel c ptr :
  read cs (S fuel) (RClass c ptr) =
  (read_startComposite ;;
   finally (let! vs := read_all (read cs fuel) (cs c) in ret (if ptr then OClassPtr c vs else OClass c vs)) endComposite).
Proof. reflexivity. Qed.

Lemma start_composite l tag body r u :
  read_startComposite (Data (At l (Node ADescribed [tag; list_of body]) r) u) =
  Ok tt (pn_next (Data (Before body) (Frame [tag] AList [] :: Frame l ADescribed r :: u))).
Proof. reflexivity. Qed.

Lemma end_composite l tag body r u d :
  same_level (Data (Before body) (Frame [tag] AList [] :: Frame l ADescribed r :: u)) d ->
  endComposite d = pn_next (Data (At l (Node ADescribed [tag; list_of body]) r) u).
Proof.
  destruct d as [h v]. intros [H1 H2]. simpl in H1, H2. subst v. unfold endComposite, pn_exit. simpl. rewrite H2. reflexivity.
Qed.

(** ** Reading back *)

Lemma c_str_free s : nul_free s -> c_str s = s.
Proof.
  unfold nul_free. induction s as [|a s IH]; intros H; [reflexivity|]. simpl in *.
  destruct (Ascii.eqb a nul) eqn:E; [apply Ascii.eqb_eq in E; tauto|]. f_equal. apply IH. tauto.
Qed.
Lemma cut_plain v : prim_plain v -> cut v = v.
Proof. destruct v; simpl; auto. intros H. now rewrite c_str_free. Qed.

Lemma prim_get_back v l r u : prim_ok v ->
  prim_get (type_of v) (Data (At l (prim_tree v) r) u) = Ok (cut v) (Data (At l (prim_tree v) r) u).
Proof.
  destruct v; intros Hok; try reflexivity. simpl in Hok.
  cbv [prim_get type_of attest_is_char require is_type pn_dtype here prim_tree leaf bind atom_type pn_type_eqb pn_get_char cur_atom cut].
  f_equal. f_equal. unfold to_char. destruct (z <? 0)%Z eqn:E; rewrite Z2N.id by lia.
  - apply Z.ltb_lt in E. replace (z + 2 ^ 32 + 128)%Z with (z + 128 + 16777216 * 256)%Z by lia.
    rewrite Z.mod_add by lia. rewrite Z.mod_small; lia.
  - apply Z.ltb_ge in E. rewrite Z.mod_small; lia.
Qed.

Lemma plain_ok v : prim_plain v -> prim_ok v.
Proof. destruct v; simpl; auto. Qed.

Definition reads (rd : ctype -> PM object) (t : ctype) (i : item) (o : object) : Prop :=
  forall l r u, rd t (Data (At l (wire i) r) u) = Ok o (pn_next (Data (At l (wire i) r) u)).

Inductive reads_all (rd : ctype -> PM object) : list ctype -> list item -> list object -> Prop :=
| reads_nil : reads_all rd [] [] []
| reads_cons t ts i is o os : reads rd t i o -> reads_all rd ts is os -> reads_all rd (t :: ts) (i :: is) (o :: os).

(** On the first of some siblings. *)
Definition onto (l : list tree) (u : list frame) (ws : list tree) (v : tree) (rest : list tree) : data :=
  match ws with
  | [] => Data (At l v rest) u
  | w :: ws' => Data (At l w (ws' ++ v :: rest)) u
  end.
Lemma onto_before u ws v rest : pn_next (Data (Before (ws ++ v :: rest)) u) = onto [] u ws v rest.
Proof. destruct ws; reflexivity. Qed.
Lemma onto_next l u w ws v rest : pn_next (Data (At l w (ws ++ v :: rest)) u) = onto (w :: l) u ws v rest.
Proof. destruct ws; reflexivity. Qed.

Lemma bind_assoc3 {A} (m : PM (list A)) (os : list A) d : (let! vs := m in ret (os ++ vs)%list) d =
  match m d with Ok vs d' => Ok (os ++ vs)%list d' | Throw e d' => Throw e d' | Abort => Abort | UB => UB | Fuel => Fuel end.
Proof. unfold bind. destruct (m d); reflexivity. Qed.

(** Reading the first properties leads to the next one. *)
Lemma read_prefix rd ts is os : reads_all rd ts is os ->
  forall more v rest l u,
  read_all rd (ts ++ more) (onto l u (map wire is) v rest) =
  (let! vs := read_all rd more in ret (os ++ vs)%list) (Data (At (rev (map wire is) ++ l) v rest) u).
Proof.
  induction 1 as [|t ts i is o os Ho Hos IH]; intros more v rest l u.
  - rewrite bind_assoc3. cbn [map app rev onto]. destruct (read_all rd more (Data (At l v rest) u)); reflexivity.
  - cbn [app map rev onto]. rewrite read_all_cons. unfold bind at 1. rewrite (Ho l).
    rewrite onto_next. unfold bind at 1. rewrite IH, bind_assoc3, <- app_assoc. cbn [app]. unfold bind.
    destruct (read_all rd more (Data (At (rev (map wire is) ++ wire i :: l) v rest) u)); reflexivity.
Qed.

(** Reading all of them stays among them. *)
Lemma read_exact rd ts is os : reads_all rd ts is os ->
  forall l u, exists d, read_all rd ts (match map wire is with [] => Data (Before (rev l)) u | w :: ws => Data (At l w ws) u end) = Ok os d /\
    same_level (Data (Before (rev l ++ map wire is)) u) d.
Proof.
  intros H. destruct H as [|t ts i is o os Ho Hos]; intros l u.
  - eexists. split; [reflexivity|]. cbn [map]. rewrite app_nil_r. apply same_level_refl.
  - cbn [map]. revert t i o Ho l. induction Hos as [|t' ts i' is o' os Ho' Hos IH]; intros t i o Ho l; rewrite read_all_cons.
    + eexists. split; [unfold bind at 1; rewrite Ho; reflexivity|]. split; [reflexivity|].
      simpl. now rewrite rev_append_rev.
    + unfold bind at 1. rewrite Ho. cbn [map pn_next here ups].
      destruct (IH t' i' o' Ho' (wire i :: l)) as [d [E S]]. exists d. split.
      * unfold bind at 1. rewrite E. reflexivity.
      * cbn [rev] in S. rewrite <- app_assoc in S. exact S.
Qed.

(** ** Reading back *)

Lemma height_list ps : heights (map (fun p : string * (string * item) => wire (snd (snd p))) ps) = heights (map wire (values ps)).
Proof. unfold values. now rewrite map_map. Qed.

Lemma read_object cs fuel c (ptr : bool) n fp ps os l r u : reads_all (read cs fuel) (cs c) (values ps) os ->
  read cs (S fuel) (RClass c ptr) (Data (At l (wire (IObject n fp ps)) r) u) =
  Ok (if ptr then OClassPtr c os else OClass c os) (pn_next (Data (At l (wire (IObject n fp ps)) r) u)).
Proof.
  intros H. rewrite read_class. unfold bind at 1. cbn [wire payload_tree]. unfold payload_tree. rewrite start_composite.
  replace (map (fun p : string * (string * item) => wire (snd (snd p))) ps) with (map wire (values ps))
    by (unfold values; now rewrite map_map).
  set (up := Frame [leaf (ASymbol fp)] AList [] :: Frame l ADescribed r :: u).
  destruct (read_exact _ _ _ _ H [] up) as [d [E S]]. cbn [rev app] in S.
  assert (E' : read_all (read cs fuel) (cs c) (pn_next (Data (Before (map wire (values ps))) up)) = Ok os d).
  { rewrite <- E. destruct (map wire (values ps)); reflexivity. }
  unfold finally, bind. rewrite E'. cbn [ret]. f_equal. now apply end_composite with (1 := S).
Qed.

Lemma back_reads cs :
  (forall t i o, back cs t i o -> forall fuel, height (wire i) <= fuel -> reads (read cs fuel) t i o) /\
  (forall ts is os, back_all cs ts is os -> forall fuel, heights (map wire is) <= fuel -> reads_all (read cs fuel) ts is os).
Proof.
  apply back_both.
  - intros v Hv [|fuel] H l r u; [destruct v; simpl in H; lia|].
    cbn [read wire]. unfold read_prim, finally, bind. rewrite prim_get_back by now apply plain_ok. now rewrite cut_plain.
  - intros v Hv [|fuel] H l r u; [destruct v; simpl in H; lia|].
    cbn [read wire]. unfold read_prim, finally, bind. rewrite prim_get_back by now apply plain_ok. now rewrite cut_plain.
  - intros c n fp ps os _ IH fuel H l r u. cbn [wire] in H. unfold payload_tree, list_of, leaf in H. 
    rewrite !height_node, !heights_cons, !height_node, height_list in H.
    destruct fuel as [|fuel]; [lia|]. apply (read_object cs fuel c false). apply IH. simpl in H. unfold values in H. lia.
  - intros c n fp ps os _ IH fuel H l r u. cbn [wire] in H. unfold payload_tree, list_of, leaf in H. 
    rewrite !height_node, !heights_cons, !height_node, height_list in H.
    destruct fuel as [|fuel]; [lia|]. refine (read_object cs fuel c true n fp ps os l r u _). apply IH. simpl in H. unfold values in H. lia.
  - constructor.
  - intros t ts i is o os _ H1 _ H2 fuel H. cbn [map] in H. rewrite heights_cons in H. constructor; [apply H1|apply H2]; lia.
Qed.

(** ** The envelope *)

Definition inside (p : tree) (groups : list (list wire_type)) (more : list tree) : data :=
  Data (At [] p (schema_tree groups :: more)) [Frame [leaf (AULong (vendor 1))] AList []; Frame [] ADescribed []].

Lemma ready_payload tag cs groups more :
  readyPayload (decoded (envelope_tree (Node ADescribed (tag :: cs)) groups more)) =
  Ok tt (inside (Node ADescribed (tag :: cs)) groups more).
Proof. reflexivity. Qed.

Lemma deserialise_inside cs fuel t tag body groups more :
  deserialise cs fuel t (decoded (envelope_tree (Node ADescribed (tag :: body)) groups more)) =
  read cs fuel t (inside (Node ADescribed (tag :: body)) groups more).
Proof. reflexivity. Qed.

(** C43 *)
Theorem round_trip : forall cs c root o fuel,
  back cs (RClass c false) root o -> well_formed root -> no_clash root -> height (wire root) <= fuel ->
  exists blob w d, serialise_blob root new_writer = Ok blob w /\ deserialise cs fuel (RClass c false) blob = Ok o d.
Proof.
  intros cs c root o fuel B W N H. assert (P : is_pointer root = false) by (inversion B; reflexivity).
  destruct (serialise_correct root W P N) as [w [ts [E _]]].
  exists (decoded (envelope_tree (wire root) [ts] [leaf ANull])), w.
  pose proof (proj1 (back_reads cs) _ _ _ B fuel H [] [schema_tree [ts]; leaf ANull]
    [Frame [leaf (AULong (vendor 1))] AList []; Frame [] ADescribed []]) as R.
  inversion B; subst. eexists. split; [exact E|]. cbn [wire]. unfold payload_tree. rewrite deserialise_inside. exact R.
Qed.

(** ** Values that cannot be read *)

Lemma read_object_at cs fuel c (ptr : bool) n fp ps ts1 t ts2 is1 i is2 os1 l r u :
  cs c = (ts1 ++ t :: ts2)%list -> values ps = (is1 ++ i :: is2)%list -> reads_all (read cs fuel) ts1 is1 os1 ->
  exists l' u', 
  (forall e d, read cs fuel t (Data (At l' (wire i) (map wire is2)) u') = Throw e d ->
     exists d', read cs (S fuel) (RClass c ptr) (Data (At l (wire (IObject n fp ps)) r) u) = Throw e d') /\
  (read cs fuel t (Data (At l' (wire i) (map wire is2)) u') = UB ->
     read cs (S fuel) (RClass c ptr) (Data (At l (wire (IObject n fp ps)) r) u) = UB).
Proof.
  intros Hc Hv H. set (up := Frame [leaf (ASymbol fp)] AList [] :: Frame l ADescribed r :: u).
  exists (rev (map wire is1) ++ [])%list, up.
  rewrite read_class. unfold bind at 1. unfold bind at 2. cbn [wire]. unfold payload_tree. rewrite start_composite.
  replace (map (fun p : string * (string * item) => wire (snd (snd p))) ps) with (map wire (values ps))
    by (unfold values; now rewrite map_map).
  fold up. rewrite Hv, Hc, map_app. cbn [map]. rewrite onto_before. unfold finally, bind.
  rewrite (read_prefix _ _ _ _ H (t :: ts2) (wire i) (map wire is2) [] up), bind_assoc3, read_all_cons. unfold bind.
  split; [intros e d E|intros E]; rewrite E; eauto.
Qed.

Lemma height_object n fp ps : height (wire (IObject n fp ps)) = S (S (heights (map wire (values ps)))).
Proof.
  cbn [wire]. unfold payload_tree, list_of, leaf. rewrite !height_node, !heights_cons, !height_node, height_list. simpl. lia.
Qed.

Lemma fuel_object n fp ps is1 i is2 fuel : values ps = (is1 ++ i :: is2)%list -> height (wire (IObject n fp ps)) <= S fuel ->
  height (wire i) <= fuel /\ heights (map wire is1) <= fuel.
Proof. rewrite height_object. intros ->. rewrite map_app, heights_app. cbn [map]. rewrite heights_cons. lia. Qed.

Lemma wrong_throws cs (bad : ctype -> item -> Prop) e :
  (forall t i fuel l r u, bad t i -> height (wire i) <= fuel -> exists d, read cs fuel t (Data (At l (wire i) r) u) = Throw e d) ->
  forall t i, first_wrong cs bad t i -> forall fuel l r u, height (wire i) <= fuel ->
  exists d, read cs fuel t (Data (At l (wire i) r) u) = Throw e d.
Proof.
  intros Hb t i H. induction H as [t i H|c n fp ps ts1 t ts2 is1 i is2 os1 Hc Hv Ha H IH|c n fp ps ts1 t ts2 is1 i is2 os1 Hc Hv Ha H IH];
    intros fuel l r u Hf; [now apply Hb|..].
  - destruct fuel as [|fuel]; [rewrite height_object in Hf; lia|].
    destruct (fuel_object n fp _ _ _ _ _ Hv Hf) as [Hi H1].
    destruct (read_object_at cs fuel c false n fp ps ts1 t ts2 is1 i is2 os1 l r u Hc Hv (proj2 (back_reads cs) _ _ _ Ha fuel H1)) as (l' & u' & K & _).
    destruct (IH fuel l' (map wire is2) u' Hi) as [d E]. exact (K e d E).
  - destruct fuel as [|fuel]; [change (height (wire (IObject n fp ps)) <= 0) in Hf; rewrite height_object in Hf; lia|].
    destruct (fuel_object n fp _ _ _ _ _ Hv Hf) as [Hi H1].
    destruct (read_object_at cs fuel c true n fp ps ts1 t ts2 is1 i is2 os1 l r u Hc Hv (proj2 (back_reads cs) _ _ _ Ha fuel H1)) as (l' & u' & K & _).
    destruct (IH fuel l' (map wire is2) u' Hi) as [d E]. exact (K e d E).
Qed.

Lemma wrong_ub cs (bad : ctype -> item -> Prop) :
  (forall t i fuel l r u, bad t i -> height (wire i) <= fuel -> read cs fuel t (Data (At l (wire i) r) u) = UB) ->
  forall t i, first_wrong cs bad t i -> forall fuel l r u, height (wire i) <= fuel ->
  read cs fuel t (Data (At l (wire i) r) u) = UB.
Proof.
  intros Hb t i H. induction H as [t i H|c n fp ps ts1 t ts2 is1 i is2 os1 Hc Hv Ha H IH|c n fp ps ts1 t ts2 is1 i is2 os1 Hc Hv Ha H IH];
    intros fuel l r u Hf; [now apply Hb|..].
  - destruct fuel as [|fuel]; [rewrite height_object in Hf; lia|].
    destruct (fuel_object n fp _ _ _ _ _ Hv Hf) as [Hi H1].
    destruct (read_object_at cs fuel c false n fp ps ts1 t ts2 is1 i is2 os1 l r u Hc Hv (proj2 (back_reads cs) _ _ _ Ha fuel H1)) as (l' & u' & _ & K).
    apply K, IH, Hi.
  - destruct fuel as [|fuel]; [change (height (wire (IObject n fp ps)) <= 0) in Hf; rewrite height_object in Hf; lia|].
    destruct (fuel_object n fp _ _ _ _ _ Hv Hf) as [Hi H1].
    destruct (read_object_at cs fuel c true n fp ps ts1 t ts2 is1 i is2 os1 l r u Hc Hv (proj2 (back_reads cs) _ _ _ Ha fuel H1)) as (l' & u' & _ & K).
    apply K, IH, Hi.
Qed.

Lemma height_pos t : 1 <= height t.
Proof. destruct t. rewrite height_node. lia. Qed.

(** *** The wrong kind of value *)

Definition shaped (i : item) : Prop :=
  match i with
  | IPrimPtr t (Some v) => type_of v = t
  | IPointer (Some o) => is_target o = true
  | _ => True
  end.
Lemma formed_shaped i : well_formed i -> shaped i.
Proof. destruct i as [v|q [v|]|n fp ps|n fp es|n fp kvs|[o|]]; cbn [shaped]; auto; intros H; apply H. Qed.
Definition wrong_kind (t : ctype) (i : item) : Prop := ~ right_kind t i /\ shaped i.

Lemma kind_throws cs t i fuel l r u : wrong_kind t i /\ reads_string t = false -> height (wire i) <= fuel ->
  exists d, read cs fuel t (Data (At l (wire i) r) u) = Throw RuntimeError d.
Proof.
  intros [[Hk Hw] Hs] Hf. destruct fuel as [|fuel]; [pose proof (height_pos (wire i)); lia|].
  assert (Hc : forall j, (match j with IObject _ _ _ | IVector _ _ _ | IPointer (Some _) => False | _ => True end) ->
    exists d, read_startComposite (Data (At l (wire j) r) u) = Throw RuntimeError d).
  { intros [v|q [v|]|n fp ps|n fp es|n fp kvs|[o|]] Hj; try destruct Hj; try (destruct v; eexists; reflexivity); eexists; reflexivity. }
  assert (Hm : forall n fp kvs, exists d, read_startComposite (Data (At l (wire (IMap n fp kvs)) r) u) = Throw RuntimeError d).
  { intros. eexists. reflexivity. }
  assert (Hcl : forall ptr c, t = RClass c ptr \/ t = RVector ptr -> exists d, read_startComposite (Data (At l (wire i) r) u) = Throw RuntimeError d).
  { intros ptr c Ht. destruct i as [v|q [v|]|n fp ps|n fp es|n fp kvs|[[v|q v|n fp ps|n fp es|n fp kvs|o]|]];
      try (apply Hc; exact I); try apply Hm; try (destruct Ht; subst t; now elim Hk); try discriminate Hw.
    exact (Hm n fp kvs). }
  destruct t as [p ptr|c ptr|ptr].
  - cbn [read]. unfold read_prim, finally, bind.
    destruct i as [v|q [v|]|n fp ps|n fp es|n fp kvs|[o|]]; cbn [wire].
    + destruct p, v; try discriminate; try (now elim Hk); eexists; reflexivity.
    + cbn in Hk, Hw. subst q. destruct p, v; try discriminate; try (now elim Hk); eexists; reflexivity.
    + destruct p; try discriminate; eexists; reflexivity.
    + destruct p; try discriminate; eexists; reflexivity.
    + destruct p; try discriminate; eexists; reflexivity.
    + destruct p; try discriminate; eexists; reflexivity.
    + rename Hw into Ht. destruct o; try discriminate Ht; destruct p; try discriminate; eexists; reflexivity.
    + destruct p; try discriminate; eexists; reflexivity.
  - rewrite read_class. destruct (Hcl ptr c (or_introl eq_refl)) as [d E]. unfold bind at 1. rewrite E. eauto.
  - destruct (Hcl ptr "" (or_intror eq_refl)) as [d E]. cbn [read]. unfold bind at 1. rewrite E. eauto.
Qed.

Lemma kind_ub cs t i fuel l r u : wrong_kind t i /\ reads_string t = true -> height (wire i) <= fuel ->
  read cs fuel t (Data (At l (wire i) r) u) = UB.
Proof.
  intros [[Hk Hw] Hs] Hf. destruct fuel as [|fuel]; [pose proof (height_pos (wire i)); lia|].
  destruct t as [[] ptr| |]; try discriminate. cbn [read]. unfold read_prim, finally, bind.
  destruct i as [v|q [v|]|n fp ps|n fp es|n fp kvs|[o|]]; cbn [wire]; try reflexivity.
  - destruct v; try reflexivity. now elim Hk.
  - cbn in Hw. subst q. destruct v; try reflexivity. now elim Hk.
  - rename Hw into Ht. destruct o; try discriminate Ht; reflexivity.
Qed.

(** *** Vectors *)

Definition vector_read (t : ctype) (i : item) : Prop := is_vector i = true /\ exists ptr, t = RVector ptr.

Lemma wire_not_list i : exists a cs, wire i = Node a cs /\ atom_type a <> TList.
Proof.
  assert (Hp : forall v, exists a cs, prim_tree v = Node a cs /\ atom_type a <> TList).
  { intros []; repeat eexists; discriminate. }
  revert i. fix rec 1. intros i. destruct i as [v|q [v|]|n fp ps|n fp es|n fp kvs|[o|]]; cbn [wire]; try apply Hp; try (repeat eexists; discriminate).
  apply rec.
Qed.

Lemma vector_throws cs t i fuel l r u : vector_read t i -> height (wire i) <= fuel ->
  exists d, read cs fuel t (Data (At l (wire i) r) u) = Throw RuntimeError d.
Proof.
  intros [Hv [ptr ->]] Hf. destruct fuel as [|fuel]; [pose proof (height_pos (wire i)); lia|].
  assert (K : forall n fp es, exists d, read cs (S fuel) (RVector ptr) (Data (At l (wire (IVector n fp es)) r) u) = Throw RuntimeError d).
  { intros n fp es. cbn [read]. unfold bind at 1. cbn [wire]. unfold payload_tree. rewrite start_composite.
    unfold finally, vector_deserialiseImpl, bind, attest_is_list, require, is_type, pn_dtype.
    destruct es as [|e es]; [eexists; reflexivity|]. cbn [map pn_next here ups].
    destruct (wire_not_list e) as (a & cs' & -> & Ha). cbn [here].
    destruct (atom_type a); try (now elim Ha); eexists; reflexivity. }
  destruct i as [v|q v|n fp ps|n fp es|n fp kvs|[[v|q v|n fp ps|n fp es|n fp kvs|o]|]]; try discriminate Hv; exact (K n fp es).
Qed.

(** ** Strings *)

Lemma type_of_cut v : type_of (cut v) = type_of v.
Proof. destruct v; reflexivity. Qed.

Lemma cut_reads cs :
  (forall t j o, back cs t j o -> forall i, cut_item i = j -> well_formed i ->
     forall fuel, height (wire i) <= fuel -> reads (read cs fuel) t i o) /\
  (forall ts js os, back_all cs ts js os -> forall is, map cut_item is = js -> Forall well_formed is ->
     forall fuel, heights (map wire is) <= fuel -> reads_all (read cs fuel) ts is os).
Proof.
  apply back_both.
  - intros v Hv i E W [|fuel] H l r u; [pose proof (height_pos (wire i)); lia|].
    destruct i; try discriminate E. injection E as <-. rewrite type_of_cut.
    cbn [read wire]. unfold read_prim, finally, bind. now rewrite prim_get_back.
  - intros v Hv i E W [|fuel] H l r u; [pose proof (height_pos (wire i)); lia|].
    destruct i as [|q [w|]| | | |]; try discriminate E. injection E as -> <-. rewrite type_of_cut.
    cbn [read wire]. unfold read_prim, finally, bind. now rewrite prim_get_back by apply W.
  - intros c n fp ps os _ IH i E W fuel H l r u.
    destruct i as [|q [w|]|n' fp' qs| | |[o|]]; try discriminate E. injection E as -> -> <-.
    rewrite height_object in H. destruct fuel as [|fuel]; [lia|]. apply (read_object cs fuel c false). apply IH; [|cbn in W|lia].
    + unfold values. rewrite !map_map. reflexivity.
    + clear IH H. induction qs as [|q qs IHq]; constructor; cbn in W; tauto.
  - intros c n fp ps os _ IH i E W fuel H l r u.
    destruct i as [|q [w|]|n' fp' qs| | |[[|q [w|]|n' fp' qs| | |[o|]]|]]; try discriminate E. injection E as -> -> <-.
    change (height (wire (IObject n fp qs)) <= fuel) in H. destruct W as [_ W].
    rewrite height_object in H. destruct fuel as [|fuel]; [lia|]. refine (read_object cs fuel c true n fp qs os l r u _). apply IH; [|cbn in W|lia].
    + unfold values. rewrite !map_map. reflexivity.
    + clear IH H. induction qs as [|q qs IHq]; constructor; cbn in W; tauto.
  - intros [|] E; try discriminate. constructor.
  - intros t ts j js o os _ H1 _ H2 [|i is] E W fuel H; try discriminate. injection E as E1 E2. inversion W; subst.
    cbn [map] in H. rewrite heights_cons in H. constructor; [apply H1|apply H2]; auto; lia.
Qed.

Lemma is_pointer_cut i : is_pointer (cut_item i) = is_pointer i.
Proof. now destruct i. Qed.

(** C44 *)
Theorem strings_cut : forall cs c root o fuel,
  back cs (RClass c false) (cut_item root) o -> well_formed root -> no_clash root -> height (wire root) <= fuel ->
  exists blob w d, serialise_blob root new_writer = Ok blob w /\ deserialise cs fuel (RClass c false) blob = Ok o d.
Proof.
  intros cs c root o fuel B W N H.
  assert (R0 : exists n fp ps, root = IObject n fp ps) by (inversion B; destruct root; try discriminate; eauto).
  destruct R0 as (n & fp & ps & ->). destruct (serialise_correct _ W eq_refl N) as [w [ts [E _]]].
  pose proof (proj1 (cut_reads cs) _ _ _ B _ eq_refl W fuel H [] [schema_tree [ts]; leaf ANull]
    [Frame [leaf (AULong (vendor 1))] AList []; Frame [] ADescribed []]) as R.
  exists (decoded (envelope_tree (wire (IObject n fp ps)) [ts] [leaf ANull])), w.
  eexists. split; [exact E|]. cbn [wire]. unfold payload_tree. rewrite deserialise_inside. exact R.
Qed.

(** ** What is written is never refused for its class *)

Lemma wire_described root : is_target root = true -> exists tag body, wire root = Node ADescribed (tag :: body).
Proof. destruct root; try discriminate; intros _; repeat eexists. Qed.

Lemma sent_read cs fuel t root (P : outcome data object -> Prop) : well_formed root -> is_target root = true -> no_clash root ->
  (forall l r u, P (read cs fuel t (Data (At l (wire root) r) u))) ->
  exists blob w, serialise_blob root new_writer = Ok blob w /\ P (deserialise cs fuel t blob).
Proof.
  intros W T N H. assert (Pt : is_pointer root = false) by (destruct root; auto; discriminate).
  destruct (serialise_correct root W Pt N) as [w [ts [E _]]]. do 2 eexists. split; [exact E|].
  destruct (wire_described root T) as (tag & body & Ew). specialize (H [] [schema_tree [ts]; leaf ANull]
    [Frame [leaf (AULong (vendor 1))] AList []; Frame [] ADescribed []]). rewrite Ew in *. rewrite deserialise_inside. exact H.
Qed.

(** C45, C46, C47 *)
Theorem wrong_kind_throws : forall cs t root fuel,
  first_wrong cs (fun t i => (~ right_kind t i /\ well_formed i) /\ reads_string t = false) t root ->
  well_formed root -> is_target root = true -> no_clash root -> height (wire root) <= fuel ->
  exists blob w d, serialise_blob root new_writer = Ok blob w /\ deserialise cs fuel t blob = Throw RuntimeError d.
Proof.
  intros cs t root fuel F W T N H.
  destruct (sent_read cs fuel t root (fun o => exists d, o = Throw RuntimeError d) W T N) as (b & w & E & d & D); [|now exists b, w, d].
  intros. eapply wrong_throws; [|exact F|exact H]. cbn beta. intros t' i' fuel' l' r' u' [[K F'] S].
  apply kind_throws. repeat split; auto using formed_shaped.
Qed.
Theorem wrong_kind_ub : forall cs t root fuel,
  first_wrong cs (fun t i => (~ right_kind t i /\ well_formed i) /\ reads_string t = true) t root ->
  well_formed root -> is_target root = true -> no_clash root -> height (wire root) <= fuel ->
  exists blob w, serialise_blob root new_writer = Ok blob w /\ deserialise cs fuel t blob = UB.
Proof.
  intros cs t root fuel F W T N H.
  apply (sent_read cs fuel t root (fun o => o = UB) W T N).
  intros. eapply wrong_ub; [|exact F|exact H]. cbn beta. intros t' i' fuel' l' r' u' [[K F'] S].
  apply kind_ub. repeat split; auto using formed_shaped.
Qed.

Lemma wrong_mono cs (p q : ctype -> item -> Prop) t i : (forall t i, p t i -> q t i) -> first_wrong cs p t i -> first_wrong cs q t i.
Proof. intros H F. induction F; [apply wrong_here; auto|eapply wrong_inside; eauto|eapply wrong_inside_ptr; eauto]. Qed.

Lemma null_kind t i : is_null_pointer i = true -> wrong_kind t i.
Proof. destruct i as [v|q [v|]|n fp ps|n fp es|n fp kvs|[o|]]; try discriminate; intros _; split; try exact I; destruct t; cbn; auto. Qed.

Theorem null_throws : forall cs t root fuel,
  first_wrong cs (fun t i => is_null_pointer i = true /\ reads_string t = false) t root ->
  well_formed root -> is_target root = true -> no_clash root -> height (wire root) <= fuel ->
  exists blob w d, serialise_blob root new_writer = Ok blob w /\ deserialise cs fuel t blob = Throw RuntimeError d.
Proof.
  intros cs t root fuel F W T N H.
  destruct (sent_read cs fuel t root (fun o => exists d, o = Throw RuntimeError d) W T N) as (b & w & E & d & D); [|now exists b, w, d].
  intros. eapply wrong_throws; [|exact F|exact H]. cbn beta. intros t' i' fuel' l' r' u' [K S].
  apply kind_throws. auto using null_kind.
Qed.
Theorem null_ub : forall cs t root fuel,
  first_wrong cs (fun t i => is_null_pointer i = true /\ reads_string t = true) t root ->
  well_formed root -> is_target root = true -> no_clash root -> height (wire root) <= fuel ->
  exists blob w, serialise_blob root new_writer = Ok blob w /\ deserialise cs fuel t blob = UB.
Proof.
  intros cs t root fuel F W T N H.
  apply (sent_read cs fuel t root (fun o => o = UB) W T N).
  intros. eapply wrong_ub; [|exact F|exact H]. cbn beta. intros t' i' fuel' l' r' u' [K S].
  apply kind_ub. auto using null_kind.
Qed.

Theorem vectors_throw : forall cs t root fuel,
  first_wrong cs (fun t i => is_vector i = true /\ exists pointer, t = RVector pointer) t root ->
  well_formed root -> is_target root = true -> no_clash root -> height (wire root) <= fuel ->
  exists blob w d, serialise_blob root new_writer = Ok blob w /\ deserialise cs fuel t blob = Throw RuntimeError d.
Proof.
  intros cs t root fuel F W T N H.
  destruct (sent_read cs fuel t root (fun o => exists d, o = Throw RuntimeError d) W T N) as (b & w & E & d & D); [|now exists b, w, d].
  intros. eapply wrong_throws; [|exact F|exact H]. intros. now apply vector_throws.
Qed.

(** C47: the names and fingerprints do not matter. *)
Lemma back_renamed cs c n fp ps o n' fp' : back cs (RClass c false) (IObject n fp ps) o -> back cs (RClass c false) (IObject n' fp' ps) o.
Proof. intros B. inversion B; subst. now constructor. Qed.

(** C57: too few and too many properties. *)
Theorem fewer_accepted : forall cs c n fp ps is1 is2 os fuel,
  values ps = (is1 ++ is2)%list -> back_all cs (cs c) is1 os ->
  well_formed (IObject n fp ps) -> no_clash (IObject n fp ps) -> height (wire (IObject n fp ps)) <= fuel ->
  exists blob w d, serialise_blob (IObject n fp ps) new_writer = Ok blob w /\ deserialise cs fuel (RClass c false) blob = Ok (OClass c os) d.
Proof.
  intros cs c n fp ps is1 is2 os fuel V B W N H.
  destruct (sent_read cs fuel (RClass c false) (IObject n fp ps) (fun o => exists d, o = Ok (OClass c os) d) W eq_refl N) as (b & w & E & d & D); [|now exists b, w, d].
  intros l r u. destruct fuel as [|fuel]; [rewrite height_object in H; lia|].
  destruct is2 as [|i is2].
  - rewrite app_nil_r in V. eexists. apply (read_object cs fuel c false). rewrite V.
    apply (proj2 (back_reads cs) _ _ _ B). rewrite height_object, V in H. lia.
  - destruct (fuel_object n fp _ _ _ _ _ V H) as [_ Hf].
    pose proof (proj2 (back_reads cs) _ _ _ B fuel Hf) as R.
    rewrite read_class. unfold bind at 1. cbn [wire]. unfold payload_tree. rewrite start_composite.
    replace (map (fun p : string * (string * item) => wire (snd (snd p))) ps) with (map wire (values ps))
      by (unfold values; now rewrite map_map).
    set (up := Frame [leaf (ASymbol fp)] AList [] :: Frame l ADescribed r :: u).
    rewrite V, map_app. cbn [map]. rewrite onto_before. unfold finally, bind.
    pose proof (read_prefix _ _ _ _ R [] (wire i) (map wire is2) [] up) as E. rewrite app_nil_r in E. rewrite E, bind_assoc3.
    cbn. rewrite app_nil_r. eauto.
Qed.

Theorem more_accepted : forall cs c n fp ps ts t is i os o fuel,
  cs c = (ts ++ [t; t])%list -> values ps = (is ++ [i])%list -> back_all cs ts is os -> back cs t i o ->
  well_formed (IObject n fp ps) -> no_clash (IObject n fp ps) -> height (wire (IObject n fp ps)) <= fuel ->
  exists blob w d, serialise_blob (IObject n fp ps) new_writer = Ok blob w /\
    deserialise cs fuel (RClass c false) blob = Ok (OClass c (os ++ [o; o])) d.
Proof.
  intros cs c n fp ps ts t is i os o fuel C V B Bt W N H.
  destruct (sent_read cs fuel (RClass c false) (IObject n fp ps) (fun x => exists d, x = Ok (OClass c (os ++ [o; o])) d) W eq_refl N) as (b & w & E & d & D); [|now exists b, w, d].
  intros l r u. destruct fuel as [|fuel]; [rewrite height_object in H; lia|].
  destruct (fuel_object n fp _ _ _ _ _ V H) as [Hi Hf].
  pose proof (proj2 (back_reads cs) _ _ _ B fuel Hf) as R. pose proof (proj1 (back_reads cs) _ _ _ Bt fuel Hi) as Rt.
  rewrite read_class. unfold bind at 1. cbn [wire]. unfold payload_tree. rewrite start_composite.
  replace (map (fun p : string * (string * item) => wire (snd (snd p))) ps) with (map wire (values ps))
    by (unfold values; now rewrite map_map).
  set (up := Frame [leaf (ASymbol fp)] AList [] :: Frame l ADescribed r :: u).
  rewrite C, V, map_app. cbn [map]. rewrite onto_before. unfold finally, bind.
  rewrite (read_prefix _ _ _ _ R [t; t] (wire i) [] [] up), bind_assoc3, !read_all_cons. unfold bind. rewrite Rt.
  cbn [pn_next here]. rewrite Rt. cbn. eauto.
Qed.

(** ** Reading a second time *)

Theorem second_throws : forall cs c root o fuel,
  back cs (RClass c false) root o -> well_formed root -> no_clash root -> height (wire root) <= fuel ->
  exists blob w d d', serialise_blob root new_writer = Ok blob w /\ deserialise cs fuel (RClass c false) blob = Ok o d /\
    forall t, deserialise cs fuel t d = Throw RuntimeError d'.
Proof.
  intros cs c root o fuel B W N H. assert (P : is_pointer root = false) by (inversion B; reflexivity).
  destruct (serialise_correct root W P N) as [w [ts [E _]]].
  pose proof (proj1 (back_reads cs) _ _ _ B fuel H [] [schema_tree [ts]; leaf ANull]
    [Frame [leaf (AULong (vendor 1))] AList []; Frame [] ADescribed []]) as R.
  exists (decoded (envelope_tree (wire root) [ts] [leaf ANull])), w.
  inversion B; subst. do 2 eexists. split; [exact E|]. cbn [wire]. unfold payload_tree. rewrite deserialise_inside. split; [exact R|].
  intros t. reflexivity.
Qed.

(** ** Reading leaves the data alone *)

Definition keeps {A} (m : PM A) : Prop := forall d,
  match m d with Ok _ d' | Throw _ d' => forest d' = forest d | _ => True end.

Lemma same_level_forest d d' : same_level d d' -> forest d' = forest d.
Proof. unfold forest. now intros [-> ->]. Qed.
Lemma next_forest d : forest (pn_next d) = forest d.
Proof. apply same_level_forest, next_same. Qed.
Lemma enter_forest d : forest (pn_enter d) = forest d.
Proof. destruct d as [[cs|l [a cs] r] u]; reflexivity. Qed.
Lemma exit_forest d : forest (pn_exit d) = forest d.
Proof. destruct d as [h [|[l a r] u]]; reflexivity. Qed.
Lemma w_enter_forest d : forest (w_enter d) = forest d.
Proof. unfold w_enter. now rewrite next_forest, enter_forest. Qed.

Lemma keeps_bind {A B} (m : PM A) (f : A -> PM B) : keeps m -> (forall a, keeps (f a)) -> keeps (bind m f).
Proof.
  intros Hm Hf d. unfold bind. specialize (Hm d). destruct (m d) as [a d1|e d1| | |]; auto.
  specialize (Hf a d1). destruct (f a d1); congruence.
Qed.
Lemma keeps_finally {A} (m : PM A) g : keeps m -> (forall d, forest (g d) = forest d) -> keeps (finally m g).
Proof. intros Hm Hg d. unfold finally. specialize (Hm d). destruct (m d); auto; now rewrite Hg. Qed.
Lemma keeps_ret {A} (a : A) : keeps (ret a).
Proof. intros d. reflexivity. Qed.
Lemma keeps_require ty : keeps (require ty).
Proof. intros d. unfold require. destruct (is_type ty d); reflexivity. Qed.
Lemma keeps_enter : keeps (fun d => Ok tt (w_enter d)).
Proof. intros d. apply w_enter_forest. Qed.
Lemma keeps_raw {A} (g : data -> A) : keeps (read_raw g).
Proof. intros d. apply next_forest. Qed.
Lemma keeps_get {A} (g : data -> A) : keeps (fun d => Ok (g d) d).
Proof. intros d. reflexivity. Qed.

Lemma keeps_start : keeps read_startComposite.
Proof.
  repeat (apply keeps_bind; [|intros]); first [exact keeps_enter | exact (keeps_raw _) | exact (keeps_require _)].
Qed.
Lemma keeps_prim t : keeps (prim_get t).
Proof.
  destruct t; (apply keeps_bind; [try apply keeps_require|intros; try apply keeps_get]).
  - intros d. unfold attest_is_string. destruct (negb (is_type TString d)); reflexivity.
  - intros d. destruct (pn_get_string d); exact I || reflexivity.
Qed.
Lemma end_forest d : forest (endComposite d) = forest d.
Proof. unfold endComposite. now rewrite next_forest, !exit_forest. Qed.

Lemma keeps_read cs fuel : forall t, keeps (read cs fuel t).
Proof.
  induction fuel as [|fuel IH]; intros t; [intros d; exact I|]. destruct t as [p ptr|c ptr|ptr].
  - apply keeps_finally; [|apply next_forest]. apply keeps_bind; [apply keeps_prim|]. intros. apply keeps_ret.
  - rewrite read_class. apply keeps_bind; [apply keeps_start|]. intros _. apply keeps_finally; [|apply end_forest].
    apply keeps_bind; [|intros; apply keeps_ret]. induction (cs c) as [|t ts IHt]; [apply keeps_ret|]. rewrite read_all_cons.
    apply keeps_bind; [apply IH|]. intros. apply keeps_bind; [exact IHt|]. intros. apply keeps_ret.
  - cbn [read]. apply keeps_bind; [apply keeps_start|]. intros _. apply keeps_finally; [|apply end_forest].
    apply keeps_bind; [apply keeps_require|]. intros _ d. exact I.
Qed.

Theorem deserialise_keeps : forall cs fuel t d,
  match deserialise cs fuel t d with Ok _ d' | Throw _ d' => forest d' = forest d | _ => True end.
Proof.
  intros cs fuel t. change (keeps (deserialise cs fuel t)). apply keeps_bind; [|intros; apply keeps_read].
  repeat (apply keeps_bind; [|intros]); try first [exact keeps_enter | exact (keeps_raw _) | exact (keeps_require _)].
  intros d. unfold auto_enter, finally. cbn. rewrite exit_forest. apply w_enter_forest.
Qed.

(** It always comes to an end. *)
Definition ends {A} (n : nat) (m : PM A) : Prop := forall d, below n d ->
  match m d with Ok _ d' => same_level d d' | Fuel => False | _ => True end.

Lemma ends_bind {A B} n (m : PM A) (f : A -> PM B) : ends n m -> (forall a, ends n (f a)) -> ends n (bind m f).
Proof.
  intros Hm Hf d Hb. unfold bind. specialize (Hm d Hb). destruct (m d) as [a d1|e d1| | |]; auto.
  specialize (Hf a d1 (same_level_below _ _ _ Hm Hb)). destruct (f a d1); auto. eapply same_level_trans; eauto.
Qed.
Lemma ends_ret {A} n (a : A) : ends n (ret a).
Proof. intros d _. apply same_level_refl. Qed.
Lemma ends_require n ty : ends n (require ty).
Proof. intros d _. unfold require. destruct (is_type ty d); [apply same_level_refl|exact I]. Qed.

Lemma start_inside d d1 n : read_startComposite d = Ok tt d1 -> below n d ->
  2 <= n /\ below (n - 2) d1 /\ forall d2, same_level d1 d2 -> same_level d (endComposite d2).
Proof.
  unfold read_startComposite, bind, attest_is_described, attest_is_list, require, is_type.
  destruct d as [[c|l [a c] r] u]; [discriminate|].
  destruct (pn_type_eqb (pn_dtype (Data (At l (Node a c) r) u)) TDescribed) eqn:Ea; [|intros; discriminate].
  unfold readAndNext_ulong, read_raw. set (e := pn_next (w_enter (Data (At l (Node a c) r) u))).
  assert (Se : same_level (pn_enter (Data (At l (Node a c) r) u)) e) by (unfold e, w_enter; eauto using same_level_trans, next_same).
  destruct (pn_type_eqb (pn_dtype e) TList) eqn:El; [|intros; discriminate]. intros E Hb. injection E as <-.
  assert (Ae : isAt e) by (destruct e as [[x|l' x r'] u']; [discriminate|exact I]).
  destruct (enter_below n (Data (At l (Node a c) r) u) I (below_belowc _ _ Hb)) as [Hn Hb1].
  destruct (enter_below (n - 1) e Ae (below_belowc _ _ (same_level_below _ _ _ Se Hb1))) as [Hn2 Hb2].
  assert (Sw : same_level (pn_enter e) (w_enter e)) by apply next_same.
  split; [lia|]. split; [replace (n - 2) with (n - 1 - 1) by lia; exact (same_level_below _ _ _ Sw Hb2)|].
  intros d2 S2. unfold endComposite. rewrite (enter_exit e d2 Ae (same_level_trans _ _ _ Sw S2)).
  rewrite (enter_exit (Data (At l (Node a c) r) u) e I Se). apply next_same.
Qed.

Lemma ends_start n (m : PM object) : (2 <= n -> ends (n - 2) m) -> ends n (read_startComposite ;; finally m endComposite).
Proof.
  intros Hm d Hb. unfold bind. destruct (read_startComposite d) as [[] d1|e d1| | |] eqn:E; auto.
  - destruct (start_inside d d1 n E Hb) as (Hn & Hb1 & He). unfold finally. specialize (Hm Hn d1 Hb1). destruct (m d1); auto.
  - revert E. unfold read_startComposite, bind, attest_is_described, attest_is_list, require, readAndNext_ulong, read_raw.
    repeat (match goal with |- context [if ?b then _ else _] => destruct b end); discriminate.
Qed.

Lemma ends_prim n t ptr : ends n (read_prim t ptr).
Proof.
  intros d Hb. unfold read_prim, finally, bind.
  assert (K : match prim_get t d with Ok _ d' => d' = d | Fuel => False | _ => True end).
  { destruct t; unfold prim_get, bind, attest_is_int, attest_is_long, attest_is_double, attest_is_bool, attest_is_float, attest_is_char, attest_is_string, require;
      repeat (match goal with |- context [if ?b then _ else _] => destruct b end); auto; destruct (pn_get_string d); auto. }
  destruct (prim_get t d); auto. subst s. apply next_same.
Qed.

Lemma ends_read cs fuel : forall n t, n < fuel -> ends n (read cs fuel t).
Proof.
  induction fuel as [|fuel IH]; intros n t H; [lia|]. destruct t as [p ptr|c ptr|ptr].
  - apply ends_prim.
  - rewrite read_class. apply ends_start. intros Hn. apply ends_bind; [|intros; apply ends_ret].
    induction (cs c) as [|t ts IHt]; [apply ends_ret|]. rewrite read_all_cons.
    apply ends_bind; [apply IH; lia|]. intros. apply ends_bind; [exact IHt|]. intros. apply ends_ret.
  - cbn [read]. apply ends_start. intros Hn. apply ends_bind; [apply ends_require|]. intros _ d _. exact I.
Qed.

Theorem deserialise_ends : forall cs fuel t d, belowc fuel d -> deserialise cs fuel t d <> Fuel.
Proof.
  intros cs fuel t d H. unfold deserialise, readyPayload.
  unfold bind, attest_is_described, attest_is_list, require, readAndNext_ulong, read_raw.
  destruct (is_type TDescribed d) eqn:E0; [|discriminate].
  assert (A0 : isAt d) by (destruct d as [[x|l' x r'] u']; [discriminate|exact I]).
  set (e := pn_next (w_enter d)).
  assert (Se : same_level (pn_enter d) e) by (unfold e, w_enter; eauto using same_level_trans, next_same).
  destruct (is_type TList e) eqn:El; [|discriminate].
  assert (Ae : isAt e) by (destruct e as [[x|l' x r'] u']; [discriminate|exact I]).
  destruct (enter_below fuel d A0 H) as [Hn Hb1].
  destruct (enter_below _ e Ae (below_belowc _ _ (same_level_below _ _ _ Se Hb1))) as [Hn2 Hb2].
  assert (Sw : same_level (pn_enter e) (w_enter e)) by apply next_same.
  destruct (is_type TDescribed (w_enter e)) eqn:Ed; [|discriminate].
  assert (Aw : isAt (w_enter e)) by (destruct (w_enter e) as [[x|l' x r'] u']; [discriminate|exact I]).
  unfold auto_enter, finally. cbn [ret]. rewrite (enter_exit (w_enter e) (w_enter (w_enter e)) Aw (next_same _)).
  pose proof (ends_read cs fuel (fuel - 1 - 1) t ltac:(lia) (w_enter e) (same_level_below _ _ _ Sw Hb2)) as K.
  destruct (read cs fuel t (w_enter e)); congruence || contradiction.
Qed.

(** ** Reads that keep the data and the position *)

Lemma root_heights u : forall cs, heights cs <= heights (root_forest cs u).
Proof.
  induction u as [|[l a r] u IH]; intros cs; [apply le_n|]. cbn [root_forest]. etransitivity; [|apply IH].
  rewrite rev_append_rev, heights_app, heights_cons, height_node. lia.
Qed.
Lemma forest_belowc d n : heights (forest d) <= n -> belowc n d.
Proof. intros H. apply below_belowc. unfold below. etransitivity; [apply root_heights|exact H]. Qed.

Lemma inspect_kept fmt custom mo kf : (forall which name, stays_put (custom which name)) ->
  forall fuel d cf, heights (forest d) <= fuel ->
  match dumpContents fmt custom mo kf fuel (d, cf) with
  | Ok _ (d', _) | Throw _ (d', _) => d' = d
  | Fuel => False
  | _ => True
  end.
Proof.
  intros Hs fuel d cf H. apply forest_belowc in H. destruct d as [[cs|l t r] u]; [exact I|].
  exact (contents_restored fmt custom mo kf Hs fuel (Data (At l t r) u) cf I H).
Qed.
Lemma dump_kept double float fuel d : heights (forest d) <= fuel ->
  match dumpData double float fuel d with
  | Ok _ d' | Throw _ d' => d' = d
  | Fuel => False
  | _ => True
  end.
Proof.
  intros H. apply forest_belowc in H. destruct d as [[cs|l t r] u]; [exact I|].
  exact (dumpData_restored double float fuel (Data (At l t r) u) I H).
Qed.

(** ** Examples *)

(** A class with an int, a string, a pointer to a nested class and a bool. *)
Definition sample_classes (c : string) : list ctype :=
  if String.eqb c "net.Person" then [RPrim CInt false; RPrim CString false; RClass "net.Pet" true; RPrim CBool true]
  else if String.eqb c "net.Pet" then [RPrim CString false; RPrim CChar false]
  else if String.eqb c "net.Pair" then [RPrim CInt false; RPrim CInt false]
  else if String.eqb c "net.One" then [RPrim CInt false]
  else if String.eqb c "net.Box" then [RPrim CInt false; RVector false]
  else if String.eqb c "net.Name" then [RPrim CString true]
  else [].
Definition pet : item := IObject "net.Pet" "f:pet" [("name", ("string", IPrim (OfString "Rex"))); ("sort", ("char", IPrim (OfChar (-3))))].
Definition person (b : option prim_value) : item :=
  IObject "net.Person" "f:person"
    [("age", ("int", IPrim (OfInt 44))); ("name", ("string", IPrim (OfString "Ann"))); ("pet", ("net.Pet", IPointer (Some pet)));
     ("tall", ("boolean", IPrimPtr CBool b))].
Definition person_back : object :=
  OClass "net.Person" [OPrim (OfInt 44); OPrim (OfString "Ann"); OClassPtr "net.Pet" [OPrim (OfString "Rex"); OPrim (OfChar (-3))]; OPrimPtr (OfBool true)].
Definition box (es : list item) : item :=
  IObject "net.Box" "f:box" [("n", ("int", IPrim (OfInt 1))); ("v", ("java.util.List<int>", IVector "java.util.List<int>" "f:l" es))].

Lemma person_ok b : (match b with Some v => type_of v = CBool /\ prim_ok v | None => True end) ->
  well_formed (person b) /\ no_clash (person b) /\ is_target (person b) = true.
Proof.
  intros H. split; [|split; [|reflexivity]].
  - cbn. repeat split; try lia. destruct b; [destruct H; repeat split; auto|]; discriminate.
  - intros k s H1 H2. cbn in H2. repeat destruct H2 as [H2|H2]; try discriminate; destruct H2.
Qed.
Lemma pet_back : back_all sample_classes [RPrim CString false; RPrim CChar false] (values [("name", ("string", IPrim (OfString "Rex"))); ("sort", ("char", IPrim (OfChar (-3))))]) [OPrim (OfString "Rex"); OPrim (OfChar (-3))].
Proof.
  cbn [values map snd]. apply back_cons; [apply (back_prim _ (OfString "Rex"))|apply back_cons; [apply (back_prim _ (OfChar (-3)))|apply back_nil]].
  - unfold prim_plain, nul_free. cbn. intuition discriminate.
  - cbn. lia.
Qed.
Lemma person_reads : back sample_classes (RClass "net.Person" false) (person (Some (OfBool true))) person_back.
Proof.
  apply back_class. cbn [map snd].
  apply back_cons; [apply (back_prim _ (OfInt 44) I)|]. apply back_cons; [apply (back_prim _ (OfString "Ann"))|].
  { unfold prim_plain, nul_free. cbn. intuition discriminate. }
  apply back_cons; [apply back_class_ptr; exact pet_back|]. apply back_cons; [apply (back_prim_ptr _ (OfBool true) I)|]. apply back_nil.
Qed.
