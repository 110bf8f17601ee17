(** Which payloads inspection accepts, and what it shows of them. *)
From Coq Require Import Lia Permutation.
From Verif Require Import Base Proton ProtonProofs TypeNames Schema SpecSchema Descriptors Factory SpecFactory FactoryProofs Readers SpecReaders
  ReadersProofs SpecAccept AcceptProofs SpecDisplay SpecInstalled.
Import List ListNotations.
Open Scope string_scope.

(** ** The cursor *)
(** On the [k]-th part or the last; before the first if there is none. *)
Definition upon (p : tree) (k : nat) (u : list frame) (d : data) : Prop :=
  on p k u d \/ tree_children p = [] /\ d = Data (Before []) u.
Lemma upon_view p k u d : upon p k u d -> view d = part k p.
Proof.
  intros [H|[H ->]].
  - destruct (on_part _ _ _ _ H) as (l & t & r & -> & ->). reflexivity.
  - unfold part. rewrite H. now destruct k.
Qed.
Lemma upon_level p k u d : upon p k u d -> on_level d.
Proof. intros [(l & t & r & -> & _)|[_ ->]]; exact I. Qed.
Lemma upon_next p k u d : upon p k u d -> upon p (S k) u (pn_next d).
Proof. intros [H|[H ->]]; [left; now apply on_next|right; auto]. Qed.
Lemma upon_among p k u d : upon p k u d -> among p u d.
Proof. intros [H|[H ->]]; [eapply on_among; eauto|split; auto]. Qed.
Lemma upon_enter l a cs r u : upon (Node a cs) 0 (Frame l a r :: u) (w_enter (Data (At l (Node a cs) r) u)).
Proof. destruct cs as [|c cs]; [right; auto|left; apply on_first]. Qed.
Lemma upon_at p k u d t : upon p k u d -> part k p = Some t -> exists l r, d = Data (At l t r) u.
Proof.
  intros H E. rewrite <- (upon_view _ _ _ _ H) in E. destruct H as [(l & t' & r & -> & _)|[_ ->]]; [|discriminate].
  injection E as ->. eauto.
Qed.
Lemma upon_exit l t r u k d : upon t k (Frame l (tree_atom t) r :: u) d -> pn_exit d = Data (At l t r) u.
Proof. destruct t as [a cs]. intros H. apply (exit_among l a cs r u). eapply upon_among; eauto. Qed.

Lemma view_some d t : view d = Some t -> exists l r u, d = Data (At l t r) u.
Proof. destruct d as [[cs|l t' r] u]; [discriminate|]. intros [= ->]. eauto. Qed.
Lemma require_inv ty d x d' : require ty d = Ok x d' -> d' = d /\ pn_dtype d = ty.
Proof.
  unfold require, is_type. destruct (pn_type_eqb (pn_dtype d) ty) eqn:E; [|discriminate]. intros [= _ <-]. split; [reflexivity|].
  destruct (pn_dtype d), ty; try reflexivity; discriminate.
Qed.
Lemma dtype_view d ty : pn_dtype d = ty -> ty <> TInvalid -> exists l t r u, d = Data (At l t r) u /\ atom_type (tree_atom t) = ty.
Proof. destruct d as [[cs|l [a cs] r] u]; cbn; intros E H; [congruence|]. exists l, (Node a cs), r, u. auto. Qed.
Lemma type_described a : atom_type a = TDescribed -> a = ADescribed.
Proof. destruct a; try discriminate. reflexivity. Qed.
Lemma type_list a : atom_type a = TList -> a = AList.
Proof. destruct a; try discriminate. reflexivity. Qed.
Lemma described_inv d x d' : attest_is_described d = Ok x d' -> d' = d /\ exists l t r u, d = Data (At l t r) u /\ tree_atom t = ADescribed.
Proof.
  intros H. apply require_inv in H as [-> H]. split; [reflexivity|]. apply dtype_view in H; [|discriminate].
  destruct H as (l & t & r & u & -> & H). apply type_described in H. eauto 6.
Qed.
Lemma enter_any_inv {A} (m : PM A) l t r u x d' : auto_enter false m (Data (At l t r) u) = Ok x d' ->
  exists d0 d1, upon t 0 (Frame l (tree_atom t) r :: u) d0 /\ m d0 = Ok x d1 /\ d' = pn_exit d1.
Proof.
  intros H. unfold auto_enter in H. apply finally_inv in H as (d1 & H & ->). destruct t as [a cs].
  exists (w_enter (Data (At l (Node a cs) r) u)), d1. auto using upon_enter.
Qed.
Lemma list_enter_inv {A} (m : nat -> PM A) l t r u x d' : auto_list_enter true m (Data (At l t r) u) = Ok x d' ->
  exists d0 d1, upon t 0 (Frame l (tree_atom t) r :: u) d0 /\ m (length (elements t)) d0 = Ok x d1 /\ d' = pn_exit d1.
Proof.
  intros H. unfold auto_list_enter in H. apply finally_inv in H as (d1 & H & ->). destruct t as [a cs].
  exists (w_enter (Data (At l (Node a cs) r) u)), d1. split; [apply upon_enter|]. split; [|reflexivity]. rewrite <- H.
  replace (pn_get_list (Data (At l (Node a cs) r) u)) with (length (elements (Node a cs))) by (destruct a; reflexivity). reflexivity.
Qed.
Definition pieces (t : tree) : nat := match t with Node AMap cs => length cs | _ => 0 end.
Lemma map_enter_inv {A} (m : nat -> PM A) l t r u x d' : auto_map_enter true m (Data (At l t r) u) = Ok x d' ->
  exists d0 d1, upon t 0 (Frame l (tree_atom t) r :: u) d0 /\ m (pieces t) d0 = Ok x d1 /\ d' = pn_exit d1.
Proof.
  intros H. unfold auto_map_enter in H. apply finally_inv in H as (d1 & H & ->). destruct t as [a cs].
  exists (w_enter (Data (At l (Node a cs) r) u)), d1. split; [apply upon_enter|]. split; [|reflexivity]. rewrite <- H.
  replace (pn_get_map (Data (At l (Node a cs) r) u)) with (pieces (Node a cs)) by (destruct a; reflexivity). reflexivity.
Qed.
Lemma string_read_inv d s d' : readAndNext_string false d = Ok s d' -> d' = pn_next d /\ exists t, view d = Some t /\ calls s t.
Proof.
  intros H. destruct d as [[cs|l t r] u].
  - unfold readAndNext_string, auto_next in H. apply finally_inv in H as (d1 & H & ->). discriminate.
  - eapply read_string_inv in H as [-> [H|[H _]]]; [|discriminate|reflexivity]. split; [reflexivity|]. exists t. auto.
Qed.
Lemma string_read d s t : view d = Some t -> calls s t -> readAndNext_string false d = Ok s (pn_next d).
Proof.
  intros E H. apply view_some in E as (l & r & u & ->). destruct t as [a cs]. unfold calls, says in H. cbn [tree_atom] in H. destruct H as [-> | ->]; reflexivity.
Qed.

Lemma numbered_cons {A} (x : A) l : numbered (x :: l) = (0, x) :: map (fun p => (S (fst p), snd p)) (numbered l).
Proof.
  unfold numbered. cbn. f_equal. rewrite <- seq_shift. generalize (seq 0 (length l)). intros ns. revert l.
  induction ns as [|n ns IH]; intros [|y l]; cbn; [reflexivity..|]. now rewrite IH.
Qed.

Section Exact.
Context (fmt : N -> string) (custom : nat -> option string -> PM ivalue) (kf : bool) (f : factory) (s : schema).
Context (h : list op) (tells : nat -> bool -> option tree -> string -> Prop).
Notation ts := (List.concat (s_types s)).
Hypothesis Hready : ready f ts.
Hypothesis Hinst : forall r, In (Install r) h -> exists i, byType f (reader_type r) = Some i /\ lock f i = Some r.
Hypothesis Hcust : forall r, In (Install r) h -> is_custom r.
Hypothesis Hcov : covered h ts.
Hypothesis Hcustom : custom_as custom tells.
Notation shown := (displays fmt dec kf ts (installed_by tells h)).

Definition known (ty : string) : Prop :=
  readable_prim ty \/ (exists u, In u ts /\ n_name u = ty) \/ exists r, In (Install r) h /\ reader_type r = ty.
Lemma reader_for ty i r : known ty -> byType f ty = Some i -> lock f i = Some r ->
  (exists p, ty = prim_name p /\ r = RProperty p) \/ (exists t, In t ts /\ n_name t = ty /\ reads f t r) \/ (In (Install r) h /\ reader_type r = ty).
Proof.
  intros [(p & ->)|[(t & Ht & <-)|(q & Hq & <-)]] Hi Hr.
  - left. exists p. split; [reflexivity|]. rewrite (proj1 Hready p i Hi) in Hr. congruence.
  - right; left. exists t. destruct (proj2 Hready t Ht) as (j & r' & Hj & Hr' & R). assert (r' = r) by congruence. subst. auto.
  - right; right. destruct (Hinst q Hq) as (j & Hj & Hl). assert (q = r) by congruence. subst. auto.
Qed.

(** ** Accepted values are as specified *)
Definition sound_at (rec : reader -> option string -> PM ivalue) : Prop := forall ty i r, known ty -> byType f ty = Some i -> lock f i = Some r ->
  forall name d v d', on_level d -> rec r name d = Ok v d' ->
  d' = pn_next d /\ exists x, show v = labelled name x /\ shown (is_named name) ty (view d) x.

Lemma property_sound p name d v d' : dump_property fmt p name d = Ok v d' ->
  d' = pn_next d /\ exists x, show v = labelled name x /\ shown (is_named name) (prim_name p) (view d) x.
Proof.
  destruct p; cbn [dump_property prim_name]; intros H.
  - injection H as <- <-. split; [reflexivity|]. eexists. split; [reflexivity|].
    replace (pn_get_int d) with (integer (view d)) by (destruct d as [[cs|l [[] cs] r] u]; reflexivity). constructor.
  - injection H as <- <-. split; [reflexivity|]. eexists. split; [reflexivity|].
    replace (pn_get_long d) with (long (view d)) by (destruct d as [[cs|l [[] cs] r] u]; reflexivity). constructor.
  - injection H as <- <-. split; [reflexivity|]. eexists. split; [reflexivity|].
    replace (pn_get_double d) with (double_bits (view d)) by (destruct d as [[cs|l [[] cs] r] u]; reflexivity). constructor.
  - injection H as <- <-. split; [reflexivity|]. eexists. split; [reflexivity|].
    replace (pn_get_bool d) with (boolean (view d)) by (destruct d as [[cs|l [[] cs] r] u]; reflexivity). constructor.
  - apply bind_inv in H as (x & d1 & H1 & H). injection H as <- <-. apply string_read_inv in H1 as (-> & t & -> & H1).
    split; [reflexivity|]. eexists. split; [reflexivity|]. now constructor.
  - discriminate.
  - injection H as <- <-. split; [reflexivity|]. eexists. split; [reflexivity|].
    replace (match pn_get_binary d with Some x => x | None => "" end) with (bytes (view d)) by (destruct d as [[cs|l [[] cs] r] u]; reflexivity). constructor.
Qed.

Lemma fromDescriptor_inv fp t : fromDescriptor s fp = Ret t -> In t ts /\ n_descriptor t = fp.
Proof.
  unfold fromDescriptor, first_with. destruct (find _ _) as [u|] eqn:E; [|discriminate]. intros [= <-].
  apply find_some in E as [H1 H2]. apply String.eqb_eq in H2. auto.
Qed.

Section Rec.
Context (rec : reader -> option string -> PM ivalue).
Hypothesis Hrec : sound_at rec.
Lemma fields_sound body u fs' : forall fs ks k d vs d', upon body k u d ->
  Forall2 (fun fd i => exists ty, property_type fd = Some ty /\ byType f ty = Some i) fs ks ->
  (forall fd ty, In fd fs -> property_type fd = Some ty -> known ty) -> length fs' = length fs ->
  dump_fields f rec fs' ks d = Ok vs d' ->
  (exists k', upon body k' u d') /\ exists xs, map show vs = map (fun p => f_name (fst p) ++ " : " ++ snd p) (combine fs' xs) /\
    Forall2 (fun p x => exists ty, property_type (snd p) = Some ty /\ shown true ty (part (k + fst p) body) x) (numbered fs) xs.
Proof.
  induction fs' as [|fd' fs' IH]; intros fs ks k d vs d' Ho Hks Hk Hl H.
  - destruct fs; [|discriminate]. inversion Hks; subst. injection H as <- <-. split; [eauto|]. exists []. split; [reflexivity|constructor].
  - destruct fs as [|fd fs]; [discriminate|]. inversion Hks as [|? i ? ks' (ty & Hty & Hi) Hks']; subst. cbn [dump_fields] in H.
    destruct (lock f i) as [r|] eqn:Hr; [|discriminate]. apply bind_inv in H as (v & d1 & H1 & H). apply bind_inv in H as (vs' & d2 & H2 & H). injection H as <- <-.
    destruct (Hrec ty i r (Hk fd ty (or_introl eq_refl) Hty) Hi Hr _ _ _ _ (upon_level _ _ _ _ Ho) H1) as (-> & x & Hx & Hd).
    rewrite (upon_view _ _ _ _ Ho) in Hd. apply upon_next in Ho.
    destruct (IH fs ks' (S k) _ _ _ Ho Hks' ltac:(intros; eapply Hk; eauto; now right) ltac:(cbn in Hl; congruence) H2) as (Hd2 & xs & Hxs & Hf).
    split; [exact Hd2|]. exists (x :: xs). split; [cbn; now rewrite Hx, Hxs|]. rewrite numbered_cons. constructor.
    + exists ty. split; [exact Hty|]. cbn [fst]. now rewrite Nat.add_0_r.
    + clear -Hf. induction Hf as [|[n q] y l l' (ty & H1 & H2) _ IH]; [constructor|]. cbn [map]. constructor; [|exact IH].
      exists ty. split; [exact H1|]. cbn [fst snd] in *. now replace (k + S n) with (S k + n) by lia.
Qed.
Lemma composite_sound c ks name d v d' : In (TComposite c) ts ->
  Forall2 (fun fd i => exists ty, property_type fd = Some ty /\ byType f ty = Some i) (c_fields c) ks ->
  on_level d -> dump_composite f s rec ks name d = Ok v d' ->
  d' = pn_next d /\ exists x, show v = labelled name x /\ shown (is_named name) (c_name c) (view d) x.
Proof.
  intros Hin Hks Hd H. unfold dump_composite, auto_next in H. apply finally_inv in H as (d1 & H & ->). cbn beta in H.
  unfold is_null, is_type in H. destruct (pn_type_eqb (pn_dtype d) TNull) eqn:En.
  - injection H as <- <-. split; [reflexivity|]. exists "<<NULL>>". split; [reflexivity|].
    destruct d as [[cs|l [a cs] r] u]; [discriminate|]. cbn in En. apply shows_null; [assumption|]. cbn. destruct a; try discriminate. reflexivity.
  - apply bind_inv in H as (vs & d2 & H & E). injection E as <- <-. unfold composite_dump_ in H.
    apply bind_inv in H as (x0 & d3 & H0 & H). apply described_inv in H0 as (-> & l & t & r & u & -> & Ht).
    apply enter_any_inv in H as (d0 & d1 & O0 & H & ->). apply bind_inv in H as (sym & d4 & H0 & H).
    pose proof (upon_view _ _ _ _ O0) as V0. destruct (upon_next _ _ _ _ O0) as [O1|[_ O1]].
    2:{ destruct O0 as [(l' & t' & r' & -> & _ & _)|[_ ->]]; [destruct r'; discriminate|]. discriminate. }
    destruct d0 as [[cs|l0 p0 r0] u0]; [discriminate H0|]. apply symbol_inv in H0 as [-> Hsym]. cbn [view here] in V0.
    apply bind_inv in H as (nt & d5 & H1 & H). apply lift_inv in H1 as [H1 ->]. apply fromDescriptor_inv in H1 as [Hc' E'].
    destruct nt as [c'|]; [|discriminate]. destruct (Nat.eqb_spec (length (c_fields c')) (length ks)) as [El|]; [|discriminate].
    apply bind_inv in H as (x1 & d6 & H1 & H). apply next_inv in H1 as ->. apply bind_inv in H as (x2 & d7 & H1 & H).
    destruct (on_part _ _ _ _ O1) as (l1 & body & r1 & E1 & P1). rewrite E1 in *. apply require_inv in H1 as [-> Hb].
    destruct body as [ab cb] eqn:Eb. rewrite <- Eb in *. assert (Hb' : tree_atom body = AList) by (subst body; cbn in Hb |- *; now apply type_list).
    apply enter_any_inv in H as (d8 & d9 & O8 & H & ->).
    assert (Hl : length (c_fields c') = length (c_fields c)) by (rewrite El; symmetry; clear -Hks; induction Hks; cbn; congruence).
    destruct (fields_sound body _ (c_fields c') (c_fields c) ks 0 d8 vs d9 O8 Hks) as ((k' & O9) & xs & Hxs & Hf); auto.
    { intros fd ty Hfd Hty. apply (Hcov (TComposite c) ty Hin). exists fd. auto. }
    rewrite (upon_exit _ _ _ _ _ _ O9).
    assert (X : pn_exit (Data (At l1 body r1) (Frame l (tree_atom t) r :: u)) = Data (At l t r) u).
    { rewrite <- E1. apply (upon_exit l t r u 1). rewrite E1. now left. }
    rewrite X. split; [reflexivity|]. eexists. split.
    { cbn [show]. rewrite commas_concat, Hxs. reflexivity. }
    apply (shows_object fmt dec kf ts (installed_by tells h) _ c c' t body xs); auto.
    exists p0. split; [congruence|]. now rewrite Hsym, <- E'.
Qed.
Lemma elements_sound e i r body u : known e -> byType f e = Some i -> lock f i = Some r -> forall n k d vs d', upon body k u d ->
  dump_elements rec n (Some r) d = Ok vs d' ->
  (exists k', upon body k' u d') /\ Forall2 (fun j x => shown false e (part j body) x) (seq k n) (map show vs).
Proof.
  intros Hk Hi Hr. induction n as [|n IH]; intros k d vs d' Ho H; cbn [dump_elements] in H.
  - injection H as <- <-. split; [eauto|constructor].
  - apply bind_inv in H as (v & d1 & H1 & H). apply bind_inv in H as (vs' & d2 & H2 & H). injection H as <- <-.
    destruct (Hrec e i r Hk Hi Hr _ _ _ _ (upon_level _ _ _ _ Ho) H1) as (-> & x & Hx & Hd). rewrite (upon_view _ _ _ _ Ho) in Hd.
    apply upon_next in Ho. destruct (IH (S k) _ _ _ Ho H2) as (Hd2 & Hf). split; [exact Hd2|]. cbn. constructor; [|exact Hf].
    cbn in Hx. now rewrite Hx.
Qed.
Lemma seq_parts (P : option tree -> string -> Prop) body xs : Forall2 (fun j x => P (part j body) x) (seq 0 (length (elements body))) xs ->
  Forall2 (fun p x => P (Some p) x) (elements body) xs.
Proof.
  assert (H : forall cs pre, elements body = (pre ++ cs)%list -> forall xs, Forall2 (fun j x => P (part j body) x) (seq (length pre) (length cs)) xs ->
     Forall2 (fun p x => P (Some p) x) cs xs).
  { induction cs as [|c cs IH]; intros pre E ys H; cbn in H; [inversion H; constructor|]. inversion_clear H as [|? y ? ys' H1 H2]. constructor.
    - replace (part (length pre) body) with (Some c) in H1; [exact H1|]. destruct body as [a bs]. unfold elements in E. destruct a; try (destruct pre; discriminate).
      unfold part. cbn [tree_children]. rewrite E, app_length. cbn [length]. rewrite Nat.min_l by lia. rewrite nth_error_app2, Nat.sub_diag by lia. reflexivity.
    - apply (IH (pre ++ [c])%list); [now rewrite <- app_assoc|]. rewrite app_length. cbn. now rewrite Nat.add_1_r. }
  intros H1. apply (H (elements body) [] eq_refl xs H1).
Qed.
Lemma parts_seq (P : option tree -> string -> Prop) body xs : Forall2 (fun p x => P (Some p) x) (elements body) xs ->
  Forall2 (fun j x => P (part j body) x) (seq 0 (length (elements body))) xs.
Proof.
  assert (H : forall cs pre, elements body = (pre ++ cs)%list -> forall xs, Forall2 (fun p x => P (Some p) x) cs xs ->
     Forall2 (fun j x => P (part j body) x) (seq (length pre) (length cs)) xs).
  { induction cs as [|c cs IH]; intros pre E ys H; inversion_clear H as [|? y ? ys' H1 H2]; constructor.
    - replace (part (length pre) body) with (Some c); [exact H1|]. destruct body as [a bs]. unfold elements in E. destruct a; try (destruct pre; discriminate).
      unfold part. cbn [tree_children]. rewrite E, app_length. cbn [length]. rewrite Nat.min_l by lia. rewrite nth_error_app2, Nat.sub_diag by lia. reflexivity.
    - specialize (IH (pre ++ [c])%list). rewrite app_length in IH. cbn in IH. rewrite Nat.add_1_r in IH. apply IH; [now rewrite <- app_assoc|exact H2]. }
  intros H1. apply (H (elements body) [] eq_refl xs H1).
Qed.
Lemma list_sound q e i name d v d' : In (TRestricted q) ts -> r_kind q = list_t \/ r_kind q = array_t -> r_of q = [e] -> byType f e = Some i ->
  dump_list f s rec i name d = Ok v d' ->
  d' = pn_next d /\ exists x, show v = labelled name x /\ shown (is_named name) (r_name q) (view d) x.
Proof.
  intros Hin Hk Hof Hi H. unfold dump_list, auto_next in H. apply finally_inv in H as (d1 & H & ->).
  apply bind_inv in H as (vs & d2 & H & E). injection E as <- <-. unfold list_dump_ in H.
  apply bind_inv in H as (x0 & d3 & H0 & H). apply described_inv in H0 as (-> & l & t & r & u & -> & Ht).
  apply enter_any_inv in H as (d0 & d1 & O0 & H & ->). apply bind_inv in H as (fp & d4 & H0 & H).
  apply string_read_inv in H0 as (-> & p0 & V0 & Hfp). rewrite (upon_view _ _ _ _ O0) in V0.
  assert (O1 : on t 1 (Frame l (tree_atom t) r :: u) (pn_next d0)).
  { destruct O0 as [O0|[O0 _]]; [now apply on_next|]. unfold part in V0. rewrite O0 in V0. discriminate. }
  apply bind_inv in H as (nt & d5 & H1 & H). apply lift_inv in H1 as [H1 ->]. apply fromDescriptor_inv in H1 as [Hc' E'].
  destruct (on_part _ _ _ _ O1) as (l1 & body & r1 & E1 & P1). rewrite E1 in *.
  apply list_enter_inv in H as (d8 & d9 & O8 & H & ->).
  assert (X : pn_exit (Data (At l1 body r1) (Frame l (tree_atom t) r :: u)) = Data (At l t r) u).
  { rewrite <- E1. apply (upon_exit l t r u 1). rewrite E1. now left. }
  assert (exists k', upon body k' (Frame l1 (tree_atom body) r1 :: Frame l (tree_atom t) r :: u) d9) as (k' & O9).
  { destruct (length (elements body)) as [|n] eqn:En; [injection H as _ <-; eauto|]. destruct (lock f i) as [rr|] eqn:Hr; [|discriminate].
    eapply elements_sound in H; eauto; [apply H|]. apply (Hcov (TRestricted q)); auto. cbn. destruct Hk as [-> | ->]; rewrite Hof; now left. }
  rewrite (upon_exit _ _ _ _ _ _ O9), X. split; [reflexivity|]. eexists. split; [cbn [show]; rewrite commas_concat; reflexivity|].
  apply (shows_list fmt dec kf ts (installed_by tells h) _ q e t body (map show vs)); auto.
  - exists p0. split; [exact V0|]. exists nt. now rewrite E'.
  - destruct (length (elements body)) as [|n] eqn:En.
    + destruct (elements body); [|discriminate]. injection H as <- _. constructor.
    + destruct (lock f i) as [rr|] eqn:Hr; [|discriminate]. rewrite <- En in H.
      eapply elements_sound in H; eauto; [|apply (Hcov (TRestricted q)); auto; cbn; destruct Hk as [-> | ->]; rewrite Hof; now left].
      apply (seq_parts (shown false e)), H.
Qed.
Lemma entries_readers n a b d es d' : dump_entries kf rec (S n) a b d = Ok es d' -> exists r q, a = Some r /\ b = Some q.
Proof.
  intros H. cbn [dump_entries] in H. apply bind_inv in H as (e & d1 & H & _). unfold dump_entry, dump_through in H.
  destruct kf; apply bind_inv in H as (x & d2 & Hx & H); apply bind_inv in H as (y & d3 & Hy & _); destruct a, b; try discriminate; eauto.
Qed.
Lemma entry_sound k v i j r q body u n d e d' : known k -> known v -> byType f k = Some i -> lock f i = Some r -> byType f v = Some j -> lock f j = Some q ->
  upon body n u d -> dump_entry kf rec (Some r) (Some q) d = Ok e d' ->
  upon body (S (S n)) u d' /\ exists x y, show e = x ++ " : " ++ y /\
    shown false k (part (if kf then n else S n) body) x /\ shown false v (part (if kf then S n else n) body) y.
Proof.
  intros Kk Kv Hi Hr Hj Hq Ho H. unfold dump_entry, dump_through in H. destruct kf eqn:Ekf.
  - apply bind_inv in H as (a & d1 & H1 & H). apply bind_inv in H as (b & d2 & H2 & H). injection H as <- <-.
    destruct (Hrec k i r Kk Hi Hr _ _ _ _ (upon_level _ _ _ _ Ho) H1) as (-> & x & Hx & Hd). rewrite (upon_view _ _ _ _ Ho) in Hd. apply upon_next in Ho.
    destruct (Hrec v j q Kv Hj Hq _ _ _ _ (upon_level _ _ _ _ Ho) H2) as (-> & y & Hy & He). rewrite (upon_view _ _ _ _ Ho) in He. apply upon_next in Ho.
    split; [exact Ho|]. exists x, y. cbn [show labelled] in Hx, Hy |- *. rewrite Hx, Hy. rewrite Ekf in Hd, He. auto.
  - apply bind_inv in H as (a & d1 & H1 & H). apply bind_inv in H as (b & d2 & H2 & H). injection H as <- <-.
    destruct (Hrec v j q Kv Hj Hq _ _ _ _ (upon_level _ _ _ _ Ho) H1) as (-> & x & Hx & Hd). rewrite (upon_view _ _ _ _ Ho) in Hd. apply upon_next in Ho.
    destruct (Hrec k i r Kk Hi Hr _ _ _ _ (upon_level _ _ _ _ Ho) H2) as (-> & y & Hy & He). rewrite (upon_view _ _ _ _ Ho) in He. apply upon_next in Ho.
    split; [exact Ho|]. exists y, x. cbn [show labelled] in Hx, Hy |- *. rewrite Hx, Hy. rewrite Ekf in Hd, He. auto.
Qed.
Lemma entries_sound k v i j r q body u : known k -> known v -> byType f k = Some i -> lock f i = Some r -> byType f v = Some j -> lock f j = Some q ->
  forall m n, n = Nat.div2 (S m) -> forall b d es d', upon body (2 * b) u d ->
  dump_entries kf rec m (Some r) (Some q) d = Ok es d' ->
  (exists k', upon body k' u d') /\ exists xys, map show es = map (fun xy => fst xy ++ " : " ++ snd xy) xys /\
    Forall2 (fun i xy => shown false k (part (if kf then 2 * i else 2 * i + 1) body) (fst xy) /\
                         shown false v (part (if kf then 2 * i + 1 else 2 * i) body) (snd xy)) (seq b n) xys.
Proof.
  intros Kk Kv Hi Hr Hj Hq m n Hn. revert m Hn. induction n as [|n IH]; intros m Hn b d es d' Ho H.
  - destruct m as [|[|m]]; [|discriminate|discriminate]. injection H as <- <-. split; [eauto|]. exists []. split; [reflexivity|constructor].
  - destruct m as [|m]; [discriminate|]. cbn [dump_entries] in H. apply bind_inv in H as (e & d1 & H1 & H). apply bind_inv in H as (es' & d2 & H2 & H). injection H as <- <-.
    destruct (entry_sound k v i j r q body u _ _ _ _ Kk Kv Hi Hr Hj Hq Ho H1) as (O1 & x & y & Hx & D1 & D2).
    replace (S (S (2 * b))) with (2 * S b) in O1 by lia.
    assert (Hn' : n = Nat.div2 (S (pred m))) by (destruct m as [|m]; cbn in Hn |- *; congruence).
    destruct (IH (pred m) Hn' (S b) _ _ _ O1 H2) as (Hd2 & xys & Hxys & Hf). split; [exact Hd2|]. exists ((x, y) :: xys). split; [cbn; now rewrite Hx, Hxys|].
    cbn [seq]. constructor; [|exact Hf]. cbn [fst snd]. rewrite Nat.add_1_r. auto.
Qed.
Lemma map_sound q k w i j name d v d' : In (TRestricted q) ts -> r_kind q = map_t -> r_of q = [k; w] -> byType f k = Some i -> byType f w = Some j ->
  dump_map kf f s rec i j name d = Ok v d' ->
  d' = pn_next d /\ exists x, show v = labelled name x /\ shown (is_named name) (r_name q) (view d) x.
Proof.
  intros Hin Hk Hof Hi Hj H. unfold dump_map, auto_next in H. apply finally_inv in H as (d1 & H & ->).
  apply bind_inv in H as (vs & d2 & H & E). injection E as <- <-. unfold map_dump_ in H.
  apply bind_inv in H as (x0 & d3 & H0 & H). apply described_inv in H0 as (-> & l & t & r & u & -> & Ht).
  apply enter_any_inv in H as (d0 & d1 & O0 & H & ->). apply bind_inv in H as (fp & d4 & H0 & H).
  apply string_read_inv in H0 as (-> & p0 & V0 & Hfp). rewrite (upon_view _ _ _ _ O0) in V0.
  assert (O1 : on t 1 (Frame l (tree_atom t) r :: u) (pn_next d0)).
  { destruct O0 as [O0|[O0 _]]; [now apply on_next|]. unfold part in V0. rewrite O0 in V0. discriminate. }
  apply bind_inv in H as (nt & d5 & H1 & H). apply lift_inv in H1 as [H1 ->]. apply fromDescriptor_inv in H1 as [Hc' E'].
  destruct (on_part _ _ _ _ O1) as (l1 & body & r1 & E1 & P1). rewrite E1 in *.
  apply map_enter_inv in H as (d8 & d9 & O8 & H & ->).
  assert (X : pn_exit (Data (At l1 body r1) (Frame l (tree_atom t) r :: u)) = Data (At l t r) u).
  { rewrite <- E1. apply (upon_exit l t r u 1). rewrite E1. now left. }
  assert (En : entries body = Nat.div2 (S (pieces body))) by (destruct body as [[] ?]; reflexivity).
  assert (K : (exists k', upon body k' (Frame l1 (tree_atom body) r1 :: Frame l (tree_atom t) r :: u) d9) /\
    exists xys, map show vs = map (fun xy => fst xy ++ " : " ++ snd xy) xys /\
    Forall2 (fun i xy => shown false k (part (if kf then 2 * i else 2 * i + 1) body) (fst xy) /\
                         shown false w (part (if kf then 2 * i + 1 else 2 * i) body) (snd xy)) (seq 0 (entries body)) xys).
  { destruct (pieces body) as [|n] eqn:Ep.
    - injection H as <- <-. split; [eauto|]. exists []. rewrite En. split; [reflexivity|constructor].
    - destruct (entries_readers _ _ _ _ _ _ H) as (rr & rq & Hr & Hq). rewrite Hr, Hq in H. rewrite <- Ep in *.
      eapply entries_sound with (k := k) (v := w) (b := 0) in H; eauto; apply (Hcov (TRestricted q)); auto; cbn; rewrite Hk, Hof; [now left|right; now left]. }
  destruct K as ((k' & O9) & xys & Hxys & Hf).
  rewrite (upon_exit _ _ _ _ _ _ O9), X. split; [reflexivity|]. eexists. split; [cbn [show]; rewrite commas_concat, Hxys; reflexivity|].
  apply (shows_map fmt dec kf ts (installed_by tells h) _ q k w t body xys); auto.
  exists p0. split; [exact V0|]. exists nt. now rewrite E'.
Qed.
End Rec.
Lemma enum_sound q name d v d' : In (TRestricted q) ts -> r_kind q = enum_t -> dump_enum name d = Ok v d' ->
  d' = pn_next d /\ exists x, show v = labelled name x /\ shown (is_named name) (r_name q) (view d) x.
Proof.
  intros Hin Hk H. unfold dump_enum, auto_next in H. apply finally_inv in H as (d1 & H & ->).
  apply bind_inv in H as (x0 & d3 & H0 & H). apply described_inv in H0 as (-> & l & t & r & u & -> & Ht).
  apply bind_inv in H as (c & d2 & H & E). injection E as <- <-. unfold enum_value in H.
  apply bind_inv in H as (x1 & d3 & H0 & H). apply require_inv in H0 as [-> _].
  apply enter_any_inv in H as (d0 & d1 & O0 & H & ->). apply bind_inv in H as (x2 & d4 & H0 & H).
  destruct (_ && _)%bool in H0; [discriminate|]. injection H0 as _ <-.
  apply bind_inv in H as (fp & d4 & H0 & H). apply string_read_inv in H0 as (-> & p0 & V0 & Hfp). rewrite (upon_view _ _ _ _ O0) in V0.
  assert (O1 : on t 1 (Frame l (tree_atom t) r :: u) (pn_next d0)).
  { destruct O0 as [O0|[O0 _]]; [now apply on_next|]. unfold part in V0. rewrite O0 in V0. discriminate. }
  destruct (on_part _ _ _ _ O1) as (l1 & body & r1 & E1 & P1). rewrite E1 in *.
  apply list_enter_inv in H as (d8 & d9 & O8 & H & ->).
  assert (X : pn_exit (Data (At l1 body r1) (Frame l (tree_atom t) r :: u)) = Data (At l t r) u).
  { rewrite <- E1. apply (upon_exit l t r u 1). rewrite E1. now left. }
  apply string_read_inv in H as (-> & p1 & V1 & Hc). rewrite (upon_view _ _ _ _ O8) in V1.
  rewrite (upon_exit _ _ _ _ _ _ (upon_next _ _ _ _ O8)), X. split; [reflexivity|]. exists c. split; [reflexivity|].
  apply shows_constant; auto; [exists p0; eauto|]. exists body. split; [exact P1|]. exists p1. auto.
Qed.
Lemma key_sound name d v d' : dump_public_key name d = Ok v d' -> d' = pn_next d /\ exists n, name = Some n /\ show v = labelled name "<<<Public Key>>>" /\ public_key (view d).
Proof.
  destruct name as [n|]; [|discriminate]. cbn [dump_public_key]. intros H. unfold auto_next in H. apply finally_inv in H as (d1 & H & ->).
  apply bind_inv in H as (x0 & d3 & H0 & H). apply described_inv in H0 as (-> & l & t & r & u & -> & Ht).
  apply enter_any_inv in H as (d0 & d9 & O0 & H & ->). apply bind_inv in H as (x1 & d4 & H0 & H). apply next_inv in H0 as ->.
  apply bind_inv in H as (x2 & d5 & H0 & H). apply require_inv in H0 as [-> H0]. apply bind_inv in H as (bs & d6 & H1 & H). injection H1 as _ <-. injection H as <- <-.
  apply upon_next in O0. pose proof (upon_view _ _ _ _ O0) as V. rewrite (upon_exit _ _ _ _ _ _ (upon_next _ _ _ _ O0)). split; [reflexivity|]. exists n.
  split; [reflexivity|]. split; [reflexivity|]. exists t. split; [reflexivity|]. split; [exact Ht|].
  destruct (pn_next d0) as [[cs|l1 p r1] u1]; [discriminate|]. exists p. split; [symmetry; exact V|]. destruct p as [a cs]. cbn in H0. destruct a; try discriminate. cbn. eauto.
Qed.

Lemma dump_sound fuel : sound_at (dump fmt custom kf f s fuel).
Proof.
  induction fuel as [|fuel IH]; intros ty i r Hk Hi Hr name d v d' Hd H; [discriminate|]. cbn [dump] in H.
  destruct (reader_for ty i r Hk Hi Hr) as [(p & -> & ->)|[(t & Ht & <- & R)|[Hin <-]]].
  - now apply property_sound.
  - destruct t as [c|q]; cbn [reads n_name] in *.
    + destruct R as (ks & -> & Hks). eapply composite_sound; eauto.
    + destruct (r_kind q) eqn:Ek.
      * destruct R as (e & i' & -> & Hof & Hi'). eapply list_sound; eauto.
      * destruct R as (k & w & i1 & i2 & -> & Hof & H1 & H2). eapply map_sound; eauto.
      * subst r. eapply enum_sound; eauto.
      * destruct R as (e & i' & -> & Hof & Hi'). eapply list_sound; eauto.
  - pose proof (Hcust r Hin) as C. destruct r; try destruct C.
    + apply key_sound in H as (-> & n & -> & H & K). split; [reflexivity|]. eexists. split; [exact H|]. apply shows_installed.
      exists RPublicKey. auto.
    + destruct (Hcustom which name d Hd) as [C _]. destruct (C _ _ H) as (-> & x & Hx & T). split; [reflexivity|]. exists x. split; [exact Hx|].
      apply shows_installed. exists (RCustom type which). auto.
Qed.

(** ** Values as specified are accepted *)
Hypothesis Hdistinct : distinct_fingerprints ts.
Definition depth (o : option tree) : nat := match o with Some t => height t | None => 0 end.
Lemma part_depth k t : depth (part k t) < height t.
Proof.
  destruct (part k t) as [p|] eqn:E.
  - destruct t as [a cs]. rewrite height_node. unfold part in E. cbn [tree_children] in E. apply nth_error_In in E. apply heights_in in E. cbn. lia.
  - destruct t as [a cs]. rewrite height_node. cbn. lia.
Qed.
Definition complete_at (n : nat) (rec : reader -> option string -> PM ivalue) : Prop := forall ty i r, byType f ty = Some i -> lock f i = Some r ->
  forall name d x, on_level d -> shown (is_named name) ty (view d) x -> depth (view d) < n ->
  exists v, rec r name d = Ok v (pn_next d) /\ show v = labelled name x.
Lemma shown_locked named ty o x i : shown named ty o x -> byType f ty = Some i -> exists r, lock f i = Some r.
Proof.
  intros H Hi.
  assert (P : forall p, ty = prim_name p -> exists r, lock f i = Some r) by (intros p ->; exists (RProperty p); now apply Hready).
  assert (E : forall t, In t ts -> ty = n_name t -> exists r, lock f i = Some r).
  { intros t Ht ->. destruct (proj2 Hready t Ht) as (j & r & Hj & Hr & _). exists r. congruence. }
  inversion H; subst.
  - now apply (P PInt).
  - now apply (P PLong).
  - now apply (P PDouble).
  - now apply (P PBoolean).
  - now apply (P PString).
  - now apply (P PBinary).
  - now apply (E (TComposite c)).
  - now apply (E (TComposite c)).
  - now apply (E (TRestricted r)).
  - now apply (E (TRestricted r)).
  - now apply (E (TRestricted r)).
  - match goal with X : installed_by _ _ _ _ _ _ |- _ => destruct X as (r & Hr & <- & _) end. destruct (Hinst r Hr) as (j & Hj & Hl). exists r. congruence.
Qed.
Lemma Forall2_map_left {A B C} (g : A -> B) (R : B -> C -> Prop) l l' : Forall2 R (map g l) l' -> Forall2 (fun a => R (g a)) l l'.
Proof. revert l'. induction l as [|a l IH]; intros l' H; inversion H; subst; constructor; auto. Qed.
Lemma Forall2_weaken {A B} (R R' : A -> B -> Prop) l l' : (forall a b, R a b -> R' a b) -> Forall2 R l l' -> Forall2 R' l l'.
Proof. intros H. induction 1; constructor; auto. Qed.

Section Rec2.
Context (n : nat) (rec : reader -> option string -> PM ivalue).
Hypothesis Hrec : complete_at n rec.
Lemma fields_complete body u fs' : forall fs ks k d xs, upon body k u d -> height body <= n ->
  Forall2 (fun fd i => exists ty, property_type fd = Some ty /\ byType f ty = Some i) fs ks -> length fs' = length fs ->
  Forall2 (fun p x => exists ty, property_type (snd p) = Some ty /\ shown true ty (part (k + fst p) body) x) (numbered fs) xs ->
  exists vs k' d', dump_fields f rec fs' ks d = Ok vs d' /\ upon body k' u d' /\
    map show vs = map (fun p => f_name (fst p) ++ " : " ++ snd p) (combine fs' xs).
Proof.
  induction fs' as [|fd' fs' IH]; intros fs ks k d xs Ho Hh Hks Hl H.
  - destruct fs; [|discriminate]. inversion Hks; subst. exists [], k, d. cbn. auto.
  - destruct fs as [|fd fs]; [discriminate|]. inversion Hks as [|? i ? ks' (ty & Hty & Hi) Hks']; subst. rewrite numbered_cons in H.
    inversion H as [|? x ? xs' (ty' & Hty' & Hx) Hxs]; subst. cbn [fst snd] in *. assert (ty' = ty) by congruence. subst ty'. rewrite Nat.add_0_r in Hx.
    destruct (shown_locked _ _ _ _ _ Hx Hi) as (r & Hr).
    rewrite <- (upon_view _ _ _ _ Ho) in Hx.
    destruct (Hrec ty i r Hi Hr (Some (f_name fd')) d x (upon_level _ _ _ _ Ho) Hx) as (v & E & Ev).
    { rewrite (upon_view _ _ _ _ Ho). pose proof (part_depth k body). lia. }
    apply upon_next in Ho. apply Forall2_map_left in Hxs.
    destruct (IH fs ks' (S k) _ xs' Ho Hh Hks' ltac:(cbn in Hl; congruence)) as (vs & k' & d' & E' & O' & Es).
    { eapply Forall2_weaken; [|exact Hxs]. intros [j q] y (ty' & A & B). exists ty'. split; [exact A|]. cbn [fst snd] in *. now replace (S k + j) with (k + S j) by lia. }
    exists (v :: vs), k', d'. split; [|split; [exact O'|]].
    + cbn [dump_fields]. rewrite Hr. eapply bind_ok; [exact E|]. eapply bind_ok; [exact E'|reflexivity].
    + cbn. now rewrite Ev, Es.
Qed.

Lemma elements_complete e i r body u : byType f e = Some i -> lock f i = Some r -> height body <= n -> forall m k d xs, upon body k u d ->
  Forall2 (fun j x => shown false e (part j body) x) (seq k m) xs ->
  exists vs k' d', dump_elements rec m (Some r) d = Ok vs d' /\ upon body k' u d' /\ map show vs = xs.
Proof.
  intros Hi Hr Hh. induction m as [|m IH]; intros k d xs Ho H; inversion H as [|? x ? xs' Hx Hxs]; subst.
  - exists [], k, d. cbn. auto.
  - rewrite <- (upon_view _ _ _ _ Ho) in Hx. destruct (Hrec e i r Hi Hr None d x (upon_level _ _ _ _ Ho) Hx) as (v & E & Ev).
    { rewrite (upon_view _ _ _ _ Ho). pose proof (part_depth k body). lia. }
    destruct (IH (S k) _ xs' (upon_next _ _ _ _ Ho) Hxs) as (vs & k' & d' & E' & O' & <-).
    exists (v :: vs), k', d'. split; [|split; [exact O'|cbn; now rewrite Ev]].
    cbn [dump_elements]. eapply bind_ok; [exact E|]. eapply bind_ok; [exact E'|reflexivity].
Qed.
Lemma entry_complete k v i j r q body u m d x y : byType f k = Some i -> lock f i = Some r -> byType f v = Some j -> lock f j = Some q ->
  upon body m u d -> height body <= n ->
  shown false k (part (if kf then m else S m) body) x -> shown false v (part (if kf then S m else m) body) y ->
  exists e d', dump_entry kf rec (Some r) (Some q) d = Ok e d' /\ upon body (S (S m)) u d' /\ show e = x ++ " : " ++ y.
Proof.
  intros Hi Hr Hj Hq Ho Hh Hx Hy. pose proof (upon_next _ _ _ _ Ho) as O1. pose proof (upon_next _ _ _ _ O1) as O2.
  pose proof (part_depth m body) as D1. pose proof (part_depth (S m) body) as D2.
  rewrite <- (upon_view _ _ _ _ Ho) in D1. rewrite <- (upon_view _ _ _ _ O1) in D2.
  assert (kf = true \/ kf = false) as [Ekf|Ekf] by (destruct kf; auto); unfold dump_entry, dump_through.
  - replace (if kf then m else S m) with m in Hx by now rewrite Ekf. replace (if kf then S m else m) with (S m) in Hy by now rewrite Ekf.
    rewrite <- (upon_view _ _ _ _ Ho) in Hx. rewrite <- (upon_view _ _ _ _ O1) in Hy. rewrite Ekf.
    destruct (Hrec k i r Hi Hr None d x (upon_level _ _ _ _ Ho) Hx ltac:(lia)) as (a & E1 & Ea).
    destruct (Hrec v j q Hj Hq None _ y (upon_level _ _ _ _ O1) Hy ltac:(lia)) as (b & E2 & Eb).
    eexists _, _. split; [eapply bind_ok; [exact E1|]; eapply bind_ok; [exact E2|reflexivity]|]. split; [exact O2|]. cbn [show]. now rewrite Ea, Eb.
  - replace (if kf then m else S m) with (S m) in Hx by now rewrite Ekf. replace (if kf then S m else m) with m in Hy by now rewrite Ekf.
    rewrite <- (upon_view _ _ _ _ Ho) in Hy. rewrite <- (upon_view _ _ _ _ O1) in Hx. rewrite Ekf.
    destruct (Hrec v j q Hj Hq None d y (upon_level _ _ _ _ Ho) Hy ltac:(lia)) as (a & E1 & Ea).
    destruct (Hrec k i r Hi Hr None _ x (upon_level _ _ _ _ O1) Hx ltac:(lia)) as (b & E2 & Eb).
    eexists _, _. split; [eapply bind_ok; [exact E1|]; eapply bind_ok; [exact E2|reflexivity]|]. split; [exact O2|]. cbn [show]. now rewrite Ea, Eb.
Qed.
Lemma entries_complete k v i j r q body u : byType f k = Some i -> lock f i = Some r -> byType f v = Some j -> lock f j = Some q -> height body <= n ->
  forall c m, c = Nat.div2 (S m) -> forall b d xys, upon body (2 * b) u d ->
  Forall2 (fun i xy => shown false k (part (if kf then 2 * i else 2 * i + 1) body) (fst xy) /\
                       shown false v (part (if kf then 2 * i + 1 else 2 * i) body) (snd xy)) (seq b c) xys ->
  exists es k' d', dump_entries kf rec m (Some r) (Some q) d = Ok es d' /\ upon body k' u d' /\ map show es = map (fun xy => fst xy ++ " : " ++ snd xy) xys.
Proof.
  intros Hi Hr Hj Hq Hh. induction c as [|c IH]; intros m Hn b d xys Ho H; inversion H as [|? [x y] ? xys' [Hx Hy] Hxs]; subst.
  - destruct m as [|[|m]]; [|discriminate|discriminate]. exists [], (2 * b), d. cbn [map]. auto.
  - destruct m as [|m]; [discriminate|]. rewrite !Nat.add_1_r in *. cbn [fst snd] in Hx, Hy.
    destruct (entry_complete k v i j r q body u _ _ x y Hi Hr Hj Hq Ho Hh Hx Hy) as (e & d1 & E1 & O1 & Ee).
    replace (S (S (2 * b))) with (2 * S b) in O1 by lia.
    assert (Hn' : c = Nat.div2 (S (pred m))) by (destruct m as [|m]; cbn in Hn |- *; congruence).
    destruct (IH (pred m) Hn' (S b) _ xys' O1 Hxs) as (es & k' & d' & E' & O' & Es).
    exists (e :: es), k', d'. split; [|split; [exact O'|cbn [map]; now rewrite Ee, Es]].
    cbn [dump_entries]. eapply bind_ok; [exact E1|]. eapply bind_ok; [exact E'|reflexivity].
Qed.
Lemma entered {A} (Q : A -> Prop) (m : PM A) l t r u :
  (forall d0, upon t 0 (Frame l (tree_atom t) r :: u) d0 -> exists x k d1, m d0 = Ok x d1 /\ upon t k (Frame l (tree_atom t) r :: u) d1 /\ Q x) ->
  exists x, auto_enter false m (Data (At l t r) u) = Ok x (Data (At l t r) u) /\ Q x.
Proof.
  intros H. destruct t as [a cs]. destruct (H _ (upon_enter l a cs r u)) as (x & k & d1 & E & O & HQ). exists x. split; [|exact HQ].
  rewrite (auto_enter_ok _ _ _ _ E). f_equal. now apply (upon_exit l (Node a cs) r u k).
Qed.
Lemma entered_list {A} (Q : A -> Prop) (m : nat -> PM A) l t r u :
  (forall d0, upon t 0 (Frame l (tree_atom t) r :: u) d0 -> exists x k d1, m (length (elements t)) d0 = Ok x d1 /\ upon t k (Frame l (tree_atom t) r :: u) d1 /\ Q x) ->
  exists x, auto_list_enter true m (Data (At l t r) u) = Ok x (Data (At l t r) u) /\ Q x.
Proof.
  intros H. destruct t as [a cs]. destruct (H _ (upon_enter l a cs r u)) as (x & k & d1 & E & O & HQ). exists x. split; [|exact HQ].
  replace (length (elements (Node a cs))) with (pn_get_list (Data (At l (Node a cs) r) u)) in E by (destruct a; reflexivity).
  rewrite (auto_list_enter_ok _ _ _ _ E). f_equal. now apply (upon_exit l (Node a cs) r u k).
Qed.
Lemma entered_map {A} (Q : A -> Prop) (m : nat -> PM A) l t r u :
  (forall d0, upon t 0 (Frame l (tree_atom t) r :: u) d0 -> exists x k d1, m (pieces t) d0 = Ok x d1 /\ upon t k (Frame l (tree_atom t) r :: u) d1 /\ Q x) ->
  exists x, auto_map_enter true m (Data (At l t r) u) = Ok x (Data (At l t r) u) /\ Q x.
Proof.
  intros H. destruct t as [a cs]. destruct (H _ (upon_enter l a cs r u)) as (x & k & d1 & E & O & HQ). exists x. split; [|exact HQ].
  replace (pieces (Node a cs)) with (pn_get_map (Data (At l (Node a cs) r) u)) in E by (destruct a; reflexivity).
  rewrite (auto_map_enter_ok _ _ _ _ E). f_equal. now apply (upon_exit l (Node a cs) r u k).
Qed.
Lemma described_ok l t r u : tree_atom t = ADescribed -> attest_is_described (Data (At l t r) u) = Ok tt (Data (At l t r) u).
Proof. destruct t as [a cs]. cbn. now intros ->. Qed.
Lemma found t : In t ts -> fromDescriptor s (n_descriptor t) = Ret t.
Proof. intros H. now apply fromDescriptor_found. Qed.

Lemma composite_complete c c' ks name l t r u body xs : height t <= S n ->
  Forall2 (fun fd i => exists ty, property_type fd = Some ty /\ byType f ty = Some i) (c_fields c) ks ->
  In (TComposite c') ts -> length (c_fields c') = length (c_fields c) ->
  tree_atom t = ADescribed -> part_is 0 t (fun p => tree_atom p = ASymbol (c_descriptor c')) ->
  part 1 t = Some body -> tree_atom body = AList ->
  Forall2 (fun p x => exists ty, property_type (snd p) = Some ty /\ shown true ty (part (fst p) body) x) (numbered (c_fields c)) xs ->
  exists v, dump_composite f s rec ks name (Data (At l t r) u) = Ok v (pn_next (Data (At l t r) u)) /\
    show v = labelled name (braces (map (fun p => f_name (fst p) ++ " : " ++ snd p) (combine (c_fields c') xs))).
Proof.
  intros Hh Hks Hc' Hl Ht (p0 & P0 & H0) P1 Hb Hxs.
  assert (Hbody : height body <= n) by (pose proof (part_depth 1 t) as X; rewrite P1 in X; cbn in X; lia).
  destruct (entered (fun vs => map show vs = map (fun p => f_name (fst p) ++ " : " ++ snd p) (combine (c_fields c') xs))
    (let! sym := get_symbol in
    let! t := lift (fromDescriptor s sym) in
    match t with
    | TRestricted _ => throw BadCast
    | TComposite c =>
        if Nat.eqb (List.length (c_fields c)) (List.length ks) then
          next_ ;;
          attest_is_list ;;
          auto_enter false (dump_fields f rec (c_fields c) ks)
        else abort
    end) l t r u) as (vs & E & Es).
  { intros d0 O0. destruct (upon_at _ _ _ _ _ O0 P0) as (l0 & r0 & ->). pose proof (upon_next _ _ _ _ O0) as O1.
    destruct (upon_at _ _ _ _ _ O1 P1) as (l1 & r1 & E1).
    destruct (entered (fun vs => map show vs = map (fun p => f_name (fst p) ++ " : " ++ snd p) (combine (c_fields c') xs))
      (dump_fields f rec (c_fields c') ks) l1 body r1 (Frame l (tree_atom t) r :: u)) as (vs & E & Es).
    { intros d2 O2. destruct (fields_complete body _ (c_fields c') (c_fields c) ks 0 d2 xs O2 Hbody Hks Hl Hxs) as (vs & k' & d' & A & B & C). eauto 6. }
    exists vs, 1, (Data (At l1 body r1) (Frame l (tree_atom t) r :: u)). rewrite E1 in O1. split; [|auto].
    eapply bind_ok. { destruct p0 as [a0 cs0]. cbn in H0. subst a0. reflexivity. }
    eapply bind_ok. { unfold lift. change (c_descriptor c') with (n_descriptor (TComposite c')). rewrite (found _ Hc'). reflexivity. }
    cbn beta iota. rewrite Hl, (Forall2_len _ _ _ Hks), Nat.eqb_refl. eapply bind_ok; [unfold next_; rewrite E1; reflexivity|].
    eapply bind_ok; [|exact E]. destruct body as [ab cb]. cbn in Hb. subst ab. reflexivity. }
  exists (IBraces name vs). split; [|cbn [show]; rewrite commas_concat, Es; reflexivity].
  unfold dump_composite. eapply auto_next_ok. cbn beta. unfold is_null, is_type. replace (pn_type_eqb (pn_dtype (Data (At l t r) u)) TNull) with false.
  2:{ destruct t as [a cs]. cbn in Ht. subst a. reflexivity. }
  eapply bind_ok; [|reflexivity]. unfold composite_dump_. eapply bind_ok; [now apply described_ok|exact E].
Qed.
Lemma upon_second t u d0 : upon t 0 u d0 -> forall p0 body, part 0 t = Some p0 -> part 1 t = Some body ->
  view d0 = Some p0 /\ exists l1 r1, pn_next d0 = Data (At l1 body r1) u /\ upon t 1 u (Data (At l1 body r1) u).
Proof.
  intros O0 p0 body P0 P1. split; [now rewrite (upon_view _ _ _ _ O0)|]. pose proof (upon_next _ _ _ _ O0) as O1.
  destruct (upon_at _ _ _ _ _ O1 P1) as (l1 & r1 & E1). exists l1, r1. rewrite E1 in O1. auto.
Qed.
Lemma list_complete e i name l t r u body xs : height t <= S n -> byType f e = Some i ->
  tree_atom t = ADescribed -> part_is 0 t (fun p => exists w, In w ts /\ calls (n_descriptor w) p) -> part 1 t = Some body ->
  Forall2 (fun p x => shown false e (Some p) x) (elements body) xs ->
  exists v, dump_list f s rec i name (Data (At l t r) u) = Ok v (pn_next (Data (At l t r) u)) /\ show v = labelled name (brackets xs).
Proof.
  intros Hh Hi Ht (p0 & P0 & w & Hw & H0) P1 Hxs.
  assert (Hbody : height body <= n) by (pose proof (part_depth 1 t) as X; rewrite P1 in X; cbn in X; lia).
  destruct (entered (fun vs => map show vs = xs)
    (let! fp := readAndNext_string false in
    let! _ := lift (fromDescriptor s fp) in
    auto_list_enter true (fun n => dump_elements rec n (lock f i))) l t r u) as (vs & E & Es).
  { intros d0 O0. destruct (upon_second _ _ _ O0 _ _ P0 P1) as (V0 & l1 & r1 & E1 & O1).
    destruct (entered_list (fun vs => map show vs = xs) (fun n => dump_elements rec n (lock f i)) l1 body r1 (Frame l (tree_atom t) r :: u)) as (vs & E & Es).
    { intros d2 O2. destruct (elements body) as [|b0 bs] eqn:Eb.
      - inversion Hxs; subst. exists [], 0, d2. cbn. auto.
      - assert (Hr : exists rr, lock f i = Some rr) by (inversion Hxs; subst; eapply shown_locked; eauto). destruct Hr as (rr & Hr). rewrite Hr.
        destruct (elements_complete e i rr body _ Hi Hr Hbody (length (b0 :: bs)) 0 d2 xs O2) as (vs & k' & d' & A & B & C); [|eauto 6].
        rewrite <- Eb in Hxs |- *. now apply parts_seq. }
    exists vs, 1, (Data (At l1 body r1) (Frame l (tree_atom t) r :: u)). split; [|auto].
    eapply bind_ok; [eapply string_read; eauto|]. eapply bind_ok; [unfold lift; rewrite (found _ Hw); reflexivity|]. rewrite E1. exact E. }
  exists (IBrackets name vs). split; [|cbn [show]; rewrite commas_concat, Es; reflexivity].
  unfold dump_list. eapply auto_next_ok. eapply bind_ok; [|reflexivity]. unfold list_dump_. eapply bind_ok; [now apply described_ok|exact E].
Qed.
Lemma map_complete k w0 i j name l t r u body xys : height t <= S n -> byType f k = Some i -> byType f w0 = Some j ->
  tree_atom t = ADescribed -> part_is 0 t (fun p => exists w, In w ts /\ calls (n_descriptor w) p) -> part 1 t = Some body ->
  Forall2 (fun i xy => shown false k (part (if kf then 2 * i else 2 * i + 1) body) (fst xy) /\
                       shown false w0 (part (if kf then 2 * i + 1 else 2 * i) body) (snd xy)) (seq 0 (entries body)) xys ->
  exists v, dump_map kf f s rec i j name (Data (At l t r) u) = Ok v (pn_next (Data (At l t r) u)) /\
    show v = labelled name (braces (map (fun xy => fst xy ++ " : " ++ snd xy) xys)).
Proof.
  intros Hh Hi Hj Ht (p0 & P0 & w & Hw & H0) P1 Hxs.
  assert (Hbody : height body <= n) by (pose proof (part_depth 1 t) as X; rewrite P1 in X; cbn in X; lia).
  assert (En : entries body = Nat.div2 (S (pieces body))) by (destruct body as [[] ?]; reflexivity).
  destruct (entered (fun vs => map show vs = map (fun xy => fst xy ++ " : " ++ snd xy) xys)
    (let! fp := readAndNext_string false in
    let! _ := lift (fromDescriptor s fp) in
    auto_map_enter true (fun n => dump_entries kf rec n (lock f i) (lock f j))) l t r u) as (vs & E & Es).
  { intros d0 O0. destruct (upon_second _ _ _ O0 _ _ P0 P1) as (V0 & l1 & r1 & E1 & O1).
    destruct (entered_map (fun vs => map show vs = map (fun xy => fst xy ++ " : " ++ snd xy) xys) (fun n => dump_entries kf rec n (lock f i) (lock f j)) l1 body r1 (Frame l (tree_atom t) r :: u)) as (vs & E & Es).
    { intros d2 O2. destruct (pieces body) as [|m] eqn:Ep.
      - rewrite En in Hxs. inversion Hxs; subst. exists [], 0, d2. cbn. auto.
      - assert (Hr : (exists rr, lock f i = Some rr) /\ exists rq, lock f j = Some rq).
        { rewrite En in Hxs. replace (Nat.div2 (S (S m))) with (S (Nat.div2 m)) in Hxs by reflexivity. cbn [seq] in Hxs. inversion Hxs as [|? ? ? ? [X Y] _]; subst. split; [exact (shown_locked _ _ _ _ _ X Hi)|exact (shown_locked _ _ _ _ _ Y Hj)]. }
        destruct Hr as [(rr & Hr) (rq & Hq)]. rewrite Hr, Hq. rewrite <- Ep in *.
        destruct (entries_complete k w0 i j rr rq body _ Hi Hr Hj Hq Hbody (entries body) (pieces body) En 0 d2 xys O2 Hxs) as (vs & k' & d' & A & B & C). eauto 6. }
    exists vs, 1, (Data (At l1 body r1) (Frame l (tree_atom t) r :: u)). split; [|auto].
    eapply bind_ok; [eapply string_read; eauto|]. eapply bind_ok; [unfold lift; rewrite (found _ Hw); reflexivity|]. rewrite E1. exact E. }
  exists (IBraces name vs). split; [|cbn [show]; rewrite commas_concat, Es; reflexivity].
  unfold dump_map. eapply auto_next_ok. eapply bind_ok; [|reflexivity]. unfold map_dump_. eapply bind_ok; [now apply described_ok|exact E].
Qed.
End Rec2.
Lemma enum_complete name l t r u x : tree_atom t = ADescribed ->
  part_is 0 t (fun p => exists fp, calls fp p) -> part_is 1 t (fun body => part_is 0 body (calls x)) ->
  exists v, dump_enum name (Data (At l t r) u) = Ok v (pn_next (Data (At l t r) u)) /\ show v = labelled name x.
Proof.
  intros Ht (p0 & P0 & fp & H0) (body & P1 & p1 & Q0 & H1).
  destruct (entered (fun c => c = x)
    ((fun d => if is_type TULong d && N.eqb (stripCorda (pn_get_ulong d)) REFERENCED_OBJECT
              then Throw RuntimeError d else Ok tt d) ;;
    let! _ := readAndNext_string false in
    auto_list_enter true (fun _ => readAndNext_string false)) l t r u) as (c & E & ->).
  { intros d0 O0. destruct (upon_second _ _ _ O0 _ _ P0 P1) as (V0 & l1 & r1 & E1 & O1).
    destruct (entered_list (fun c => c = x) (fun _ => readAndNext_string false) l1 body r1 (Frame l (tree_atom t) r :: u)) as (c & E & ->).
    { intros d2 O2. exists x, 1, (pn_next d2). split; [|split; [now apply upon_next|reflexivity]]. eapply string_read; eauto. now rewrite (upon_view _ _ _ _ O2). }
    exists x, 1, (Data (At l1 body r1) (Frame l (tree_atom t) r :: u)). split; [|auto].
    eapply bind_ok. { replace (is_type TULong d0) with false; [reflexivity|]. apply view_some in V0 as (l2 & r2 & u2 & ->). destruct p0 as [a cs]. destruct H0 as [H0|H0]; unfold says in H0; cbn in H0; subst a; reflexivity. }
    eapply bind_ok; [eapply string_read; eauto|]. rewrite E1. exact E. }
  exists (IText name x). split; [|reflexivity]. unfold dump_enum. eapply auto_next_ok. eapply bind_ok; [now apply described_ok|].
  eapply bind_ok; [|reflexivity]. unfold enum_value. eapply bind_ok; [now apply described_ok|exact E].
Qed.
Lemma key_complete n d : public_key (view d) ->
  exists v, dump_public_key (Some n) d = Ok v (pn_next d) /\ show v = labelled (Some n) "<<<Public Key>>>".
Proof.
  intros (t & V & Ht & p & P1 & bs & Hb). apply view_some in V as (l & r & u & ->).
  destruct (entered (fun v => show v = labelled (Some n) "<<<Public Key>>>")
    (next_ ;; attest_is_binary ;; let! _ := readAndNext_binary in ret (IText (Some n) "<<<Public Key>>>")) l t r u) as (v & E & Ev).
  { intros d0 O0. pose proof (upon_next _ _ _ _ O0) as O1. destruct (upon_at _ _ _ _ _ O1 P1) as (l1 & r1 & E1).
    eexists (IText (Some n) "<<<Public Key>>>"), 2, _. split; [|split; [apply upon_next; exact O1|reflexivity]].
    eapply bind_ok; [reflexivity|]. rewrite E1. destruct p as [a cs]. cbn in Hb. subst a. reflexivity. }
  exists v. split; [|exact Ev]. cbn [dump_public_key]. eapply auto_next_ok. eapply bind_ok; [now apply described_ok|exact E].
Qed.

Lemma dump_complete fuel : complete_at fuel (dump fmt custom kf f s fuel).
Proof.
  induction fuel as [|fuel IH]; intros ty i r Hi Hr name d x Hd Hx Hh; [lia|]. cbn [dump].
  assert (P : forall p, ty = prim_name p -> r = RProperty p).
  { intros p ->. rewrite (proj1 Hready p i Hi) in Hr. congruence. }
  assert (E : forall t, In t ts -> ty = n_name t -> reads f t r).
  { intros t Ht ->. destruct (proj2 Hready t Ht) as (j & r' & Hj & Hr' & R). assert (r' = r) by congruence. now subst. }
  inversion Hx; subst.
  - rewrite (P PInt eq_refl). eexists. split; [reflexivity|]. cbn [show]. destruct d as [[cs|l [[] cs] rr] u]; reflexivity.
  - rewrite (P PLong eq_refl). eexists. split; [reflexivity|]. cbn [show]. destruct d as [[cs|l [[] cs] rr] u]; reflexivity.
  - rewrite (P PDouble eq_refl). eexists. split; [reflexivity|]. cbn [show]. destruct d as [[cs|l [[] cs] rr] u]; reflexivity.
  - rewrite (P PBoolean eq_refl). eexists. split; [reflexivity|]. cbn [show]. destruct d as [[cs|l [[] cs] rr] u]; reflexivity.
  - rewrite (P PString eq_refl). eexists. split; [eapply bind_ok; [eapply string_read; eauto|reflexivity]|]. reflexivity.
  - rewrite (P PBinary eq_refl). eexists. split; [reflexivity|]. cbn [show]. destruct d as [[cs|l [[] cs] rr] u]; reflexivity.
  - match goal with X : Some _ = view d |- _ => symmetry in X; apply view_some in X as (l & rr & u & ->) end.
    destruct (E (TComposite c)) as (ks & -> & Hks); [assumption|reflexivity|]. match goal with X : tree_atom t = ANull |- _ => rename X into Hn end.
    exists (INull name). split; [|reflexivity]. unfold dump_composite. apply (auto_next_ok _ _ _ (Data (At l t rr) u)). destruct t as [a cs]. cbn in Hn. subst a. reflexivity.
  - match goal with X : Some _ = view d |- _ => symmetry in X; apply view_some in X as (l & rr & u & ->) end.
    destruct (E (TComposite c)) as (ks & -> & Hks); [assumption|reflexivity|]. eapply composite_complete; eauto. cbn in Hh. lia.
  - match goal with X : Some _ = view d |- _ => symmetry in X; apply view_some in X as (l & rr & u & ->) end.
    assert (height t <= S fuel) by (cbn in Hh; lia). match goal with X : In (TRestricted r0) ts |- _ => pose proof (E (TRestricted r0) X eq_refl) as R end. cbn [reads] in R.
    match goal with X : _ \/ _ |- _ => destruct X as [K|K] end; rewrite K in R; destruct R as (e' & i' & -> & Hof & Hi');
      assert (e' = e) by congruence; subst e'; eapply list_complete; eauto.
  - match goal with X : Some _ = view d |- _ => symmetry in X; apply view_some in X as (l & rr & u & ->) end.
    assert (height t <= S fuel) by (cbn in Hh; lia). match goal with X : In (TRestricted r0) ts |- _ => pose proof (E (TRestricted r0) X eq_refl) as R end. cbn [reads] in R.
    match goal with X : r_kind r0 = map_t |- _ => rewrite X in R end. destruct R as (k' & w & i1 & i2 & -> & Hof & Hi1 & Hi2).
    assert (k' = k /\ w = v) as [-> ->] by (split; congruence). eapply map_complete; eauto.
  - match goal with X : Some _ = view d |- _ => symmetry in X; apply view_some in X as (l & rr & u & ->) end.
    match goal with X : In (TRestricted r0) ts |- _ => pose proof (E (TRestricted r0) X eq_refl) as R end. cbn [reads] in R.
    match goal with X : r_kind r0 = enum_t |- _ => rewrite X in R end. subst r. eapply enum_complete; eauto.
  - match goal with X : installed_by _ _ _ _ _ _ |- _ => destruct X as (q & Hq & <- & T) end.
    destruct (Hinst q Hq) as (j & Hj & Hl). assert (q = r) by congruence. subst q. destruct r; try destruct T as [].
    + destruct name as [n|]; [|discriminate]. match goal with X : public_key _ /\ _ |- _ => destruct X as (K & ->) end. now apply key_complete.
    + destruct (Hcustom which name d Hd) as [_ C]. auto.
Qed.
End Exact.
