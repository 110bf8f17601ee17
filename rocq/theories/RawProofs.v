From Coq Require Import Lia.
From Verif Require Import Base Proton ProtonProofs TypeNames TypeNamesProofs Schema SpecSchema Descriptors SpecDescriptors
  Factory SpecFactory Readers SpecReaders Blob ReadersProofs.
Import List ListNotations.
Open Scope string_scope.

Section Raw.
Context (fd ff : N -> string).

(** ** The cursor comes back *)

Lemma primitive_restoring n : restoring n (dumpPrimitive fd ff).
Proof.
  intros d _ Ha. unfold dumpPrimitive. destruct d as [[cs|l [a cs] r] u]; [destruct Ha|]. destruct a; reflexivity.
Qed.

Section Level.
Context (k : nat) (rl rm : PM (list ivalue)) (rd : PM ivalue).
Hypothesis (Hl : restoring k rl) (Hm : restoring k rm) (Hd : restoring k rd).

Lemma by_type_restoring t : restoring k (dump_by_type fd ff rl rm rd t).
Proof.
  destruct t; try apply primitive_restoring; cbn [dump_by_type]; try assumption;
    (apply restoring_bind; [assumption|intros; apply ret_restoring]).
Qed.

Lemma list_loop_steady n : forall d, below k d -> isAt d -> remaining d < n ->
  match list_loop fd ff rl rm rd n d with
  | Ok _ d' => same_level d d' /\ isAt d'
  | Throw _ d' => same_level d d' /\ isAt d'
  | Fuel => False
  | _ => True
  end.
Proof.
  induction n as [|n IH]; intros d Hb Ha Hr; [lia|]. cbn [list_loop]. unfold bind at 1.
  pose proof (by_type_restoring (pn_dtype d) d (below_belowc _ _ Hb) Ha) as H.
  destruct (dump_by_type fd ff rl rm rd (pn_dtype d) d) as [v d1|e d1| | |]; try exact H; subst; auto using same_level_refl.
  destruct (pn_next_ok d) eqn:E; [|auto using same_level_refl]. unfold bind.
  assert (L := next_same d). specialize (IH (pn_next d) (same_level_below _ _ _ L Hb) (next_ok_at _ E)).
  apply next_remaining in E. specialize (IH ltac:(lia)).
  destruct (list_loop fd ff rl rm rd n (pn_next d)); cbn; try exact IH; destruct IH; split; auto; eapply same_level_trans; eauto.
Qed.

Lemma dumpList_restoring_ : restoring (S k) (dumpList_ fd ff rl rm rd).
Proof.
  apply restoring_bind; [apply require_restoring|]. intros _. apply auto_list_enter_restoring.
  intros n _ d Hb. replace (S k - 1) with k in Hb by lia.
  destruct (is_type TInvalid d) eqn:E; [apply same_level_refl|].
  assert (Ha : isAt d) by (destruct d as [[|] ?]; [discriminate E|exact I]).
  assert (R : remaining d < List.length (siblings (here d))).
  { destruct d as [[|l t r] u]; [destruct Ha|]. unfold remaining. cbn. rewrite rev_append_rev, app_length. cbn. lia. }
  pose proof (list_loop_steady _ d Hb Ha R) as H. destruct (list_loop _ _ _ _ _ _ d); tauto.
Qed.

Lemma type_next_steady : steady k type_and_next.
Proof. intros d _ Ha. cbn. auto using next_same, next_at. Qed.

Lemma raw_entry_steady : steady k (dump_raw_entry fd ff rl rm rd).
Proof.
  unfold dump_raw_entry. apply steady_bind; [apply type_next_steady|]. intros t.
  apply steady_bind; [apply restoring_steady, by_type_restoring|]. intros v.
  apply steady_bind; [apply type_next_steady|]. intros t'.
  apply steady_bind; [apply restoring_steady, by_type_restoring|]. intros v'.
  apply steady_bind; [|intros; apply ret_steady]. intros d _ Ha. cbn. auto using next_same, next_at.
Qed.
Lemma map_loop_steady n : steady k (map_loop fd ff rl rm rd n).
Proof.
  induction n as [n IH] using (well_founded_induction Wf_nat.lt_wf). destruct n as [|n]; [apply ret_steady|]. cbn [map_loop].
  apply steady_bind; [apply raw_entry_steady|]. intros e. apply steady_bind; [apply IH; lia|]. intros; apply ret_steady.
Qed.

Lemma dumpMap_restoring_ : restoring (S k) (dumpMap_ fd ff rl rm rd).
Proof.
  apply restoring_bind; [apply require_restoring|]. intros _. apply auto_map_enter_restoring.
  intros n _ d Hb. replace (S k - 1) with k in Hb by lia.
  destruct (is_type TInvalid d) eqn:E; [apply same_level_refl|].
  assert (Ha : isAt d) by (destruct d as [[|] ?]; [discriminate E|exact I]).
  pose proof (map_loop_steady n d Hb Ha) as H. destruct (map_loop _ _ _ _ _ _ d); tauto.
Qed.

Lemma dumpDescribed_restoring_ : restoring (S k) (dumpDescribed_ rl rm).
Proof.
  apply auto_enter_restoring. intros _. replace (S k - 1) with k by lia.
  apply loose_bind; [apply readAndNext_string_probing|]. intros fp d Hb Ha.
  destruct (pn_dtype d); auto using same_level_refl.
  - apply (restoring_steady k (let! l := rl in ret (IBrackets (Some fp) l))); auto.
    apply restoring_bind; [assumption|intros; apply ret_restoring].
  - apply (restoring_steady k (let! l := rm in ret (IBrackets (Some fp) l))); auto.
    apply restoring_bind; [assumption|intros; apply ret_restoring].
Qed.
End Level.

Lemma raw_restoring n : restoring n (dumpList fd ff n) /\ restoring n (dumpMap fd ff n) /\ restoring n (dumpDescribed fd ff n).
Proof.
  induction n as [|n (H1 & H2 & H3)].
  - assert (X : forall A (m : PM A), restoring 0 m).
    { intros A m d Hb Ha. destruct d as [[|l [a cs] r] u]; [destruct Ha|]. unfold belowc in Hb. cbn in Hb. lia. }
    auto.
  - split; [|split].
    + now apply dumpList_restoring_.
    + now apply dumpMap_restoring_.
    + now apply dumpDescribed_restoring_.
Qed.

Lemma dumpData_restored fuel d : isAt d -> belowc fuel d ->
  match dumpData fd ff fuel d with
  | Ok _ d' => d' = d
  | Throw _ d' => d' = d
  | Fuel => False
  | _ => True
  end.
Proof.
  intros Ha Hb. unfold dumpData. destruct (is_described d); [|exact I].
  match goal with |- match ?m d with _ => _ end => enough (R : restoring fuel m) by (apply R; auto) end.
  apply restoring_bind; [apply require_restoring|]. intros _.
  apply restoring_bind.
  { apply auto_enter_restoring. intros _. apply read_raw_loose. }
  intros key. apply restoring_bind.
  { intros d' _ _. now destruct (N.eqb _ _). }
  intros _. apply auto_enter_restoring. intros N. apply loose_bind; [apply require_probing; discriminate|]. intros _.
  apply restoring_steady, auto_list_enter_restoring. intros _ N1.
  apply loose_bind; [apply require_probing; discriminate|]. intros _.
  apply steady_bind; [|intros; apply ret_steady].
  intros d' Hb' Ha'.
  assert (B : below fuel d') by (unfold below in *; lia).
  exact (restoring_steady _ _ (proj2 (proj2 (raw_restoring fuel))) d' B Ha').
Qed.

(** ** What is printed *)

Fixpoint ival (r : raw) : ivalue :=
  match r with
  | RawValue a => IText None (raw_value fd ff dec a)
  | RawList es => IBrackets None (match es with [] => [IText None "<<<Empty List>>>"] | _ => map ival es end)
  | RawDescribed fp es => IBrackets (Some fp) (match es with [] => [IText None "<<<Empty List>>>"] | _ => map ival es end)
  end.

Lemma commas_concat l : commas l = String.concat ", " l.
Proof. induction l as [|a [|b l] IH]; [reflexivity..|]. cbn [commas String.concat]. f_equal. f_equal. exact IH. Qed.

Section RawInd.
Context (P : raw -> Prop) (HV : forall a, P (RawValue a)) (HL : forall es, Forall P es -> P (RawList es))
        (HD : forall fp es, Forall P es -> P (RawDescribed fp es)).
Fixpoint raw_rect2 (r : raw) : P r :=
  match r with
  | RawValue a => HV a
  | RawList es => HL es ((fix go es := match es return Forall P es with [] => Forall_nil _ | e :: es => Forall_cons _ (raw_rect2 e) (go es) end) es)
  | RawDescribed fp es => HD fp es ((fix go es := match es return Forall P es with [] => Forall_nil _ | e :: es => Forall_cons _ (raw_rect2 e) (go es) end) es)
  end.
End RawInd.

Lemma ival_show r : show (ival r) = raw_text fd ff dec r.
Proof.
  assert (X : forall es, Forall (fun r => show (ival r) = raw_text fd ff dec r) es ->
    commas (map show (match es with [] => [IText None "<<<Empty List>>>"] | _ => map ival es end)) =
    match map (raw_text fd ff dec) es with [] => "<<<Empty List>>>" | _ => String.concat ", " (map (raw_text fd ff dec) es) end).
  { intros [|e es] H; [reflexivity|]. rewrite commas_concat, map_map. rewrite Forall_forall in H.
    assert (E : map (fun x => show (ival x)) (e :: es) = map (raw_text fd ff dec) (e :: es)) by (apply map_ext_in; exact H).
    rewrite E. reflexivity. }
  induction r as [a|es H|fp es H] using raw_rect2; [reflexivity| |].
  - cbn [ival show labelled raw_text]. unfold in_brackets. now rewrite (X es H).
  - cbn [ival show labelled raw_text]. unfold in_brackets. now rewrite (X es H).
Qed.

Lemma described_S n : dumpDescribed fd ff (S n) = dumpDescribed_ (dumpList fd ff n) (dumpMap fd ff n).
Proof. reflexivity. Qed.
Lemma map_S n : dumpMap fd ff (S n) = dumpMap_ fd ff (dumpList fd ff n) (dumpMap fd ff n) (dumpDescribed fd ff n).
Proof. reflexivity. Qed.
Lemma list_S n : dumpList fd ff (S n) = dumpList_ fd ff (dumpList fd ff n) (dumpMap fd ff n) (dumpDescribed fd ff n).
Proof. reflexivity. Qed.

(** A program that returns [v] without moving. *)
Definition gives {A} (m : PM A) (t : tree) (v : A) : Prop := forall l r u, m (Data (At l t r) u) = Ok v (Data (At l t r) u).

Lemma loop_gives rl rm rd es : forall e n l u,
  Forall (fun e => gives (dump_by_type fd ff rl rm rd (atom_type (tree_atom (raw_tree e)))) (raw_tree e) (ival e)) (e :: es) ->
  List.length es < n -> exists l' t', 
  list_loop fd ff rl rm rd n (Data (At l (raw_tree e) (map raw_tree es)) u) =
  Ok (map ival (e :: es)) (Data (At l' t' []) u) /\ rev_append l' [t'] = rev_append l (raw_tree e :: map raw_tree es).
Proof.
  induction es as [|e' es IH]; intros e n l u H Hn; (destruct n as [|n]; [lia|]); cbn [list_loop]; unfold bind at 1.
  - apply Forall_inv in H.
    assert (E : pn_dtype (Data (At l (raw_tree e) (map raw_tree [])) u) = atom_type (tree_atom (raw_tree e))) by (destruct (raw_tree e); reflexivity).
    rewrite E, H. cbn. eauto.
  - assert (E : pn_dtype (Data (At l (raw_tree e) (map raw_tree (e' :: es))) u) = atom_type (tree_atom (raw_tree e))) by (destruct (raw_tree e); reflexivity).
    rewrite E, (Forall_inv H). cbn [pn_next_ok here map pn_next]. cbn in Hn.
    destruct (IH e' n (raw_tree e :: l) u (Forall_inv_tail H) ltac:(lia)) as (l' & t' & E1 & E2).
    unfold bind. cbn [ups]. rewrite E1. cbn. eauto.
Qed.

Lemma list_gives n es :
  Forall (fun e => gives (dump_by_type fd ff (dumpList fd ff n) (dumpMap fd ff n) (dumpDescribed fd ff n) (atom_type (tree_atom (raw_tree e)))) (raw_tree e) (ival e)) es ->
  gives (dumpList fd ff (S n)) (list_of (map raw_tree es)) (match es with [] => [IText None "<<<Empty List>>>"] | _ => map ival es end).
Proof.
  intros H l r u. destruct es as [|e es]; [reflexivity|]. rewrite list_S. unfold dumpList_.
  eapply bind_ok; [reflexivity|].
  destruct (loop_gives _ _ _ es e (S (List.length (map raw_tree es))) [] (Frame l AList r :: u) H) as (l' & t' & E1 & E2).
  { rewrite map_length. lia. }
  erewrite auto_list_enter_ok.
  2:{ cbn beta. cbn [map list_of pn_enter here pn_next ups].
      match goal with |- (if ?b then _ else _) = _ => replace b with false by (destruct e as [[]| |]; reflexivity) end.
      cbn [siblings rev_append List.length]. exact E1. }
  cbn [pn_exit ups siblings here]. f_equal. f_equal. unfold list_of. f_equal. f_equal. exact E2.
Qed.

Lemma by_type_gives r : all_simple r -> forall n, height (raw_tree r) <= n ->
  gives (dump_by_type fd ff (dumpList fd ff n) (dumpMap fd ff n) (dumpDescribed fd ff n) (atom_type (tree_atom (raw_tree r)))) (raw_tree r) (ival r).
Proof.
  assert (X : forall es, Forall (fun r => all_simple r -> forall n, height (raw_tree r) <= n ->
      gives (dump_by_type fd ff (dumpList fd ff n) (dumpMap fd ff n) (dumpDescribed fd ff n) (atom_type (tree_atom (raw_tree r)))) (raw_tree r) (ival r)) es ->
    fold_right (fun e P => all_simple e /\ P) True es -> forall n, heights (map raw_tree es) <= n ->
    gives (dumpList fd ff (S n)) (list_of (map raw_tree es)) (match es with [] => [IText None "<<<Empty List>>>"] | _ => map ival es end)).
  { intros es H S n Hn. apply list_gives. revert H S Hn. induction es as [|e es IH]; intros H S Hn; [constructor|].
    cbn [map] in Hn. rewrite heights_cons in Hn. destruct S as [S1 S2]. constructor.
    - apply (Forall_inv H); [exact S1|lia].
    - apply IH; [exact (Forall_inv_tail H)|exact S2|lia]. }
  induction r as [a|es H|fp es H] using raw_rect2; intros S n Hn.
  - intros l r u. destruct a; cbn in S; try reflexivity; destruct S.
  - cbn [raw_tree] in *. unfold list_of in Hn. rewrite height_node in Hn. destruct n as [|n]; [lia|].
    intros l r u. cbn [list_of tree_atom atom_type dump_by_type]. eapply bind_ok; [apply (X es H S n ltac:(lia))|]. reflexivity.
  - cbn [raw_tree] in *. unfold payload_tree in Hn. rewrite height_node, !heights_cons in Hn. unfold list_of in Hn. rewrite !height_node in Hn.
    destruct n as [|[|n]]; [lia..|].
    intros l r u. cbn [payload_tree tree_atom atom_type dump_by_type]. rewrite described_S. unfold dumpDescribed_.
    erewrite auto_enter_ok with (d1 := Data (At [leaf (ASymbol fp)] (list_of (map raw_tree es)) []) (Frame l ADescribed r :: u)); [reflexivity|].
    eapply bind_ok; [reflexivity|]. cbn beta.
    change (pn_dtype _) with TList. cbn iota. eapply bind_ok; [|reflexivity].
    apply (X es H S n ltac:(lia)).
Qed.

Lemma envelope_steps fuel payload more v : tree_atom payload = ADescribed -> gives (dumpDescribed fd ff fuel) payload v ->
  dumpData fd ff fuel (decoded (raw_blob payload more)) = Ok (show v) (decoded (raw_blob payload more)).
Proof.
  intros E H. unfold dumpData. cbn iota. unfold raw_blob, described, decoded.
  match goal with |- (if ?b then _ else _) = _ => change b with true end. cbn iota.
  eapply bind_ok; [reflexivity|]. eapply bind_ok; [reflexivity|]. eapply bind_ok; [reflexivity|].
  erewrite auto_enter2_ok with (d1 := Data (At [leaf (AULong (vendor 1))] (list_of (payload :: more)) []) [Frame [] ADescribed []]); [reflexivity|].
  eapply bind_ok; [reflexivity|].
  erewrite auto_list_enter_ok with (d1 := Data (At [] payload more) [Frame [leaf (AULong (vendor 1))] AList []; Frame [] ADescribed []]); [reflexivity|].
  cbn beta. eapply bind_ok.
  { destruct payload as [a cs]. cbn in E. subst a. reflexivity. }
  eapply bind_ok; [apply H|]. reflexivity.
Qed.

Lemma raw_faithful fuel fp es more : all_simple (RawDescribed fp es) -> height (raw_tree (RawDescribed fp es)) <= fuel ->
  let blob := decoded (raw_blob (raw_tree (RawDescribed fp es)) more) in
  dumpData fd ff fuel blob = Ok (raw_text fd ff dec (RawDescribed fp es)) blob.
Proof.
  intros S H. cbv zeta. rewrite <- ival_show. apply envelope_steps; [reflexivity|].
  exact (by_type_gives (RawDescribed fp es) S fuel H).
Qed.

(** ** Maps *)

(** The cursor on the i-th of some single values, or the last. *)
Definition on (xs : list atom) (i : nat) (u : list frame) : data :=
  let j := Nat.min i (List.length xs - 1) in
  Data (At (rev (map leaf (firstn j xs))) (leaf (nth_or_last xs i)) (map leaf (skipn (S j) xs))) u.

Lemma skip_nth (xs : list atom) i : i < List.length xs -> skipn i xs = nth i xs ANull :: skipn (S i) xs.
Proof. revert i. induction xs as [|x xs IH]; intros i H; [cbn in H; lia|]. destruct i; [reflexivity|]. cbn [skipn nth]. apply IH. cbn in H. lia. Qed.
Lemma first_nth (xs : list atom) i : i < List.length xs -> firstn (S i) xs = (firstn i xs ++ [nth i xs ANull])%list.
Proof. revert i. induction xs as [|x xs IH]; intros i H; [cbn in H; lia|]. destruct i; [reflexivity|]. cbn [firstn nth app]. f_equal. apply IH. cbn in H. lia. Qed.

Lemma on_next xs i u : xs <> [] -> pn_next (on xs i u) = on xs (S i) u.
Proof.
  intros N. assert (L : 0 < List.length xs) by (destruct xs; [congruence|cbn; lia]).
  unfold on, nth_or_last. destruct (Nat.lt_ge_cases (S i) (List.length xs)) as [H|H].
  - replace (Nat.min i (List.length xs - 1)) with i by lia. replace (Nat.min (S i) (List.length xs - 1)) with (S i) by lia.
    rewrite (skip_nth xs (S i) H). cbn [map pn_next here ups]. rewrite first_nth by lia. rewrite map_app, rev_app_distr. reflexivity.
  - replace (Nat.min i (List.length xs - 1)) with (List.length xs - 1) by lia.
    replace (Nat.min (S i) (List.length xs - 1)) with (List.length xs - 1) by lia.
    rewrite skipn_all2 by lia. reflexivity.
Qed.
Lemma on_siblings xs i u : xs <> [] -> siblings (here (on xs i u)) = map leaf xs.
Proof.
  intros N. assert (L : 0 < List.length xs) by (destruct xs; [congruence|cbn; lia]).
  unfold on, nth_or_last. cbn [here siblings]. rewrite rev_append_rev, rev_involutive.
  rewrite <- map_cons, <- map_app. f_equal. rewrite <- skip_nth by lia. apply firstn_skipn.
Qed.
Lemma on_ups xs i u : ups (on xs i u) = u.
Proof. reflexivity. Qed.

Lemma nth_simple xs i : xs <> [] -> Forall simple xs -> simple (nth_or_last xs i).
Proof.
  intros N H. unfold nth_or_last. rewrite Forall_forall in H. apply H, nth_In. destruct xs; [congruence|cbn; lia].
Qed.

Lemma on_dump rl rm rd xs i t u : simple t -> simple (nth_or_last xs i) ->
  dump_by_type fd ff rl rm rd (atom_type t) (on xs i u) = Ok (IText None (raw_value fd ff dec (nth_or_last xs i))) (on xs i u).
Proof.
  intros Ht H. unfold on at 1 2. set (j := Nat.min _ _). clearbody j.
  assert (E : dump_by_type fd ff rl rm rd (atom_type t) = dumpPrimitive fd ff) by (destruct t; try reflexivity; destruct Ht).
  rewrite E. revert H. generalize (nth_or_last xs i) as a. intros a H. destruct a; reflexivity || destruct H.
Qed.

Lemma map_entries rl rm rd xs u : xs <> [] -> Forall simple xs -> forall n i,
  map_loop fd ff rl rm rd (2 * n) (on xs (3 * i) u) =
  Ok (map (fun j => IEntry (IText None (raw_value fd ff dec (nth_or_last xs (3 * j + 1))))
                           (IText None (raw_value fd ff dec (nth_or_last xs (3 * j + 2))))) (seq i n))
     (on xs (3 * (i + n)) u).
Proof.
  intros N H. induction n as [|n IH]; intros i.
  - replace (i + 0) with i by lia. reflexivity.
  - replace (2 * S n) with (S (S (2 * n))) by lia. cbn [map_loop pred]. unfold bind at 1.
    assert (E : dump_raw_entry fd ff rl rm rd (on xs (3 * i) u) =
      Ok (IEntry (IText None (raw_value fd ff dec (nth_or_last xs (3 * i + 1)))) (IText None (raw_value fd ff dec (nth_or_last xs (3 * i + 2)))))
         (on xs (3 * S i) u)).
    { unfold dump_raw_entry. eapply bind_ok; [reflexivity|]. rewrite on_next by exact N.
      replace (3 * i + 1) with (S (3 * i)) by lia. replace (3 * i + 2) with (S (S (3 * i))) by lia. replace (3 * S i) with (S (S (S (3 * i)))) by lia.
      eapply bind_ok; [apply on_dump; now apply nth_simple|].
      eapply bind_ok; [reflexivity|]. rewrite on_next by exact N.
      eapply bind_ok; [apply on_dump; now apply nth_simple|].
      unfold bind, next_, ret. now rewrite on_next. }
    rewrite E. unfold bind. rewrite IH. replace (S i + n) with (i + S n) by lia. reflexivity.
Qed.

Lemma raw_map_prints fuel fp xs more : 2 <= fuel -> Forall simple xs -> Nat.Even (List.length xs) ->
  let blob := decoded (raw_blob (raw_map fp xs) more) in
  dumpData fd ff fuel blob = Ok (fp ++ " : " ++ raw_map_text fd ff dec xs) blob.
Proof.
  intros Hf H [n Hn]. cbv zeta. destruct fuel as [|[|fuel]]; [lia..|].
  set (es := map (fun j => IEntry (IText None (raw_value fd ff dec (nth_or_last xs (3 * j + 1))))
                           (IText None (raw_value fd ff dec (nth_or_last xs (3 * j + 2))))) (seq 0 n)).
  assert (ND : List.length xs / 2 = n) by (rewrite Hn, Nat.mul_comm; apply Nat.div_mul; lia).
  rewrite (envelope_steps _ _ more (IBrackets (Some fp) (match xs with [] => [IText None "<<<Empty Map>>>"] | _ => es end))); [|reflexivity|].
  - f_equal. cbn [show labelled]. unfold raw_map_text, in_brackets. rewrite ND, commas_concat.
    destruct xs as [|x xs]; [cbn in Hn; replace n with 0 by lia; reflexivity|].
    destruct n as [|n]; [cbn in Hn; lia|]. unfold es. rewrite map_map. reflexivity.
  - intros l r u. rewrite described_S. unfold dumpDescribed_, raw_map, payload_tree.
    erewrite auto_enter_ok with (d1 := Data (At [leaf (ASymbol fp)] (Node AMap (map leaf xs)) []) (Frame l ADescribed r :: u)); [reflexivity|].
    eapply bind_ok; [reflexivity|]. cbn beta. change (pn_dtype _) with TMap. cbn iota. eapply bind_ok; [|reflexivity].
    destruct xs as [|x xs]; [reflexivity|]. rewrite map_S. unfold dumpMap_. eapply bind_ok; [reflexivity|].
    assert (N : x :: xs <> []) by discriminate.
    pose proof (map_entries (dumpList fd ff fuel) (dumpMap fd ff fuel) (dumpDescribed fd ff fuel) (x :: xs)
      (Frame [leaf (ASymbol fp)] AMap [] :: Frame l ADescribed r :: u) N H n 0) as M.
    erewrite auto_map_enter_ok with (d1 := on (x :: xs) (3 * (0 + n)) (Frame [leaf (ASymbol fp)] AMap [] :: Frame l ADescribed r :: u)).
    2:{ cbn beta. change (pn_get_map _) with (List.length (map leaf (x :: xs))). rewrite map_length, Hn.
        change (pn_next (pn_enter _)) with (on (x :: xs) (3 * 0) (Frame [leaf (ASymbol fp)] AMap [] :: Frame l ADescribed r :: u)).
        match goal with |- (if ?b then _ else _) = _ => replace b with false end; [exact M|].
        unfold on, is_type, pn_dtype. cbn. apply Forall_inv in H. destruct x; reflexivity || destruct H. }
    f_equal. unfold pn_exit. rewrite on_ups, on_siblings by exact N. reflexivity.
Qed.

Lemma raw_single fuel fp k v more : 2 <= fuel -> simple k -> simple v ->
  let blob := decoded (raw_blob (raw_map fp [k; v]) more) in
  dumpData fd ff fuel blob = Ok (fp ++ " : " ++ in_brackets "" [raw_value fd ff dec v ++ " : " ++ raw_value fd ff dec v]) blob.
Proof.
  intros Hf Hk Hv. apply (raw_map_prints fuel fp [k; v] more); auto. exists 1. reflexivity.
Qed.
End Raw.
