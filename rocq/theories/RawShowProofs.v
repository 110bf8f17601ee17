(** Which payloads the raw dump accepts, and what it shows of them. *)
From Coq Require Import Lia.
From Verif Require Import Base Proton ProtonProofs TypeNames Schema SpecSchema Descriptors DescriptorsProofs Factory SpecFactory FactoryProofs Readers SpecReaders
  Blob ReadersProofs InspectProofs RawProofs SpecAccept AcceptProofs SpecDisplay SpecInstalled DisplayProofs SpecRaw.
Import List ListNotations.
Open Scope string_scope.

Section Exact.
Context (fd ff : N -> string).
Notation rs := (raw_shows fd ff dec).

Definition kind_of_type (t : pn_type) : kind := match t with TList => a_list | TMap => a_map | TDescribed => a_described | _ => a_single end.
Lemma kind_type t : kind_of t = kind_of_type (atom_type (tree_atom t)).
Proof. destruct t as [[] cs]; reflexivity. Qed.

Definition does (k : kind) (t : tree) (m : PM ivalue) : Prop := forall l r u,
  match m (Data (At l t r) u) with
  | Ok v d => d = Data (At l t r) u /\ forall x, rs k t x <-> x = show v
  | Throw _ _ => forall x, ~ rs k t x
  | _ => False
  end.
Definition ldoes (k : kind) (t : tree) (m : PM (list ivalue)) : Prop := forall l r u,
  match m (Data (At l t r) u) with
  | Ok vs d => d = Data (At l t r) u /\ forall x, rs k t x <-> x = show (IBrackets None vs)
  | Throw _ _ => forall x, ~ rs k t x
  | _ => False
  end.

Lemma primitive_does t : does a_single t (dumpPrimitive fd ff).
Proof.
  intros l r u. destruct t as [a cs]. destruct a; cbn; (split; [reflexivity|]); intros x;
    (split; [intros H; inversion H; subst; reflexivity|intros ->; match goal with |- rs _ ?t _ => exact (raw_single fd ff dec t) end]).
Qed.

Section Rec.
Context (rl rm : PM (list ivalue)) (rd : PM ivalue) (n : nat).
Hypothesis Hl : forall t, height t <= n -> ldoes a_list t rl.
Hypothesis Hm : forall t, height t <= n -> ldoes a_map t rm.
Hypothesis Hd : forall t, height t <= n -> does a_described t rd.

Lemma brackets_does k t m : ldoes k t m -> does k t (let! l := m in ret (IBrackets None l)).
Proof. intros H l r u. specialize (H l r u). unfold bind. destruct (m _); auto. Qed.
Lemma by_type_does ty t : height t <= n -> does (kind_of_type ty) t (dump_by_type fd ff rl rm rd ty).
Proof. intros H. destruct ty; cbn [kind_of_type dump_by_type]; auto using brackets_does, primitive_does. Qed.

Lemma loop_does : forall m l c r u, length r < m -> (forall t, In t (c :: r) -> height t <= n) ->
  match list_loop fd ff rl rm rd m (Data (At l c r) u) with
  | Ok vs d => (siblings (here d) = siblings (At l c r) /\ ups d = u) /\ vs <> [] /\ forall xs, Forall2 (fun p x => rs (kind_of p) p x) (c :: r) xs <-> xs = map show vs
  | Throw _ _ => forall xs, ~ Forall2 (fun p x => rs (kind_of p) p x) (c :: r) xs
  | _ => False
  end.
Proof.
  induction m as [|m IH]; intros l c r u Hr Hh; [lia|]. cbn [list_loop]. unfold bind at 1.
  pose proof (by_type_does (pn_dtype (Data (At l c r) u)) c (Hh c (or_introl eq_refl)) l r u) as B.
  replace (kind_of_type (pn_dtype (Data (At l c r) u))) with (kind_of c) in B by (rewrite kind_type; destruct c; reflexivity).
  destruct (dump_by_type fd ff rl rm rd _ _) as [v d|e d| | |]; try contradiction.
  - destruct B as [-> B]. destruct r as [|c' r]; cbn [pn_next_ok here].
    + split; [auto|]. split; [discriminate|]. intros xs. split.
      * intros H. inversion H as [|? x ? ? H1 H2]; subst. inversion H2; subst. apply B in H1 as ->. reflexivity.
      * intros ->. constructor; [|constructor]. now apply B.
    + cbn [pn_next here ups]. unfold bind. specialize (IH (c :: l) c' r u ltac:(cbn in Hr; lia) ltac:(intros; apply Hh; now right)).
      destruct (list_loop fd ff rl rm rd m _) as [vs d|e d| | |]; try contradiction.
      * destruct IH as [IH1 [_ IH2]]. split; [exact IH1|]. split; [discriminate|]. intros xs. split.
        -- intros H. inversion H as [|? x ? ? H1 H2]; subst. apply B in H1 as ->. apply IH2 in H2 as ->. reflexivity.
        -- intros ->. constructor; [now apply B|now apply IH2].
      * intros xs H. inversion H; subst. eapply IH; eauto.
  - intros xs H. inversion H; subst. eapply B; eauto.
Qed.
Lemma show_list vs : vs <> [] -> show (IBrackets None vs) = in_brackets "<<<Empty List>>>" (map show vs).
Proof. intros H. destruct vs; [now elim H|]. cbn [show labelled]. rewrite commas_concat. reflexivity. Qed.
Lemma list_does t : height t <= S n -> ldoes a_list t (dumpList_ fd ff rl rm rd).
Proof.
  intros Hh l r u. unfold dumpList_. unfold bind at 1. unfold attest_is_list, require, is_type.
  destruct t as [a cs]. destruct (pn_type_eqb (pn_dtype (Data (At l (Node a cs) r) u)) TList) eqn:E.
  2:{ intros x H. inversion H; subst. match goal with X : tree_atom _ = _ |- _ => cbn in X; subst a end. discriminate E. }
  assert (a = AList) by (destruct a; try discriminate E; reflexivity). subst a. clear E.
  unfold auto_list_enter, finally. cbn [pn_enter here ups pn_next].
  destruct cs as [|c cs].
  - cbn. split; [reflexivity|]. intros x. split.
    + intros H. inversion H; subst. match goal with X : Forall2 _ _ _ |- _ => inversion X; subst end. reflexivity.
    + intros ->. apply (raw_list fd ff dec (Node AList []) []); [reflexivity|constructor].
  - cbn [pn_next here]. change (is_type TInvalid _) with (pn_type_eqb (atom_type (tree_atom c)) TInvalid) || idtac.
    replace (pn_type_eqb (pn_dtype (Data (At [] c cs) (Frame l AList r :: u))) TInvalid) with false by (destruct c as [[] ?]; reflexivity).
    cbn [siblings rev_append here].
    assert (Hc : forall t, In t (c :: cs) -> height t <= n). { intros t Ht. apply heights_in in Ht. rewrite height_node in Hh. lia. }
    pose proof (loop_does (length (c :: cs)) [] c cs (Frame l AList r :: u) ltac:(cbn; lia) Hc) as L.
    destruct (list_loop fd ff rl rm rd _ _) as [vs d|e d| | |]; try contradiction.
    + destruct L as [[L1 L2] [L0 L3]]. split; [unfold pn_exit; rewrite L2, L1; reflexivity|]. intros x. rewrite show_list by exact L0. split.
      * intros H. inversion H; subst. match goal with X : Forall2 _ _ _ |- _ => apply L3 in X as -> end. reflexivity.
      * intros ->. apply raw_list; [reflexivity|]. now apply L3.
    + intros x H. inversion H; subst. eapply L; eauto.
Qed.

(** The loop over a map that is not empty. *)
Definition entry_shown (t : tree) (i : nat) (xy : string * string) : Prop :=
  exists a b c, part (3 * i) t = Some a /\ part (3 * i + 1) t = Some b /\ part (3 * i + 2) t = Some c /\
                rs (kind_of a) b (fst xy) /\ rs (kind_of b) c (snd xy).
Definition entry_text (xy : string * string) : string := fst xy ++ " : " ++ snd xy.
Lemma on_at t k u d : on t k u d -> exists l p r, d = Data (At l p r) u /\ part k t = Some p /\ In p (tree_children t).
Proof.
  intros H. destruct (on_part _ _ _ _ H) as (l & p & r & -> & E). exists l, p, r. split; [reflexivity|]. split; [exact E|].
  unfold part in E. eapply nth_error_In; eauto.
Qed.
Lemma entry_does t u i d : (forall p, In p (tree_children t) -> height p <= n) -> on t (3 * i) u d ->
  match dump_raw_entry fd ff rl rm rd d with
  | Ok v d' => on t (3 * S i) u d' /\ exists xy, (forall zw, entry_shown t i zw <-> zw = xy) /\ show v = entry_text xy
  | Throw _ _ => forall xy, ~ entry_shown t i xy
  | _ => False
  end.
Proof.
  intros Hh Ho. unfold dump_raw_entry, type_and_next. unfold bind at 1.
  destruct (on_at _ _ _ _ Ho) as (l0 & a & r0 & Ea & Pa & Ia). apply AcceptProofs.on_next in Ho.
  replace (pn_dtype d) with (atom_type (tree_atom a)) by (subst d; destruct a; reflexivity).
  destruct (on_at _ _ _ _ Ho) as (l1 & b & r1 & Eb & Pb & Ib).
  pose proof (by_type_does (atom_type (tree_atom a)) b (Hh b Ib) l1 r1 u) as B. rewrite <- Eb, <- kind_type in B. unfold bind at 1.
  destruct (dump_by_type fd ff rl rm rd (atom_type (tree_atom a)) (pn_next d)) as [v d1|e d1| | |]; try contradiction.
  2:{ intros xy (a' & b' & c & E1 & E2 & _ & K & _). assert (a' = a) by congruence. subst a'. replace (3 * i + 1) with (S (3 * i)) in E2 by lia.
      assert (b' = b) by congruence. subst b'. eapply B; eauto. }
  destruct B as [-> B]. unfold bind at 1. replace (pn_dtype (pn_next d)) with (atom_type (tree_atom b)) by (rewrite Eb; destruct b; reflexivity).
  apply AcceptProofs.on_next in Ho. destruct (on_at _ _ _ _ Ho) as (l2 & c & r2 & Ec & Pc & Ic).
  pose proof (by_type_does (atom_type (tree_atom b)) c (Hh c Ic) l2 r2 u) as C. rewrite <- Ec, <- kind_type in C. unfold bind at 1.
  destruct (dump_by_type fd ff rl rm rd (atom_type (tree_atom b)) (pn_next (pn_next d))) as [w d2|e d2| | |]; try contradiction.
  2:{ intros xy (a' & b' & c' & E1 & E2 & E3 & _ & K). replace (3 * i + 1) with (S (3 * i)) in E2 by lia. replace (3 * i + 2) with (S (S (3 * i))) in E3 by lia.
      assert (b' = b) by congruence. subst b'. assert (c' = c) by congruence. subst c'. eapply C; eauto. }
  destruct C as [-> C]. unfold bind, next_, ret. split.
  - apply AcceptProofs.on_next in Ho. now replace (3 * S i) with (S (S (S (3 * i)))) by lia.
  - exists (show v, show w). split; [|reflexivity]. intros [z1 z2]. split.
    + intros (a' & b' & c' & E1 & E2 & E3 & K1 & K2). replace (3 * i + 1) with (S (3 * i)) in E2 by lia. replace (3 * i + 2) with (S (S (3 * i))) in E3 by lia.
      assert (a' = a) by congruence. subst a'. assert (b' = b) by congruence. subst b'. assert (c' = c) by congruence. subst c'.
      apply B in K1. apply C in K2. cbn in K1, K2. now subst.
    + intros [= -> ->]. exists a, b, c. replace (3 * i + 1) with (S (3 * i)) by lia. replace (3 * i + 2) with (S (S (3 * i))) by lia.
      repeat split; auto; [now apply B|now apply C].
Qed.
Lemma map_loop_does t u : (forall p, In p (tree_children t) -> height p <= n) -> forall k m i d, m <= k -> on t (3 * i) u d ->
  match map_loop fd ff rl rm rd m d with
  | Ok vs d' => (exists j, on t j u d') /\ exists xys, (forall zws, Forall2 (entry_shown t) (seq i (Nat.div2 (S m))) zws <-> zws = xys) /\ map show vs = map entry_text xys
  | Throw _ _ => forall xys, ~ Forall2 (entry_shown t) (seq i (Nat.div2 (S m))) xys
  | _ => False
  end.
Proof.
  intros Hh. induction k as [|k IH]; intros m i d Hk Ho.
  { destruct m; [|lia]. cbn. split; [eauto|]. exists []. split; [|reflexivity]. intros zws. split; [intros H; inversion H; reflexivity|intros ->; constructor]. }
  destruct m as [|m]; [apply (IH 0 i d); [lia|exact Ho]|].
  cbn [map_loop]. unfold bind at 1. pose proof (entry_does t u i d Hh Ho) as E.
  assert (Es : seq i (Nat.div2 (S (S m))) = i :: seq (S i) (Nat.div2 (S (pred m)))) by (destruct m; reflexivity). rewrite Es.
  destruct (dump_raw_entry fd ff rl rm rd d) as [v d1|e d1| | |]; try contradiction.
  - destruct E as (O1 & xy & E1 & E2). specialize (IH (pred m) (S i) d1 ltac:(lia) O1). unfold bind.
    destruct (map_loop fd ff rl rm rd (pred m) d1) as [vs d2|e d2| | |]; try contradiction.
    + destruct IH as (O2 & xys & I1 & I2). split; [exact O2|]. exists (xy :: xys). split.
      * intros zws. split.
        -- intros H. inversion H as [|? ? ? ? H1 H2]; subst. apply E1 in H1 as ->. apply I1 in H2 as ->. reflexivity.
        -- intros ->. constructor; [now apply E1|now apply I1].
      * cbn [map]. now rewrite E2, I2.
    + intros xys H. inversion H; subst. eapply IH; eauto.
  - intros xys H. inversion H; subst. eapply E; eauto.
Qed.
Lemma map_does t : height t <= S n -> ldoes a_map t (dumpMap_ fd ff rl rm rd).
Proof.
  intros Hh l r u. unfold dumpMap_. unfold bind at 1. unfold is_map, require, is_type.
  destruct t as [a cs]. destruct (pn_type_eqb (pn_dtype (Data (At l (Node a cs) r) u)) TMap) eqn:E.
  2:{ intros x H. inversion H; subst. match goal with X : tree_atom _ = _ |- _ => cbn in X; subst a end. discriminate E. }
  assert (a = AMap) by (destruct a; try discriminate E; reflexivity). subst a. clear E.
  unfold auto_map_enter, finally. cbn [pn_enter here ups pn_next].
  destruct cs as [|c cs].
  - cbn. split; [reflexivity|]. intros x. split.
    + intros H. inversion H; subst. match goal with X : Forall2 _ _ _ |- _ => inversion X; subst end. reflexivity.
    + intros ->. apply (raw_map fd ff dec (Node AMap []) []); [reflexivity|constructor].
  - cbn [pn_next here].
    replace (pn_type_eqb (pn_dtype (Data (At [] c cs) (Frame l AMap r :: u))) TInvalid) with false by (destruct c as [[] ?]; reflexivity).
    change (pn_get_map (Data (At l (Node AMap (c :: cs)) r) u)) with (length (c :: cs)).
    assert (Hc : forall t, In t (tree_children (Node AMap (c :: cs))) -> height t <= n). { intros t Ht. cbn [tree_children] in Ht. apply heights_in in Ht. rewrite height_node in Hh. lia. }
    pose proof (map_loop_does (Node AMap (c :: cs)) (Frame l AMap r :: u) Hc _ (length (c :: cs)) 0 (Data (At [] c cs) (Frame l AMap r :: u)) (le_n _) (on_first AMap c cs _)) as L.
    destruct (map_loop fd ff rl rm rd _ _) as [vs d|e d| | |]; try contradiction.
    + destruct L as [(j & L1) (xys & L2 & L3)]. split; [apply (exit_among l AMap (c :: cs) r u); eapply on_among; eauto|].
      assert (Hs : show (IBrackets None vs) = in_brackets "<<<Empty Map>>>" (map entry_text xys)).
      { destruct xys as [|xy xys].
        - exfalso. pose proof (proj2 (L2 []) eq_refl) as X. cbn [length Nat.div2 seq] in X. inversion X.
        - rewrite <- L3. destruct vs; [discriminate L3|]. cbn [show labelled]. rewrite commas_concat. reflexivity. }
      rewrite Hs. intros x. split.
      * intros H. inversion H; subst. match goal with X : Forall2 _ _ _ |- _ => apply L2 in X as -> end. reflexivity.
      * intros ->. apply (raw_map fd ff dec (Node AMap (c :: cs)) xys); [reflexivity|]. now apply L2.
    + intros x H. inversion H; subst. eapply L; eauto.
Qed.

(** Described values. *)
Lemma string_cases d :
  (exists s t, view d = Some t /\ calls s t /\ readAndNext_string false d = Ok s (pn_next d)) \/
  (exists e d', readAndNext_string false d = Throw e d' /\ forall t s, view d = Some t -> ~ calls s t).
Proof.
  destruct (readAndNext_string false d) as [s d'|e d'| | |] eqn:E.
  - left. apply string_read_inv in E as [-> (t & V & C)]. eauto 6.
  - right. exists e, d'. split; [reflexivity|]. intros t s V C. rewrite (string_read _ _ _ V C) in E. discriminate.
  - exfalso. revert E. unfold readAndNext_string, auto_next, finally. destruct (cur_atom d) as [[]|]; discriminate.
  - exfalso. revert E. unfold readAndNext_string, auto_next, finally. destruct (cur_atom d) as [[]|]; discriminate.
  - exfalso. revert E. unfold readAndNext_string, auto_next, finally. destruct (cur_atom d) as [[]|]; discriminate.
Qed.
Lemma calls_inj s s' t : calls s t -> calls s' t -> s = s'.
Proof. unfold calls, says. intros [H|H] [K|K]; congruence. Qed.
Lemma described_does t : height t <= S n -> does a_described t (dumpDescribed_ rl rm).
Proof.
  intros Hh l r u. destruct t as [a cs]. unfold dumpDescribed_, auto_enter, finally.
  pose proof (upon_enter l a cs r u) as U. set (d0 := w_enter _) in *. clearbody d0. unfold bind at 1.
  destruct (string_cases d0) as [(s & k & V & C & E)|(e & d' & E & N)]; rewrite E.
  2:{ intros x H. inversion H as [| | |? fp body y (k & Pk & Ck) ? ? ?]; subst. rewrite (upon_view _ _ _ _ U) in N. eapply N; eauto. }
  rewrite (upon_view _ _ _ _ U) in V. pose proof (upon_next _ _ _ _ U) as U1. clear E U. set (d1 := pn_next d0) in *. clearbody d1. clear d0.
  destruct (part 1 (Node a cs)) as [body|] eqn:P1.
  2:{ exfalso. unfold part in *. cbn [tree_children] in *. destruct cs as [|c0 cs]; [destruct (Nat.min 0 _) in V; discriminate V|].
      apply nth_error_None in P1. cbn [length] in P1. lia. }
  destruct (upon_at _ _ _ _ _ U1 P1) as (l1 & r1 & ->).
  assert (Hb : height body <= n). { pose proof (part_depth 1 (Node a cs)) as D. rewrite P1 in D. cbn [depth] in D. lia. }
  assert (Hsome : forall k' x, k' = a_described -> rs k' (Node a cs) x -> exists y, x = s ++ " : " ++ y /\ (kind_of body = a_list \/ kind_of body = a_map) /\ rs (kind_of body) body y).
  { intros k' x Ek H. destruct H as [|?|?|t' fp body' y (k1 & Pk & Ck) Pb Hk Hy]; try discriminate.
    assert (k1 = k) by congruence. subst k1. assert (body' = body) by congruence. subst body'. rewrite (calls_inj _ _ _ C Ck). eauto. }
  assert (Hmake : forall y, kind_of body = a_list \/ kind_of body = a_map -> rs (kind_of body) body y -> rs a_described (Node a cs) (s ++ " : " ++ y)).
  { intros y Hk Hy. eapply raw_described; eauto. exists k; auto. }
  destruct (pn_dtype (Data (At l1 body r1) (Frame l a r :: u))) eqn:Et;
    try (intros x H; destruct (Hsome _ _ eq_refl H) as (y & _ & K & _); rewrite kind_type in K; destruct body as [b ?]; cbn in Et, K; rewrite Et in K; destruct K; discriminate).
  - assert (Kb : kind_of body = a_list) by (rewrite kind_type; destruct body as [b ?]; cbn in Et |- *; now rewrite Et).
    rewrite Kb in Hsome, Hmake. pose proof (Hl body Hb l1 r1 (Frame l a r :: u)) as L. unfold bind.
    destruct (rl _) as [vs d|e d| | |]; try contradiction.
    + destruct L as [-> L]. split; [exact (upon_exit l (Node a cs) r u 1 _ U1)|]. intros x. split.
      * intros H. destruct (Hsome _ _ eq_refl H) as (y & -> & _ & K). apply L in K as ->. reflexivity.
      * intros ->. apply (Hmake (show (IBrackets None vs))); auto. now apply L.
    + intros x H. destruct (Hsome _ _ eq_refl H) as (y & -> & _ & K). eapply L; eauto.
  - assert (Kb : kind_of body = a_map) by (rewrite kind_type; destruct body as [b ?]; cbn in Et |- *; now rewrite Et).
    rewrite Kb in Hsome, Hmake. pose proof (Hm body Hb l1 r1 (Frame l a r :: u)) as L. unfold bind.
    destruct (rm _) as [vs d|e d| | |]; try contradiction.
    + destruct L as [-> L]. split; [exact (upon_exit l (Node a cs) r u 1 _ U1)|]. intros x. split.
      * intros H. destruct (Hsome _ _ eq_refl H) as (y & -> & _ & K). apply L in K as ->. reflexivity.
      * intros ->. apply (Hmake (show (IBrackets None vs))); auto. now apply L.
    + intros x H. destruct (Hsome _ _ eq_refl H) as (y & -> & _ & K). eapply L; eauto.
Qed.
End Rec.

Lemma height_pos t : 1 <= height t.
Proof. destruct t. rewrite height_node. lia. Qed.
Lemma raw_does fuel : forall t, height t <= fuel ->
  ldoes a_list t (dumpList fd ff fuel) /\ ldoes a_map t (dumpMap fd ff fuel) /\ does a_described t (dumpDescribed fd ff fuel).
Proof.
  induction fuel as [|fuel IH]; intros t Ht; [pose proof (height_pos t); lia|].
  rewrite list_S, map_S, described_S. repeat split.
  - apply list_does with (n := fuel); auto; intros; now apply IH.
  - apply map_does with (n := fuel); auto; intros; now apply IH.
  - apply described_does with (n := fuel); auto; intros; now apply IH.
Qed.

(** The whole. *)
Lemma ulong_read d : readAndNext_ulong d = Ok (pn_get_ulong d) (pn_next d).
Proof. reflexivity. Qed.
Lemma dumpData_cases fuel t : height t <= fuel ->
  match dumpData fd ff fuel (decoded t) with
  | Ok x d => d = decoded t /\ forall y, (exists p, in_envelope t p /\ rs a_described p y) <-> y = x
  | Throw e d => tree_atom t = ADescribed /\ keyed t /\ forall p y, in_envelope t p -> ~ rs a_described p y
  | Abort => tree_atom t = ADescribed /\ ~ keyed t
  | UB => tree_atom t <> ADescribed
  | Fuel => False
  end.
Proof.
  intros Hh. unfold dumpData, decoded. destruct t as [a cs].
  destruct (is_described (Data (At [] (Node a cs) []) [])) eqn:Ed.
  2:{ cbn. intros ->. discriminate Ed. }
  assert (a = ADescribed) by (destruct a; try discriminate Ed; reflexivity). subst a. clear Ed.
  unfold attest_is_described at 1, require, is_type. cbn [pn_dtype here cur_atom atom_type pn_type_eqb].
  pose proof (upon_enter [] ADescribed cs [] []) as U0. set (u := [Frame [] ADescribed []]) in *.
  unfold bind at 1. change (pn_type_eqb (pn_dtype (Data (At [] (Node ADescribed cs) []) [])) TDescribed) with true. cbn iota.
  unfold bind at 1. unfold auto_enter at 1, finally. rewrite ulong_read.
  set (d0 := w_enter _) in *.
  rewrite (upon_exit [] (Node ADescribed cs) [] [] 1 _ (upon_next _ _ _ _ U0)).
  unfold bind at 1.
  assert (Hkey : keyed (Node ADescribed cs) <-> N.eqb (stripCorda (pn_get_ulong d0)) ENVELOPE = true).
  { rewrite stripCorda_mod, N.eqb_eq. unfold keyed, part_is. rewrite <- (upon_view _ _ _ _ U0). split.
    - intros (k & V & n & En & Hn). apply view_some in V as (l & r & u' & E). rewrite E. destruct k. cbn in *. subst. exact Hn.
    - intros H. clearbody d0. destruct d0 as [[ts|l k r] u']; [vm_compute in H; discriminate H|]. exists k. split; [reflexivity|]. destruct k as [[] ?]; try (vm_compute in H; discriminate H); exists n; split; [reflexivity|exact H].
  }
  destruct (N.eqb _ _) eqn:EK.
  2:{ split; [reflexivity|]. intros K. apply Hkey in K. discriminate. }
  assert (K : keyed (Node ADescribed cs)) by now apply Hkey. clear Hkey EK.
  change (auto_enter true ?m (Data (At [] (Node ADescribed cs) []) [])) with (finally m pn_exit (pn_next d0)).
  pose proof (upon_next _ _ _ _ U0) as U1. set (d1 := pn_next d0) in *. clearbody d1. clear U0 d0. unfold finally at 1. unfold bind at 1.
  assert (Hb : exists body, part 1 (Node ADescribed cs) = Some body).
  { destruct K as (k & K & _). unfold part in *. cbn [tree_children] in *. destruct cs as [|c0 cs]; [destruct (Nat.min 0 _) in K; discriminate K|].
    destruct (nth_error (c0 :: cs) (Nat.min 1 (length (c0 :: cs) - 1))) eqn:E; [eauto|]. apply nth_error_None in E. cbn [length] in E. lia. }
  destruct Hb as (body & P1). destruct (upon_at _ _ _ _ _ U1 P1) as (l1 & r1 & ->).
  assert (Hin : forall p, in_envelope (Node ADescribed cs) p <-> tree_atom body = AList /\ part 0 body = Some p /\ tree_atom p = ADescribed).
  { intros p. split.
    - intros (_ & _ & b & Pb & H). assert (b = body) by congruence. subst b. exact H.
    - intros H. split; [reflexivity|]. split; [exact K|]. eauto. }
  unfold attest_is_list, require, is_type. destruct body as [b bs].
  destruct (pn_type_eqb (pn_dtype (Data (At l1 (Node b bs) r1) u)) TList) eqn:El.
  2:{ split; [reflexivity|]. split; [exact K|]. intros p y Hp. apply Hin in Hp as (Eb & _). cbn in Eb. subst b. discriminate El. }
  assert (b = AList) by (destruct b; try discriminate El; reflexivity). subst b. clear El.
  unfold auto_list_enter, finally. change (pn_next (pn_enter ?d)) with (w_enter d).
  pose proof (upon_enter l1 AList bs r1 u) as U2. set (d2 := w_enter _) in *. clearbody d2.
  unfold bind at 1. unfold attest_is_described, require, is_type.
  destruct (pn_type_eqb (pn_dtype d2) TDescribed) eqn:E2.
  2:{ split; [reflexivity|]. split; [exact K|]. intros p y Hp. apply Hin in Hp as (_ & P0 & Ep). destruct (upon_at _ _ _ _ _ U2 P0) as (? & ? & ->). destruct p. cbn in Ep. subst. discriminate E2. }
  assert (Hp : exists p, part 0 (Node AList bs) = Some p /\ tree_atom p = ADescribed).
  { rewrite <- (upon_view _ _ _ _ U2). destruct d2 as [[ts|l p r] u2]; [discriminate E2|]. exists p. split; [reflexivity|]. destruct p as [[] ?]; try discriminate E2; reflexivity. }
  destruct Hp as (p & P0 & Ep). destruct (upon_at _ _ _ _ _ U2 P0) as (l2 & r2 & ->).
  assert (Hph : height p <= fuel).
  { pose proof (part_depth 1 (Node ADescribed cs)) as D1. rewrite P1 in D1. pose proof (part_depth 0 (Node AList bs)) as D0. rewrite P0 in D0. cbn [depth] in *. lia. }
  destruct (raw_does fuel p Hph) as (_ & _ & R). specialize (R l2 r2 (Frame l1 AList r1 :: u)). unfold bind.
  destruct (dumpDescribed fd ff fuel _) as [v d|e d| | |]; try contradiction.
  - destruct R as [-> R]. unfold ret. rewrite (upon_exit l1 (Node AList bs) r1 u 0 _ U2). rewrite (upon_exit [] (Node ADescribed cs) [] [] 1 _ U1). split; [reflexivity|].
    intros y. split.
    + intros (p' & H1 & H2). apply Hin in H1 as (_ & H1 & _). assert (p' = p) by congruence. subst p'. now apply R.
    + intros ->. exists p. split; [apply Hin; auto|]. now apply R.
  - split; [reflexivity|]. split; [exact K|]. intros p' y H1 H2. apply Hin in H1 as (_ & H1 & _). assert (p' = p) by congruence. subst p'. eapply R; eauto.
Qed.
End Exact.
