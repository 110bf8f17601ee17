(** What dumping the data of a blob writes on the way is what SpecOutput.v says. *)
From Coq Require Import Lia.
From Verif Require Import Base Proton ProtonProofs TypeNames Schema SpecSchema Descriptors DescriptorsProofs Factory SpecFactory FactoryProofs Readers SpecReaders
  Blob ReadersProofs InspectProofs RawProofs SpecAccept AcceptProofs SpecSchemaDump SpecDisplay SpecInstalled DisplayProofs SpecRaw RawShowProofs SpecParse SpecFate FateProofs
  SchemaDump CordaFile Tools Output SpecOutput.
Import List ListNotations.
Open Scope string_scope.

Lemma append_assoc3 (a b c : string) : (a ++ b) ++ c = a ++ b ++ c.
Proof. induction a as [|x a IH]; cbn; [reflexivity|now rewrite IH]. Qed.
Lemma append_nil (a : string) : a ++ "" = a.
Proof. induction a as [|x a IH]; cbn; [reflexivity|now rewrite IH]. Qed.

Lemma append_length (a b : string) : String.length (a ++ b) = String.length a + String.length b.
Proof. induction a as [|x a IH]; cbn; [reflexivity|now rewrite IH]. Qed.

Lemma longer c (a b : string) : String c a ++ b <> b.
Proof. intros H. apply (f_equal String.length) in H. rewrite append_length in H. cbn in H. lia. Qed.

(** ** Among the parts of a node, and at one place *)
Definition tells {A B} (p : tree) (k : nat) (u : list frame) (R : A -> B -> Prop) (out : string) (o : outcome (data * string) A) (h : heard B) : Prop :=
  match snd h with
  | Gives b => exists a d, o = Ok a (d, out ++ fst h) /\ upon p k u d /\ R a b
  | Raises e => exists d, o = Throw e (d, out ++ fst h) /\ among p u d
  | Stops => o = Abort
  | Wild => o = UB
  end.
Definition keeps {A B} (d : data) (R : A -> B -> Prop) (out : string) (o : outcome (data * string) A) (h : heard B) : Prop :=
  match snd h with
  | Gives b => exists a, o = Ok a (d, out ++ fst h) /\ R a b
  | Raises e => o = Throw e (d, out ++ fst h)
  | Stops => o = Abort
  | Wild => o = UB
  end.
Lemma tells_bind {A B A' B'} p k k' u (R : A -> B -> Prop) (R' : A' -> B' -> Prop) (m : OM A) f d out h g : tells p k u R out (m (d, out)) h ->
  (forall a b d' out', upon p k u d' -> R a b -> tells p k' u R' out' (f a (d', out')) (g b)) -> tells p k' u R' out (bind m f (d, out)) (and_then h g).
Proof.
  intros H K. unfold bind, tells, and_then in *. destruct h as [s [b|e| |]]; cbn [fst snd] in *.
  - destruct H as (a & d' & -> & H & HR). specialize (K a b d' (out ++ s) H HR). unfold tells in K. rewrite append_assoc3 in K. exact K.
  - destruct H as (d' & -> & H). eauto.
  - now rewrite H.
  - now rewrite H.
Qed.
Lemma keeps_bind {A B A' B'} d (R : A -> B -> Prop) (R' : A' -> B' -> Prop) (m : OM A) f out h g : keeps d R out (m (d, out)) h ->
  (forall a b out', R a b -> keeps d R' out' (f a (d, out')) (g b)) -> keeps d R' out (bind m f (d, out)) (and_then h g).
Proof.
  intros H K. unfold bind, keeps, and_then in *. destruct h as [s [b|e| |]]; cbn [fst snd] in *.
  - destruct H as (a & -> & HR). specialize (K a b (out ++ s) HR). unfold keeps in K. rewrite append_assoc3 in K. exact K.
  - now rewrite H.
  - now rewrite H.
  - now rewrite H.
Qed.
Lemma keeps_tells_bind {A B A' B'} p k' u d (R : A -> B -> Prop) (R' : A' -> B' -> Prop) (m : OM A) f out h g : among p u d -> keeps d R out (m (d, out)) h ->
  (forall a b out', R a b -> tells p k' u R' out' (f a (d, out')) (g b)) -> tells p k' u R' out (bind m f (d, out)) (and_then h g).
Proof.
  intros O H K. unfold bind, tells, keeps, and_then in *. destruct h as [s [b|e| |]]; cbn [fst snd] in *.
  - destruct H as (a & -> & HR). specialize (K a b (out ++ s) HR). unfold tells in K. rewrite append_assoc3 in K. exact K.
  - rewrite H. eauto.
  - now rewrite H.
  - now rewrite H.
Qed.
Lemma tells_keeps {A B} p k u d (R : A -> B -> Prop) out o h : upon p k u d -> keeps d R out o h -> tells p k u R out o h.
Proof.
  intros H L. unfold tells, keeps in *. destruct (snd h) as [b|e| |]; auto.
  - destruct L as (a & -> & HR). eauto 6.
  - rewrite L. exists d. eauto using upon_among.
Qed.
Lemma silent_tells {A B} p k u d (R : A -> B -> Prop) (m : PM A) out r : comes p k u R (m d) r -> tells p k u R out (silently m (d, out)) (silent r).
Proof.
  unfold silently, tells, silent, comes. cbn [fst snd]. rewrite append_nil. destruct r as [b|e| |].
  - intros (a & d' & -> & H). eauto.
  - intros (d' & -> & H). eauto.
  - now intros ->.
  - now intros ->.
Qed.
Lemma silent_keeps {A B} d (R : A -> B -> Prop) (m : PM A) out r : leaves d R (m d) r -> keeps d R out (silently m (d, out)) (silent r).
Proof.
  unfold silently, keeps, silent, leaves. cbn [fst snd]. rewrite append_nil. destruct r as [b|e| |].
  - intros (a & -> & H). eauto.
  - now intros ->.
  - now intros ->.
  - now intros ->.
Qed.
Lemma ret_keeps {A B} d (R : A -> B -> Prop) a b out : R a b -> keeps d R out (ret a (d, out)) (silent (Gives b)).
Proof. intros H. unfold keeps, ret. cbn. rewrite append_nil. eauto. Qed.
Lemma cout_keeps d s out : keeps d eq out (cout s (d, out)) (s, Gives tt).
Proof. unfold keeps, cout. cbn. eauto. Qed.
Lemma enter_keeps {A B} (R : A -> B -> Prop) (m : OM A) l t r u out h :
  (forall d0, upon t 0 (Frame l (tree_atom t) r :: u) d0 -> exists k, tells t k (Frame l (tree_atom t) r :: u) R out (m (d0, out)) h) ->
  keeps (Data (At l t r) u) R out (auto_enter_said false m (Data (At l t r) u, out)) h.
Proof.
  intros H. destruct t as [a cs]. destruct (H _ (upon_enter l a cs r u)) as (k & H'). clear H. rename H' into H. unfold auto_enter_said, finally, tells, keeps in *.
  destruct (snd h) as [b|e| |].
  - destruct H as (y & d & -> & O & HR). exists y. split; [|exact HR]. unfold moving. do 2 f_equal. now apply (upon_exit l (Node a cs) r u k).
  - destruct H as (d & -> & O). unfold moving. do 2 f_equal. now apply (exit_among l a cs r u).
  - now rewrite H.
  - now rewrite H.
Qed.
Lemma enter_next_keeps {A B} (R : A -> B -> Prop) (m : OM A) l t r u out h :
  (forall d0, upon t 1 (Frame l (tree_atom t) r :: u) d0 -> exists k, tells t k (Frame l (tree_atom t) r :: u) R out (m (d0, out)) h) ->
  keeps (Data (At l t r) u) R out (auto_enter_said true m (Data (At l t r) u, out)) h.
Proof.
  intros H. destruct t as [a cs]. destruct (H _ (upon_next _ _ _ _ (upon_enter l a cs r u))) as (k & H'). clear H. rename H' into H. unfold auto_enter_said, finally, tells, keeps in *.
  destruct (snd h) as [b|e| |].
  - destruct H as (y & d & -> & O & HR). exists y. split; [|exact HR]. unfold moving. do 2 f_equal. now apply (upon_exit l (Node a cs) r u k).
  - destruct H as (d & -> & O). unfold moving. do 2 f_equal. now apply (exit_among l a cs r u).
  - now rewrite H.
  - now rewrite H.
Qed.
Lemma list_enter_keeps {A B} (R : A -> B -> Prop) (m : nat -> OM A) l t r u out h :
  (forall d0, upon t 0 (Frame l (tree_atom t) r :: u) d0 -> exists k, tells t k (Frame l (tree_atom t) r :: u) R out (m (length (elements t)) (d0, out)) h) ->
  keeps (Data (At l t r) u) R out (auto_list_enter_said true m (Data (At l t r) u, out)) h.
Proof.
  intros H. pose proof (enter_keeps R (m (length (elements t))) l t r u out h H) as E. unfold auto_enter_said in E. unfold auto_list_enter_said.
  replace (pn_get_list (Data (At l t r) u)) with (length (elements t)) by (destruct t as [[] cs]; reflexivity). exact E.
Qed.
Lemma map_enter_keeps {A B} (R : A -> B -> Prop) (m : nat -> OM A) l t r u out h :
  (forall d0, upon t 0 (Frame l (tree_atom t) r :: u) d0 -> exists k, tells t k (Frame l (tree_atom t) r :: u) R out (m (pieces t) (d0, out)) h) ->
  keeps (Data (At l t r) u) R out (auto_map_enter_said true m (Data (At l t r) u, out)) h.
Proof.
  intros H. pose proof (enter_keeps R (m (pieces t)) l t r u out h H) as E. unfold auto_enter_said in E. unfold auto_map_enter_said.
  replace (pn_get_map (Data (At l t r) u)) with (pieces t) by (destruct t as [[] cs]; reflexivity). exact E.
Qed.

Lemma in_turn_some {A B} (f : A -> heard B) a l s xs : in_turn f (a :: l) = (s, Gives xs) -> xs <> [].
Proof.
  cbn [in_turn]. unfold and_then, silent. destruct (f a) as [s0 [b|e| |]]; cbn [fst snd]; try discriminate.
  destruct (in_turn f l) as [s1 [bs|e| |]]; cbn [fst snd]; try discriminate. intros H ->. discriminate H.
Qed.

Section Exact.
Context (bf wf : string) (tn : pn_type -> string) (tnum : pn_type -> Z) (fd ff : N -> string).
Notation dumped' := (dumped bf wf tn tnum fd ff dec).

Lemma DBG_keeps file n s text d out : dec n = s -> keeps d eq out (DBG file n text (d, out)) (from file s text).
Proof.
  intros <-. unfold DBG, from, line, cout, keeps. cbn [fst snd]. exists tt. split; [|reflexivity]. do 2 f_equal. unfold endl, newline. now rewrite !append_assoc3.
Qed.
Definition shows (v : ivalue) (x : string) : Prop := show v = x.
Definition lists (vs : list ivalue) (x : string) : Prop := show (IBrackets None vs) = x.
Definition does' (n : nat) (k : kind) (t : tree) (m : OM ivalue) : Prop := forall l r u out,
  keeps (Data (At l t r) u) shows out (m (Data (At l t r) u, out)) (dumped' n k t).
Definition ldoes' (n : nat) (k : kind) (t : tree) (m : OM (list ivalue)) : Prop := forall l r u out,
  keeps (Data (At l t r) u) lists out (m (Data (At l t r) u, out)) (dumped' n k t).

Lemma primitive_keeps n t : 1 <= n -> does' n a_single t (silently (dumpPrimitive fd ff)).
Proof.
  intros H l r u out. destruct n as [|n]; [lia|]. cbn [dumped]. apply silent_keeps. destruct t as [a cs]. destruct a; eexists; (split; [reflexivity|reflexivity]).
Qed.

Section Rec.
Context (rl rm : OM (list ivalue)) (rd : OM ivalue) (n : nat).
Hypothesis Hl : forall t, height t <= n -> ldoes' n a_list t rl.
Hypothesis Hm : forall t, height t <= n -> ldoes' n a_map t rm.
Hypothesis Hd : forall t, height t <= n -> does' n a_described t rd.

Lemma and_then_silent {A} (h : heard A) : and_then h (fun x => silent (Gives x)) = h.
Proof. destruct h as [s []]; cbn; rewrite ?append_nil; reflexivity. Qed.
Lemma brackets_keeps k t m : ldoes' n k t m -> does' n k t (let! l := m in ret (IBrackets None l)).
Proof.
  intros H l r u out. rewrite <- (and_then_silent (dumped' n k t)). eapply keeps_bind; [apply H|]. intros a b out' Hab. now apply ret_keeps.
Qed.
Lemma by_type_keeps ty t : height t <= n -> does' n (kind_of_type ty) t (dump_by_type_said fd ff rl rm rd ty).
Proof.
  intros H. pose proof (height_pos t). assert (1 <= n) by lia. destruct ty; cbn [kind_of_type dump_by_type_said]; auto using brackets_keeps, primitive_keeps.
Qed.

(** Lists. *)
Definition texts (vs : list ivalue) (xs : list string) : Prop := vs <> [] /\ map show vs = xs.
Lemma loop_keeps t0 u : forall m l c r out, length r < m -> (rev l ++ c :: r)%list = tree_children t0 -> (forall t, In t (c :: r) -> height t <= n) ->
  tells t0 (length (tree_children t0) - 1) u texts out (list_loop_said fd ff rl rm rd m (Data (At l c r) u, out)) (in_turn (fun p => dumped' n (kind_of p) p) (c :: r)).
Proof.
  induction m as [|m IH]; intros l c r out Hr Hc Hh; [lia|]. cbn [list_loop_said in_turn fst].
  assert (Ha : among t0 u (Data (At l c r) u)) by (split; [cbn; now rewrite rev_append_rev|reflexivity]).
  eapply keeps_tells_bind; [exact Ha| |].
  - replace (kind_of c) with (kind_of_type (pn_dtype (Data (At l c r) u))) by (rewrite kind_type; destruct c; reflexivity).
    apply by_type_keeps. apply Hh. now left.
  - intros v x out' Hv. cbn [fst]. destruct r as [|c' r]; cbn [pn_next_ok here].
    + cbn [in_turn]. unfold tells. cbn. rewrite append_nil. exists [v], (Data (At l c []) u). split; [reflexivity|]. split.
      * left. exists l, c, []. split; [reflexivity|]. split; [exact Hc|]. rewrite <- Hc, app_length, rev_length. cbn. lia.
      * split; [discriminate|]. cbn. now rewrite Hv.
    + cbn [moving pn_next here ups]. eapply tells_bind.
      * apply (IH (c :: l) c' r out'); [cbn in Hr; lia|cbn [rev]; rewrite <- app_assoc; exact Hc|intros; apply Hh; now right].
      * intros vs xs d' out'' Hd' [_ Hvs]. eapply tells_keeps; [exact Hd'|]. apply ret_keeps. split; [discriminate|]. cbn. now rewrite Hv, Hvs.
Qed.
Lemma list_keeps t : height t <= S n -> ldoes' (S n) a_list t (dumpList_said_ wf fd ff rl rm rd).
Proof.
  intros Hh l r u out. unfold dumpList_said_, attest_is_list_said. cbn [dumped]. destruct t as [a cs]. cbn [tree_atom tree_children].
  destruct (pn_type_eqb (atom_type a) TList) eqn:E.
  2:{ replace (match a with AList => _ | _ => _ end) with (@silent string (Raises RuntimeError)) by (destruct a; try discriminate E; reflexivity).
      unfold bind, keeps, silently, attest_is_list, require, is_type. cbn [pn_dtype cur_atom here snd fst silent]. cbn. rewrite E, append_nil. reflexivity. }
  assert (a = AList) by (destruct a; try discriminate E; reflexivity). subst a. clear E.
  eapply keeps_bind.
  { unfold bind, silently, attest_is_list, require, is_type. cbn [pn_dtype cur_atom here atom_type pn_type_eqb]. apply DBG_keeps. reflexivity. }
  intros _ _ out' _. apply list_enter_keeps. intros d0 O0. exists (length cs - 1). cbn [tree_atom] in *.
  destruct O0 as [(l0 & c & r0 & -> & Hc & Hl0)|[Hc ->]]; cbn [tree_children] in Hc.
  - destruct l0 as [|? l0]; [|cbn in Hl0; lia]. cbn in Hc. subst cs. cbn [fst]. unfold is_type.
    replace (pn_type_eqb (pn_dtype (Data (At [] c r0) (Frame l AList r :: u))) TInvalid) with false by (destruct c as [[] ?]; reflexivity).
    cbn [siblings rev_append here].
    pose proof (loop_keeps (Node AList (c :: r0)) (Frame l AList r :: u) (length (c :: r0)) [] c r0 out') as L. cbn [tree_children] in L.
    specialize (L ltac:(cbn; lia) eq_refl). unfold tells in L |- *.
    assert (Hc : forall t, In t (c :: r0) -> height t <= n). { intros t Ht. apply heights_in in Ht. rewrite height_node in Hh. lia. }
    specialize (L Hc). unfold and_then, silent. destruct (in_turn _ _) as [s [xs|e| |]]; cbn [fst snd] in *; auto.
    destruct L as (vs & d & -> & Hd' & N & Hx). exists vs, d. rewrite append_nil. split; [reflexivity|]. split; [exact Hd'|]. unfold lists. rewrite show_list by exact N. now rewrite Hx.
  - subst cs. cbn. unfold tells, and_then. cbn. rewrite append_nil. eexists _, _. split; [reflexivity|]. split; [right; split; reflexivity|]. reflexivity.
Qed.

(** Maps. *)
Lemma type_keeps p k u d t out : upon p k u d -> part k p = Some t ->
  tells p (S k) u (fun ty t' => ty = atom_type (tree_atom t') /\ t' = t) out (silently type_and_next (d, out)) (silent (Gives t)).
Proof.
  intros H P. destruct (upon_at _ _ _ _ _ H P) as (l & r & E). unfold tells, silently, type_and_next, silent. cbn [fst snd]. rewrite append_nil.
  eexists _, _. split; [reflexivity|]. split; [now apply upon_next|]. subst d. destruct t; split; reflexivity.
Qed.
Definition entry_heard (t : tree) (i : nat) : heard string :=
  match part (3 * i) t, part (3 * i + 1) t, part (3 * i + 2) t with
  | Some a, Some b, Some c =>
      let^ _ := type_line bf tn tnum dec "179" a in
      let^ x := dumped' n (kind_of a) b in
      let^ _ := type_line bf tn tnum dec "188" b in
      let^ y := dumped' n (kind_of b) c in
      silent (Gives (x ++ " : " ++ y))
  | _, _, _ => silent Wild
  end.
Lemma silent_then {A B} (a : A) (g : A -> heard B) : and_then (silent (Gives a)) g = g a.
Proof. unfold and_then, silent. cbn. destruct (g a). reflexivity. Qed.
Lemma part_height k t p : part k t = Some p -> height p < height t.
Proof. intros E. pose proof (part_depth k t) as D. rewrite E in D. exact D. Qed.
Lemma part_more k j t p : part k t = Some p -> exists q, part j t = Some q.
Proof.
  unfold part. destruct (tree_children t) as [|c cs]; [destruct (Nat.min k _); discriminate|]. intros _.
  destruct (nth_error (c :: cs) (Nat.min j (length (c :: cs) - 1))) eqn:E; [eauto|]. apply nth_error_None in E. cbn [length] in E. lia.
Qed.
Lemma entry_keeps t u i d out : height t <= S n -> upon t (3 * i) u d -> tree_children t <> [] ->
  tells t (3 * S i) u shows out (dump_raw_entry_said bf tn tnum fd ff rl rm rd (d, out)) (entry_heard t i).
Proof.
  intros Hh Ho Hne. unfold entry_heard, dump_raw_entry_said.
  assert (Pa : exists a, part (3 * i) t = Some a).
  { destruct (tree_children t) as [|c cs] eqn:E; [congruence|]. apply (part_more 0 _ _ c). unfold part. rewrite E. reflexivity. }
  destruct Pa as (a & Pa). destruct (part_more _ (3 * i + 1) _ _ Pa) as (b & Pb). destruct (part_more _ (3 * i + 2) _ _ Pa) as (c & Pc).
  rewrite Pa, Pb, Pc. rewrite <- (silent_then a (fun _ => and_then _ _)).
  eapply tells_bind; [apply type_keeps; eassumption|]. intros ty t' d1 out1 O1 [-> ->].
  eapply tells_bind; [eapply tells_keeps; [exact O1|]; apply DBG_keeps; reflexivity|]. intros _ _ d2 out2 O2 _.
  replace (3 * i + 1) with (S (3 * i)) in Pb by lia. destruct (upon_at _ _ _ _ _ O2 Pb) as (l & r & ->).
  eapply tells_bind; [eapply tells_keeps; [exact O2|]; rewrite kind_type; apply by_type_keeps; apply part_height in Pb; lia|].
  clear l r O2 O1. intros v x d2 out3 O2 Hv.
  rewrite <- (silent_then b (fun _ => and_then _ _)).
  eapply tells_bind; [apply type_keeps; eassumption|]. intros ty t' d4 out4 O1 [-> ->].
  eapply tells_bind; [eapply tells_keeps; [exact O1|]; apply DBG_keeps; reflexivity|]. intros _ _ d3 out5 O3 _.
  replace (3 * i + 2) with (S (S (3 * i))) in Pc by lia. destruct (upon_at _ _ _ _ _ O3 Pc) as (l & r & ->).
  eapply tells_bind; [eapply tells_keeps; [exact O3|]; rewrite kind_type; apply by_type_keeps; apply part_height in Pc; lia|].
  clear l r O3 O1. intros w y d3 out6 O3 Hw. unfold bind, silently, next_, ret, tells, silent. cbn [fst snd]. rewrite append_nil.
  eexists _, _. split; [reflexivity|]. split; [|unfold shows in *; cbn [show]; now rewrite Hv, Hw].
  replace (3 * S i) with (S (S (S (3 * i)))) by lia. now apply upon_next.
Qed.
Lemma map_loop_keeps t u : height t <= S n -> tree_children t <> [] -> forall k m i d out, m <= k -> upon t (3 * i) u d ->
  tells t (3 * (i + Nat.div2 (S m))) u (fun vs xs => map show vs = xs) out (map_loop_said bf tn tnum fd ff rl rm rd m (d, out)) (in_turn (entry_heard t) (seq i (Nat.div2 (S m)))).
Proof.
  intros Hh Hne. induction k as [|k IH]; intros m i d out Hk Ho.
  { destruct m; [|lia]. eapply tells_keeps; [cbn [Nat.div2]; rewrite Nat.add_0_r; exact Ho|]. apply ret_keeps. reflexivity. }
  destruct m as [|m]; [apply (IH 0 i d); [lia|exact Ho]|].
  cbn [map_loop_said].
  assert (Es : Nat.div2 (S (S m)) = S (Nat.div2 (S (pred m)))) by (destruct m; reflexivity). rewrite Es. cbn [in_turn seq].
  eapply tells_bind; [apply entry_keeps; eassumption|]. intros v x d1 out1 O1 Hv.
  replace (i + S (Nat.div2 (S (pred m)))) with (S i + Nat.div2 (S (pred m))) by lia.
  eapply tells_bind; [apply IH; [lia|exact O1]|]. intros vs xs d2 out2 O2 Hvs.
  eapply tells_keeps; [exact O2|]. apply ret_keeps. cbn. now rewrite Hv, Hvs.
Qed.
Lemma map_keeps t : height t <= S n -> ldoes' (S n) a_map t (dumpMap_said_ bf tn tnum fd ff rl rm rd).
Proof.
  intros Hh l r u out. unfold dumpMap_said_. cbn [dumped]. destruct t as [a cs]. cbn [tree_atom].
  destruct (pn_type_eqb (atom_type a) TMap) eqn:E.
  2:{ replace (match a with AMap => _ | _ => _ end) with (@silent string (Raises RuntimeError)) by (destruct a; try discriminate E; reflexivity).
      unfold bind, keeps, silently, is_map, require, is_type. cbn. rewrite E, append_nil. reflexivity. }
  assert (Ea : a = AMap) by (destruct a; try discriminate E; reflexivity). clear E. subst a.
  match goal with |- keeps _ _ _ _ ?h => rewrite <- (silent_then tt (fun _ => h)) end. eapply (keeps_bind _ eq).
  { apply silent_keeps. cbn. eauto. }
  intros q q' out' Hq. clear q q' Hq. cbv beta. apply map_enter_keeps. intros d0 O0. cbn [tree_atom] in *.
  destruct cs as [|c cs]; [exists 0|exists (3 * entries (Node AMap (c :: cs)))].
  - destruct O0 as [(l0 & c & r0 & -> & Hc & Hl0)|[Hc ->]]; [exfalso; cbn in Hc; destruct (rev l0); discriminate Hc|].
    cbn. unfold tells, and_then. cbn. rewrite append_nil. eexists _, _. split; [reflexivity|]. split; [right; split; reflexivity|]. reflexivity.
  - destruct (upon_at _ _ _ _ c O0 eq_refl) as (l0 & r0 & E0). rewrite E0 in O0 |- *. cbn [fst]. unfold is_type.
    replace (pn_type_eqb (pn_dtype (Data (At l0 c r0) (Frame l AMap r :: u))) TInvalid) with false by (destruct c as [[] ?]; reflexivity).
    replace (Nat.eqb (entries (Node AMap (c :: cs))) 0) with false by reflexivity.
    eapply tells_bind; [eapply tells_keeps; [exact O0|]; apply DBG_keeps; reflexivity|]. intros _ _ d1 out1 O1 _.
    fold (entry_heard (Node AMap (c :: cs))).
    pose proof (map_loop_keeps (Node AMap (c :: cs)) (Frame l AMap r :: u) Hh ltac:(discriminate) _ (pieces (Node AMap (c :: cs))) 0 d1 out1 (le_n _) O1) as L.
    assert (Ee : Nat.div2 (S (pieces (Node AMap (c :: cs)))) = entries (Node AMap (c :: cs))) by reflexivity.
    rewrite Ee in L.
    assert (Hpos : entries (Node AMap (c :: cs)) <> 0) by discriminate.
    match goal with |- tells _ _ _ _ _ _ (and_then ?h _) => change h with (in_turn (entry_heard (Node AMap (c :: cs))) (seq 0 (entries (Node AMap (c :: cs))))) end.
    unfold tells in L |- *. unfold and_then, silent.
    assert (Hn : forall s xs, in_turn (entry_heard (Node AMap (c :: cs))) (seq 0 (entries (Node AMap (c :: cs)))) = (s, Gives xs) -> xs <> []).
    { intros s xs. destruct (entries (Node AMap (c :: cs))); [congruence|]. cbn [seq]. apply in_turn_some. }
    destruct (in_turn _ _) as [s [xs|e| |]] eqn:Ex; cbn [fst snd] in *; auto.
    destruct L as (vs & d & -> & Hd' & Hx). exists vs, d. rewrite append_nil. split; [reflexivity|]. split; [exact Hd'|].
    specialize (Hn _ _ eq_refl). unfold lists. subst xs. destruct vs; [now elim Hn|]. cbn [show labelled]. rewrite commas_concat. reflexivity.
Qed.

(** Described values. *)
Lemma described_keeps t : height t <= S n -> does' (S n) a_described t (dumpDescribed_said_ bf rl rm).
Proof.
  intros Hh l r u out. unfold dumpDescribed_said_. cbn [dumped].
  eapply keeps_bind; [apply DBG_keeps; reflexivity|]. intros _ _ out1 _.
  apply enter_keeps. intros d0 O0. exists 1. unfold readAndNext_string_said.
  assert (S0 : tells t 1 (Frame l (tree_atom t) r :: u) eq out1 ((cout ("STRING" ++ endl) ;; silently (readAndNext_string false)) (d0, out1))
                 (and_then (line "STRING") (fun _ => silent (of_ending (name_of (part 0 t)))))).
  { eapply tells_bind; [eapply tells_keeps; [exact O0|]; apply cout_keeps|]. intros _ _ d1 out2 O1 _. apply silent_tells. now apply name_comes. }
  assert (As : forall A B C (h : heard A) (f : A -> heard B) (g : B -> heard C), and_then h (fun a => and_then (f a) g) = and_then (and_then h f) g).
  { intros A B C [s [a|e| |]] f g; unfold and_then; cbn [fst snd]; try reflexivity. destruct (f a) as [s' [b|e| |]]; cbn [fst snd]; try reflexivity. now rewrite append_assoc3. }
  rewrite As. eapply tells_bind; [exact S0|]. clear S0. intros fp fp' d1 out2 O1 <-.
  eapply tells_bind; [eapply tells_keeps; [exact O1|]; apply DBG_keeps; reflexivity|]. clear d1 O1. intros _ _ d1 out3 O1 _.
  cbn [fst]. destruct (upon_cases _ _ _ _ O1) as [(l1 & body & r1 & -> & ->)|[-> ->]].
  2:{ cbn. unfold tells, silent. cbn. rewrite append_nil. eexists. split; [reflexivity|]. eapply upon_among; eauto. }
  assert (P1 : part 1 t = Some body) by (rewrite <- (upon_view _ _ _ _ O1); reflexivity). apply part_height in P1.
  eapply tells_keeps; [exact O1|]. clear O1.
  assert (F : forall m k, ldoes' n k body m -> keeps (Data (At l1 body r1) (Frame l (tree_atom t) r :: u)) shows out3 ((let! l2 := m in ret (IBrackets (Some fp) l2)) (Data (At l1 body r1) (Frame l (tree_atom t) r :: u), out3)) (let^ x := dumped' n k body in silent (Gives (fp ++ " : " ++ x)))).
  { intros m k Hk. eapply keeps_bind; [apply Hk|]. intros vs x out4 Hx. apply ret_keeps. unfold shows, lists in *. subst x. reflexivity. }
  destruct body as [b bs]. rewrite kind_type. cbn [tree_atom pn_dtype cur_atom here].
  destruct b; cbn [atom_type kind_of_type]; try (unfold keeps, silent; cbn; rewrite append_nil; reflexivity); apply F; [apply Hl|apply Hm]; lia.
Qed.
End Rec.

Lemma said_S n : dumpList_said bf wf tn tnum fd ff (S n) = dumpList_said_ wf fd ff (dumpList_said bf wf tn tnum fd ff n) (dumpMap_said bf wf tn tnum fd ff n) (dumpDescribed_said bf wf tn tnum fd ff n) /\
  dumpMap_said bf wf tn tnum fd ff (S n) = dumpMap_said_ bf tn tnum fd ff (dumpList_said bf wf tn tnum fd ff n) (dumpMap_said bf wf tn tnum fd ff n) (dumpDescribed_said bf wf tn tnum fd ff n) /\
  dumpDescribed_said bf wf tn tnum fd ff (S n) = dumpDescribed_said_ bf (dumpList_said bf wf tn tnum fd ff n) (dumpMap_said bf wf tn tnum fd ff n).
Proof. repeat split. Qed.
Lemma raw_keeps n : forall t, height t <= n ->
  ldoes' n a_list t (dumpList_said bf wf tn tnum fd ff n) /\ ldoes' n a_map t (dumpMap_said bf wf tn tnum fd ff n) /\ does' n a_described t (dumpDescribed_said bf wf tn tnum fd ff n).
Proof.
  induction n as [|n IH]; intros t Ht; [pose proof (height_pos t); lia|].
  destruct (said_S n) as (-> & -> & ->). repeat split.
  - apply list_keeps; auto; intros; now apply IH.
  - apply map_keeps; auto; intros; now apply IH.
  - apply described_keeps; auto; intros; now apply IH.
Qed.

(** ** The whole *)
Lemma key_keeps cs l r u out :
  keeps (Data (At l (Node ADescribed cs) r) u) (fun a b => a = b /\ b = (match part 0 (Node ADescribed cs) with Some (Node (AULong k) _) => k | _ => 0%N end)) out (silently (auto_enter false readAndNext_ulong) (Data (At l (Node ADescribed cs) r) u, out))
    (silent (Gives (match part 0 (Node ADescribed cs) with Some (Node (AULong k) _) => k | _ => 0%N end))).
Proof.
  apply silent_keeps. unfold leaves, auto_enter, finally. rewrite ulong_read. pose proof (upon_enter l ADescribed cs r u) as U.
  rewrite (upon_exit l (Node ADescribed cs) r u 1 _ (upon_next _ _ _ _ U)). eexists. split; [reflexivity|]. split; [|reflexivity].
  destruct (upon_cases _ _ _ _ U) as [(l1 & [a bs] & r1 & -> & ->)|[-> ->]]; [|reflexivity]. destruct a; reflexivity.
Qed.
Lemma dumpData_keeps fuel t out : height t <= fuel -> outputs t out (dumpData_said bf wf tn tnum fd ff fuel (decoded t, out)) (data_dump bf wf tn tnum fd ff dec fuel t).
Proof.
  intros Hh. cut (keeps (decoded t) eq out (dumpData_said bf wf tn tnum fd ff fuel (decoded t, out)) (data_dump bf wf tn tnum fd ff dec fuel t)).
  { unfold keeps, outputs. destruct (snd _); auto. now intros (x & -> & ->). }
  unfold dumpData_said, decoded, data_dump. destruct t as [a cs]. cbn [fst].
  destruct (is_described (Data (At [] (Node a cs) []) [])) eqn:Ed.
  2:{ replace (match a with ADescribed => _ | _ => _ end) with (@silent string Wild) by (destruct a; try discriminate Ed; reflexivity). reflexivity. }
  assert (a = ADescribed) by (destruct a; try discriminate Ed; reflexivity). subst a. clear Ed.
  match goal with |- keeps ?d _ _ _ ?h => rewrite <- (silent_then tt (fun _ => h)) end. eapply (keeps_bind _ eq).
  { apply silent_keeps. exists tt. split; reflexivity. }
  intros q q' out1 Hq. clear q q' Hq. cbv beta.
  match goal with |- keeps ?d _ _ _ ?h => rewrite <- (silent_then (match part 0 (Node ADescribed cs) with Some (Node (AULong k) _) => k | _ => 0%N end) (fun _ => h)) end.
  eapply keeps_bind; [apply key_keeps|]. intros key key' out2 [-> ->]. cbv beta.
  assert (EK : match part 0 (Node ADescribed cs) with
               | Some (Node (AULong k) _) => (k mod 2 ^ 32 =? 1)%N
               | _ => false end = N.eqb (stripCorda (match part 0 (Node ADescribed cs) with Some (Node (AULong k) _) => k | _ => 0%N end)) ENVELOPE).
  { destruct (part 0 _) as [[[] ?]|]; try reflexivity. now rewrite stripCorda_mod. }
  destruct (N.eqb _ ENVELOPE) eqn:E.
  2:{ replace (match part 0 (Node ADescribed cs) with Some _ => _ | _ => _ end) with (@silent string Stops).
      - reflexivity.
      - destruct (part 0 _) as [[[] ?]|]; try reflexivity. now rewrite EK. }
  assert (P0 : exists k bs, part 0 (Node ADescribed cs) = Some (Node (AULong k) bs) /\ (k mod 2 ^ 32 =? 1)%N = true).
  { destruct (part 0 _) as [[[] ?]|]; try discriminate EK. eauto. }
  clear E EK. destruct P0 as (k & bs & P0 & Hk). rewrite P0, Hk. clear Hk.
  unfold bind at 1. 
  apply enter_next_keeps. intros d0 O0. cbn [tree_atom] in *.
  destruct (part_more _ 1 _ _ P0) as (body & P1). rewrite P1. destruct (upon_at _ _ _ _ _ O0 P1) as (l1 & r1 & ->). exists 1.
  pose proof (part_height _ _ _ P1) as H1. eapply tells_keeps; [exact O0|]. clear O0. set (u := [Frame [] ADescribed []]). 
  unfold attest_is_list_said. destruct body as [b ds].
  destruct (pn_type_eqb (atom_type b) TList) eqn:E.
  2:{ replace (match b with AList => _ | _ => _ end) with (@silent string (Raises RuntimeError)) by (destruct b; try discriminate E; reflexivity).
      unfold bind, keeps, silently, attest_is_list, require, is_type. cbn. rewrite E, append_nil. reflexivity. }
  assert (b = AList) by (destruct b; try discriminate E; reflexivity). subst b. clear E.
  eapply keeps_bind.
  { unfold bind, silently, attest_is_list, require, is_type. cbn [pn_dtype cur_atom here atom_type pn_type_eqb]. apply DBG_keeps. reflexivity. }
  intros q q' out' Hq. clear q q' Hq. apply list_enter_keeps. intros d0 O0. cbn [tree_atom] in *. exists 0.
  destruct (upon_cases _ _ _ _ O0) as [(l2 & p & r2 & -> & P2)|[-> ->]].
  2:{ unfold tells, silent, bind, silently. cbn. rewrite append_nil. eexists. split; [reflexivity|]. eapply upon_among; eauto. }
  rewrite P2. eapply tells_keeps; [exact O0|]. apply part_height in P2. destruct p as [b ps].
  destruct (pn_type_eqb (atom_type b) TDescribed) eqn:E.
  2:{ replace (match b with ADescribed => _ | _ => _ end) with (@silent string (Raises RuntimeError)) by (destruct b; try discriminate E; reflexivity).
      unfold bind, keeps, silently, attest_is_described, require, is_type. cbn. rewrite E, append_nil. reflexivity. }
  assert (b = ADescribed) by (destruct b; try discriminate E; reflexivity). subst b. clear E.
  match goal with |- keeps ?d _ _ _ ?h => rewrite <- (silent_then tt (fun _ => h)) end. eapply (keeps_bind _ eq).
  { apply silent_keeps. exists tt. split; reflexivity. }
  intros q q' out3 Hq. clear q q' Hq. cbv beta. rewrite <- (and_then_silent (dumped' _ _ _)).
  eapply keeps_bind; [apply raw_keeps; lia|]. intros v x out4 Hv. now apply ret_keeps.
Qed.

(** The bound does not matter. *)
Lemma in_turn_ext {A B} (f g : A -> heard B) l : (forall a, In a l -> f a = g a) -> in_turn f l = in_turn g l.
Proof. induction l as [|a l IH]; intros H; [reflexivity|]. cbn [in_turn]. now rewrite (H a (or_introl eq_refl)), (IH (fun x Hx => H x (or_intror Hx))). Qed.
Lemma dumped_bound : forall n m k t, height t <= n -> height t <= m -> dumped' n k t = dumped' m k t.
Proof.
  induction n as [|n IH]; intros m k t Hn Hm; [pose proof (height_pos t); lia|]. destruct m as [|m]; [pose proof (height_pos t); lia|].
  cbn [dumped]. destruct k.
  - destruct (tree_atom t); try reflexivity. rewrite (in_turn_ext _ (fun p => dumped' m (kind_of p) p)); [reflexivity|].
    intros p Hp. destruct t as [a cs]. cbn [tree_children] in Hp. apply heights_in in Hp. rewrite height_node in *. apply IH; lia.
  - destruct (tree_atom t); try reflexivity.
    match goal with |- and_then _ (fun _ => and_then (in_turn ?f _) _) = and_then _ (fun _ => and_then (in_turn ?g _) _) => rewrite (in_turn_ext f g); [reflexivity|] end.
    intros i _. destruct (part (3 * i) t) as [p|]; [|reflexivity]. destruct (part (3 * i + 1) t) as [q|] eqn:Pq; [|reflexivity]. destruct (part (3 * i + 2) t) as [w|] eqn:Pw; [|reflexivity].
    apply part_height in Pq, Pw. rewrite (IH m _ q), (IH m _ w) by lia. reflexivity.
  - destruct (part 1 t) as [body|] eqn:P; [|reflexivity]. apply part_height in P. rewrite (IH m _ body) by lia. reflexivity.
  - reflexivity.
Qed.
End Exact.

(** ** Without the output *)
Definition erases {A} (m : OM A) (m' : PM A) : Prop := forall d out,
  match m (d, out), m' d with
  | Ok a (d1, out1), Ok a' d1' => a = a' /\ d1 = d1' /\ begins out1 out
  | Throw e (d1, out1), Throw e' d1' => e = e' /\ d1 = d1' /\ begins out1 out
  | Abort, Abort | UB, UB | Fuel, Fuel => True
  | _, _ => False
  end.
Lemma begins_refl s : begins s s.
Proof. exists "". now rewrite append_nil. Qed.
Lemma begins_trans a b c : begins a b -> begins b c -> begins a c.
Proof. intros [x ->] [y ->]. exists (y ++ x). apply append_assoc3. Qed.
Lemma erases_bind {A B} (m : OM A) m' (f : A -> OM B) f' : erases m m' -> (forall a, erases (f a) (f' a)) -> erases (bind m f) (bind m' f').
Proof.
  intros H K d out. specialize (H d out). unfold bind. destruct (m (d, out)) as [a [d1 o1]|e [d1 o1]| | |], (m' d) as [a' d1'|e' d1'| | |]; try contradiction; auto.
  destruct H as (-> & -> & H). specialize (K a' d1' o1). destruct (f a' (d1', o1)) as [b [d2 o2]|e [d2 o2]| | |], (f' a' d1') as [b' d2'|e' d2'| | |]; try contradiction; auto.
  - destruct K as (-> & -> & K). eauto using begins_trans.
  - destruct K as (-> & -> & K). eauto using begins_trans.
Qed.
Lemma erases_silently {A} (m : PM A) : erases (silently m) m.
Proof. intros d out. unfold silently. destruct (m d); auto using begins_refl. Qed.
Lemma erases_ret {A} (a : A) : erases (ret a) (ret a).
Proof. intros d out. cbn. auto using begins_refl. Qed.
Lemma erases_fuel {A} : erases (fun _ => @Fuel (data * string) A) (fun _ => Fuel).
Proof. intros d out. exact I. Qed.
Lemma erases_cout {A} s (m : OM A) m' : erases m m' -> erases (cout s ;; m) m'.
Proof.
  intros H d out. specialize (H d (out ++ s)). unfold bind, cout. destruct (m (d, out ++ s)) as [b [d2 o2]|e [d2 o2]| | |], (m' d) as [b' d2'|e' d2'| | |]; try contradiction; auto;
  destruct H as (-> & -> & K); repeat split; eapply begins_trans; try exact K; now exists s.
Qed.
Lemma erases_finally {A} (m : OM A) m' f d d' out : erases m m' -> d = d' ->
  match finally m (moving f) (d, out), finally m' f d' with
  | Ok a (d1, out1), Ok a' d1' => a = a' /\ d1 = d1' /\ begins out1 out
  | Throw e (d1, out1), Throw e' d1' => e = e' /\ d1 = d1' /\ begins out1 out
  | Abort, Abort | UB, UB | Fuel, Fuel => True
  | _, _ => False
  end.
Proof.
  intros H ->. specialize (H d' out). unfold finally, moving. destruct (m (d', out)) as [b [d2 o2]|e [d2 o2]| | |], (m' d') as [b' d2'|e' d2'| | |]; try contradiction; auto;
  destruct H as (-> & -> & K); auto.
Qed.
Lemma erases_enter {A} b (m : OM A) m' : erases m m' -> erases (auto_enter_said b m) (auto_enter b m').
Proof. intros H d out. apply erases_finally; auto. Qed.
Lemma erases_list_enter {A} b (m : nat -> OM A) m' : (forall k, erases (m k) (m' k)) -> erases (auto_list_enter_said b m) (auto_list_enter b m').
Proof. intros H d out. apply erases_finally; auto. Qed.
Lemma erases_map_enter {A} b (m : nat -> OM A) m' : (forall k, erases (m k) (m' k)) -> erases (auto_map_enter_said b m) (auto_map_enter b m').
Proof. intros H d out. apply erases_finally; auto. Qed.
Lemma erases_on {A} (m : data -> OM A) (m' : data -> PM A) : (forall d, erases (m d) (m' d)) -> erases (fun s => m (fst s) s) (fun d => m' d d).
Proof. intros H d out. apply H. Qed.

Section Erased.
Context (bf wf : string) (tn : pn_type -> string) (tnum : pn_type -> Z) (fd ff : N -> string).
Lemma erases_list : erases (attest_is_list_said wf) attest_is_list.
Proof.
  intros d out. unfold attest_is_list_said, bind, silently. destruct (attest_is_list d) as [[] d1|e d1| | |]; auto using begins_refl.
  cbn. repeat split. eexists. reflexivity.
Qed.
Lemma erases_dbg {A} f n s (m : OM A) m' : erases m m' -> erases (DBG f n s ;; m) m'.
Proof. apply erases_cout. Qed.
Section Rec.
Context (rl rm : OM (list ivalue)) (rd : OM ivalue) (rl' rm' : PM (list ivalue)) (rd' : PM ivalue).
Hypothesis (Hl : erases rl rl') (Hm : erases rm rm') (Hd : erases rd rd').
Lemma erases_by_type t : erases (dump_by_type_said fd ff rl rm rd t) (dump_by_type fd ff rl' rm' rd' t).
Proof. destruct t; cbn [dump_by_type_said dump_by_type]; auto using erases_silently; apply erases_bind; auto using erases_ret. Qed.
Lemma erases_list_loop n : erases (list_loop_said fd ff rl rm rd n) (list_loop fd ff rl' rm' rd' n).
Proof.
  induction n as [|n IH]; [exact erases_fuel|]. cbn [list_loop_said list_loop].
  apply (erases_on (fun d => bind (dump_by_type_said fd ff rl rm rd (pn_dtype d)) _) (fun d => bind (dump_by_type fd ff rl' rm' rd' (pn_dtype d)) _)). intros d0.
  apply erases_bind; [apply erases_by_type|]. intros v d out. cbn [fst]. destruct (pn_next_ok d); [|auto using begins_refl].
  cbn [moving]. apply (erases_bind (list_loop_said fd ff rl rm rd n) (list_loop fd ff rl' rm' rd' n) _ _ IH (fun vs => erases_ret (v :: vs)) (pn_next d) out).
Qed.
Lemma erases_dumpList : erases (dumpList_said_ wf fd ff rl rm rd) (dumpList_ fd ff rl' rm' rd').
Proof.
  apply erases_bind; [apply erases_list|]. intros _. apply erases_list_enter. intros _ d out. cbn [fst]. destruct (is_type TInvalid d); [auto using begins_refl|].
  apply erases_list_loop.
Qed.
Lemma erases_entry : erases (dump_raw_entry_said bf tn tnum fd ff rl rm rd) (dump_raw_entry fd ff rl' rm' rd').
Proof.
  apply erases_bind; [apply erases_silently|]. intros t. apply erases_dbg. apply erases_bind; [apply erases_by_type|]. intros k.
  apply erases_bind; [apply erases_silently|]. intros t'. apply erases_dbg. apply erases_bind; [apply erases_by_type|]. intros v.
  apply erases_bind; [apply erases_silently|]. intros _. apply erases_ret.
Qed.
Lemma erases_map_loop k : forall n, n <= k -> erases (map_loop_said bf tn tnum fd ff rl rm rd n) (map_loop fd ff rl' rm' rd' n).
Proof.
  induction k as [|k IH]; intros n Hn; [destruct n; [|lia]; apply erases_ret|]. destruct n as [|n]; [apply erases_ret|].
  cbn [map_loop_said map_loop]. apply erases_bind; [apply erases_entry|]. intros e. apply erases_bind; [apply IH; lia|]. intros es. apply erases_ret.
Qed.
Lemma erases_dumpMap : erases (dumpMap_said_ bf tn tnum fd ff rl rm rd) (dumpMap_ fd ff rl' rm' rd').
Proof.
  apply erases_bind; [apply erases_silently|]. intros _. apply erases_map_enter. intros n d out. cbn [fst]. destruct (is_type TInvalid d); [auto using begins_refl|].
  apply erases_dbg. eapply erases_map_loop. apply le_n.
Qed.
Lemma erases_dumpDescribed : erases (dumpDescribed_said_ bf rl rm) (dumpDescribed_ rl' rm').
Proof.
  apply erases_dbg. apply erases_enter. apply erases_bind; [apply erases_cout, erases_silently|]. intros fp. apply erases_dbg.
  intros d out. cbn [fst].
  assert (T : match @Throw (data * string) ivalue RuntimeError (d, out), @Throw data ivalue RuntimeError d with
              | Throw e (d1, out1), Throw e' d1' => e = e' /\ d1 = d1' /\ begins out1 out | _, _ => False end) by auto using begins_refl.
  destruct (pn_dtype d); try exact T;
  [apply (erases_bind rl rl' _ _ Hl (fun l => erases_ret _) d out)|apply (erases_bind rm rm' _ _ Hm (fun l => erases_ret _) d out)].
Qed.
End Rec.
Lemma erases_raw n : erases (dumpList_said bf wf tn tnum fd ff n) (dumpList fd ff n) /\ erases (dumpMap_said bf wf tn tnum fd ff n) (dumpMap fd ff n) /\
  erases (dumpDescribed_said bf wf tn tnum fd ff n) (dumpDescribed fd ff n).
Proof.
  induction n as [|n (IH1 & IH2 & IH3)]; [repeat split; exact erases_fuel|].
  destruct (said_S bf wf tn tnum fd ff n) as (-> & -> & ->). rewrite list_S, map_S, described_S.
  split; [|split]; [apply erases_dumpList|apply erases_dumpMap|apply erases_dumpDescribed]; assumption.
Qed.
Lemma erases_dumpData n : erases (dumpData_said bf wf tn tnum fd ff n) (dumpData fd ff n).
Proof.
  intros d out. unfold dumpData_said, dumpData. cbn [fst]. destruct (is_described d); [|exact I].
  revert d out.
  match goal with |- forall d out, match ?m (d, out) with Ok _ _ => _ | _ => _ end => change (erases m (attest_is_described ;;
       let! key := auto_enter false readAndNext_ulong in
       (fun d => if N.eqb (stripCorda key) ENVELOPE then Ok tt d else Abort) ;;
       auto_enter true (
         attest_is_list ;;
         auto_list_enter true (fun _ =>
           attest_is_described ;;
           let! v := dumpDescribed fd ff n in
           ret (show v))))) end.
  apply erases_bind; [apply erases_silently|]. intros _. apply erases_bind; [apply erases_silently|]. intros key.
  apply erases_bind; [intros d out; destruct (N.eqb _ _); auto using begins_refl|]. intros _.
  apply erases_enter. apply erases_bind; [apply erases_list|]. intros _. apply erases_list_enter. intros _.
  apply erases_bind; [apply erases_silently|]. intros _. apply erases_bind; [apply erases_raw|]. intros v. apply erases_ret.
Qed.
End Erased.

(** ** The shape of the text *)
Section Shape.
Context (bf wf : string) (tn : pn_type -> string) (tnum : pn_type -> Z) (fd ff : N -> string).
Notation dumped' := (dumped bf wf tn tnum fd ff dec).
Definition lines (s : string) : Prop := s = "" \/ ends s newline.
Lemma lines_app a b : lines a -> lines b -> lines (a ++ b).
Proof.
  intros Ha [->|[r ->]]; [rewrite append_nil; exact Ha|]. right. exists (a ++ r). now rewrite append_assoc3.
Qed.
Definition good_heard {A} (h : heard A) : Prop := lines (fst h) /\ forall e, snd h = Raises e -> e = RuntimeError.
Lemma good_then {A B} (h : heard A) (g : A -> heard B) : good_heard h -> (forall a, good_heard (g a)) -> good_heard (and_then h g).
Proof.
  intros [H1 H2] K. unfold and_then. destruct (snd h) as [a|e| |].
  - destruct (K a). split; cbn [fst snd]; auto using lines_app.
  - split; cbn [fst snd]; auto. intros e' [= <-]. now apply H2.
  - split; cbn [fst snd]; auto. discriminate.
  - split; cbn [fst snd]; auto. discriminate.
Qed.
Lemma good_line s : good_heard (line s).
Proof. split; [right; now exists s|discriminate]. Qed.
Lemma good_silent {A} (r : fate A) : (forall e, r = Raises e -> e = RuntimeError) -> good_heard (silent r).
Proof. intros H. split; [now left|exact H]. Qed.
Lemma good_gives {A} (x : A) : good_heard (silent (Gives x)).
Proof. apply good_silent. discriminate. Qed.
Lemma good_raises {A} : good_heard (@silent A (Raises RuntimeError)).
Proof. apply good_silent. now intros e [= <-]. Qed.
Lemma good_turn {A B} (f : A -> heard B) l : (forall a, good_heard (f a)) -> good_heard (in_turn f l).
Proof. intros H. induction l as [|a l IH]; cbn [in_turn]; [apply good_gives|]. apply good_then; [apply H|]. intros b. apply good_then; [exact IH|]. intros bs. apply good_gives. Qed.
Lemma good_name p : good_heard (silent (of_ending (name_of p))).
Proof. apply good_silent. intros e. destruct p as [[[] ?]|]; cbn; try discriminate; now intros [= <-]. Qed.
Lemma good_dumped n : forall k t, good_heard (dumped' n k t).
Proof.
  induction n as [|n IH]; intros k t; [apply good_silent; discriminate|]. cbn [dumped]. destruct k.
  - destruct (tree_atom t); try apply good_raises. apply good_then; [apply good_line|]. intros _. apply good_then; [apply good_turn; auto|]. intros xs. apply good_gives.
  - destruct (tree_atom t); try apply good_raises. apply good_then; [destruct (Nat.eqb _ _); [apply good_gives|apply good_line]|]. intros _.
    apply good_then; [|intros xs; apply good_gives]. apply good_turn. intros i.
    destruct (part (3 * i) t); [|apply good_silent; discriminate]. destruct (part (3 * i + 1) t); [|apply good_silent; discriminate]. destruct (part (3 * i + 2) t); [|apply good_silent; discriminate].
    apply good_then; [apply good_line|]. intros _. apply good_then; [apply IH|]. intros x. apply good_then; [apply good_line|]. intros _. apply good_then; [apply IH|]. intros y. apply good_gives.
  - apply good_then; [apply good_line|]. intros _. apply good_then; [apply good_line|]. intros _. apply good_then; [apply good_name|]. intros fp. apply good_then; [apply good_line|]. intros _.
    destruct (part 1 t) as [body|]; [|apply good_raises]. destruct (kind_of body); try apply good_raises; (apply good_then; [apply IH|]; intros x; apply good_gives).
  - apply good_gives.
Qed.
Lemma good_dump n t : good_heard (data_dump bf wf tn tnum fd ff dec n t).
Proof.
  destruct t as [a cs]. unfold data_dump. destruct a; try (apply good_silent; discriminate).
  destruct (part 0 _) as [[[] ?]|]; try (apply good_silent; discriminate). destruct (N.eqb _ _); [|apply good_silent; discriminate].
  destruct (part 1 _) as [[[] ?]|]; try apply good_raises. apply good_then; [apply good_line|]. intros _.
  destruct (part 0 _) as [[[] ?]|]; try apply good_raises. apply good_dumped.
Qed.
Lemma dump_begins n t s x : data_dump bf wf tn tnum fd ff dec n t = (s, Gives x) -> begins s ("[" ++ wf ++ "::299] YEP! it's a list" ++ newline).
Proof.
  destruct t as [a cs]. unfold data_dump. destruct a; try discriminate.
  destruct (part 0 _) as [[[] ?]|]; try discriminate. destruct (N.eqb _ _); [|discriminate].
  destruct (part 1 _) as [[[] ?]|]; try discriminate. unfold and_then. cbn [snd list_line from line fst]. intros H.
  match type of H with (?p ++ ?q, _) = _ => assert (E : s = p ++ q) by congruence; exists q; rewrite E; clear end.
  rewrite !append_assoc3. reflexivity.
Qed.
End Shape.
