(** Inspection ends as SpecFate.v says. *)
From Coq Require Import Lia.
From Verif Require Import Base Proton ProtonProofs TypeNames Schema SpecSchema SchemaProofs Descriptors SpecDescriptors Factory SpecFactory FactoryProofs
  Readers SpecReaders Blob ReadersProofs SpecAccept AcceptProofs SpecDisplay SpecInstalled DisplayProofs ContentsProofs SpecReadScript SpecParse ParseProofs
  SpecSupply SupplyProofs SpecFate.
Import List ListNotations.
Open Scope string_scope.

(** ** Among the parts of a node *)
Definition comes {A B} (p : tree) (k : nat) (u : list frame) (R : A -> B -> Prop) (o : outcome data A) (r : fate B) : Prop :=
  match r with
  | Gives b => exists a d, o = Ok a d /\ upon p k u d /\ R a b
  | Raises e => exists d, o = Throw e d /\ among p u d
  | Stops => o = Abort
  | Wild => o = UB
  end.
Definition leaves {A B} (d : data) (R : A -> B -> Prop) (o : outcome data A) (r : fate B) : Prop :=
  match r with
  | Gives b => exists a, o = Ok a d /\ R a b
  | Raises e => o = Throw e d
  | Stops => o = Abort
  | Wild => o = UB
  end.
Lemma comes_bind {A B A' B'} p k k' u (R : A -> B -> Prop) (R' : A' -> B' -> Prop) (m : PM A) f d r g : comes p k u R (m d) r ->
  (forall a b d', upon p k u d' -> R a b -> comes p k' u R' (f a d') (g b)) -> comes p k' u R' (bind m f d) (onward r g).
Proof.
  intros H K. unfold bind. destruct r as [b|e| |]; cbn [comes onward] in H |- *.
  - destruct H as (a & d' & -> & H & HR). now apply K.
  - destruct H as (d' & -> & H). eauto.
  - now rewrite H.
  - now rewrite H.
Qed.
Lemma leaves_bind {A B A' B'} d (R : A -> B -> Prop) (R' : A' -> B' -> Prop) (m : PM A) f r g : leaves d R (m d) r ->
  (forall a b, R a b -> leaves d R' (f a d) (g b)) -> leaves d R' (bind m f d) (onward r g).
Proof.
  intros H K. unfold bind. destruct r as [b|e| |]; cbn [leaves onward] in H |- *.
  - destruct H as (a & -> & HR). now apply K.
  - now rewrite H.
  - now rewrite H.
  - now rewrite H.
Qed.
Lemma comes_leaves {A B} p k u d (R : A -> B -> Prop) o r : upon p k u d -> leaves d R o r -> comes p k u R o r.
Proof.
  intros H L. destruct r as [b|e| |]; cbn [comes leaves] in *; auto.
  - destruct L as (a & -> & HR). eauto.
  - rewrite L. exists d. eauto using upon_among.
Qed.
Lemma next_leaves {A B} p k u d (R : A -> B -> Prop) (m : PM A) r : upon p k u d -> leaves d R (m d) r -> comes p (S k) u R (auto_next m d) r.
Proof.
  intros H L. pose proof (upon_next _ _ _ _ H) as N. unfold auto_next, finally. destruct r as [b|e| |]; cbn [comes leaves] in *.
  - destruct L as (a & -> & HR). eauto.
  - rewrite L. eauto using upon_among.
  - now rewrite L.
  - now rewrite L.
Qed.
Lemma enter_leaves {A B} (R : A -> B -> Prop) (m : PM A) l t r u x :
  (forall d0, upon t 0 (Frame l (tree_atom t) r :: u) d0 -> exists k, comes t k (Frame l (tree_atom t) r :: u) R (m d0) x) ->
  leaves (Data (At l t r) u) R (auto_enter false m (Data (At l t r) u)) x.
Proof.
  intros H. destruct t as [a cs]. destruct (H _ (upon_enter l a cs r u)) as (k & H'). clear H. rename H' into H. unfold auto_enter, finally. destruct x as [b|e| |]; cbn [comes leaves] in *.
  - destruct H as (y & d & -> & O & HR). exists y. split; [|exact HR]. f_equal. now apply (upon_exit l (Node a cs) r u k).
  - destruct H as (d & -> & O). f_equal. now apply (exit_among l a cs r u).
  - now rewrite H.
  - now rewrite H.
Qed.
Lemma enter_next_leaves {A B} (R : A -> B -> Prop) (m : PM A) l t r u x :
  (forall d0, upon t 1 (Frame l (tree_atom t) r :: u) d0 -> exists k, comes t k (Frame l (tree_atom t) r :: u) R (m d0) x) ->
  leaves (Data (At l t r) u) R (auto_enter true m (Data (At l t r) u)) x.
Proof.
  intros H. destruct t as [a cs]. destruct (H _ (upon_next _ _ _ _ (upon_enter l a cs r u))) as (k & H'). clear H. rename H' into H. unfold auto_enter, finally. destruct x as [b|e| |]; cbn [comes leaves] in *.
  - destruct H as (y & d & -> & O & HR). exists y. split; [|exact HR]. f_equal. now apply (upon_exit l (Node a cs) r u k).
  - destruct H as (d & -> & O). f_equal. now apply (exit_among l a cs r u).
  - now rewrite H.
  - now rewrite H.
Qed.
Lemma list_enter_leaves {A B} (R : A -> B -> Prop) (m : nat -> PM A) l t r u x :
  (forall d0, upon t 0 (Frame l (tree_atom t) r :: u) d0 -> exists k, comes t k (Frame l (tree_atom t) r :: u) R (m (length (elements t)) d0) x) ->
  leaves (Data (At l t r) u) R (auto_list_enter true m (Data (At l t r) u)) x.
Proof.
  intros H. pose proof (enter_leaves R (m (length (elements t))) l t r u x H) as E. unfold auto_enter in E. unfold auto_list_enter.
  replace (pn_get_list (Data (At l t r) u)) with (length (elements t)) by (destruct t as [[] cs]; reflexivity). exact E.
Qed.
Lemma map_enter_leaves {A B} (R : A -> B -> Prop) (m : nat -> PM A) l t r u x :
  (forall d0, upon t 0 (Frame l (tree_atom t) r :: u) d0 -> exists k, comes t k (Frame l (tree_atom t) r :: u) R (m (pieces t) d0) x) ->
  leaves (Data (At l t r) u) R (auto_map_enter true m (Data (At l t r) u)) x.
Proof.
  intros H. pose proof (enter_leaves R (m (pieces t)) l t r u x H) as E. unfold auto_enter in E. unfold auto_map_enter.
  replace (pn_get_map (Data (At l t r) u)) with (pieces t) by (destruct t as [[] cs]; reflexivity). exact E.
Qed.

(** At most at the given place. *)
Lemma upon_cases p k u d : upon p k u d -> (exists l t r, d = Data (At l t r) u /\ part k p = Some t) \/ (d = Data (Before []) u /\ part k p = None).
Proof.
  intros H. pose proof (upon_view _ _ _ _ H) as V. destruct H as [(l & t & r & -> & _)|[_ ->]]; [left|right]; cbn in V; eauto 7.
Qed.
Lemma name_comes p k u d : upon p k u d -> comes p (S k) u eq (readAndNext_string false d) (of_ending (name_of (part k p))).
Proof.
  intros H. unfold readAndNext_string. apply next_leaves; [exact H|]. destruct (upon_cases _ _ _ _ H) as [(l & [a cs] & r & -> & ->)|[-> ->]]; [|reflexivity].
  destruct a; cbn; eauto.
Qed.
Lemma symbol_comes p k u d : upon p k u d -> comes p k u eq (get_symbol d) (of_ending (symbol_of (part k p))).
Proof.
  intros H. apply (comes_leaves _ _ _ d); [exact H|]. destruct (upon_cases _ _ _ _ H) as [(l & [a cs] & r & -> & ->)|[-> ->]]; [|reflexivity].
  destruct a; cbn; eauto.
Qed.

(** ** Values *)
Definition told (name : option string) (v : ivalue) (x : string) : Prop := show v = labelled name x.

Section Value.
Context (fmt : N -> string) (custom : nat -> option string -> PM ivalue) (kf : bool) (f : factory) (s : schema).
Context (answers : nat -> bool -> option tree -> fate string) (rs : list reader) (known : list notation).
Notation ts := (List.concat (s_types s)).
Hypothesis Hanswers : answers_as rs custom answers.
Notation installed := (serialiser_for answers rs).
Notation fated := (value fmt dec kf known ts installed).

(** What the factory's reader for a type is. *)
Definition found_as (ty : string) (r : reader) : Prop :=
  (exists p, ty = prim_name p /\ r = RProperty p) \/
  (typeIsPrimitive ty = false /\
   match find (fun q => String.eqb (reader_type q) ty) rs with
   | Some q => is_custom q /\ r = q
   | None => exists t, type_called known ty = Some t /\ reads f t r
   end).
Hypothesis Hfound : forall ty i, byType f ty = Some i -> exists r, lock f i = Some r /\ found_as ty r.

Definition right_at (n : nat) (rec : reader -> option string -> PM ivalue) : Prop := forall ty i r, byType f ty = Some i -> lock f i = Some r ->
  forall name p k u d, upon p k u d -> depth (part k p) < n ->
  comes p (S k) u (told name) (rec r name d) (fated n (is_named name) ty (part k p)).

Lemma property_right p name q k u d o : upon q k u d -> o = part k q ->
  comes q (S k) u (told name) (dump_property fmt p name d) (match primitive fmt dec (prim_name p) o with Some r => r | None => Wild end).
Proof.
  intros H ->. destruct p; cbn [dump_property prim_name primitive String.eqb Ascii.eqb Bool.eqb].
  1-4,7: pose proof (upon_next _ _ _ _ H) as N; cbn [comes]; eexists _, _; split; [reflexivity|]; split; [exact N|];
    unfold told; cbn [show]; f_equal; destruct (upon_cases _ _ _ _ H) as [(l & [a cs] & r & -> & ->)|[-> ->]]; try reflexivity; destruct a; reflexivity.
  - eapply comes_bind; [apply name_comes; exact H|]. intros a b d' O <-. cbn [comes]. eexists _, _. split; [reflexivity|]. split; [exact O|reflexivity].
  - cbn [comes]. exists d. split; [reflexivity|]. eapply upon_among; eauto.
Qed.

Lemma described_leaves l t r u : leaves (Data (At l t r) u) (fun (_ : unit) x => x = t /\ tree_atom t = ADescribed) (attest_is_described (Data (At l t r) u)) (described_tree (Some t)).
Proof. destruct t as [a cs]. destruct a; cbn; eauto. Qed.
Lemma from_printed fp d : leaves d eq (lift (fromDescriptor s fp) d) (match type_printed ts fp with Some t => Gives t | None => Raises RuntimeError end).
Proof. unfold fromDescriptor, first_with, type_printed, lift. destruct (find _ _); cbn; eauto. Qed.

Section Rec.
Context (n : nat) (rec : reader -> option string -> PM ivalue).
Hypothesis Hrec : right_at n rec.

Lemma fields_right body u fs' : forall fs ks k d, upon body k u d -> height body <= n ->
  Forall2 (fun fd i => exists ty, property_type fd = Some ty /\ byType f ty = Some i) fs ks -> length fs' = length fs ->
  exists k', comes body k' u (fun vs xs => map show vs = map (fun p => f_name (fst p) ++ " : " ++ snd p) (combine fs' xs))
    (dump_fields f rec fs' ks d) (every (fun p => property (fated n) body (k + fst p, snd p)) (numbered fs)).
Proof.
  induction fs' as [|fd' fs' IH]; intros fs ks k d Ho Hh Hks Hl.
  - destruct fs; [|discriminate]. inversion Hks; subst. exists k, [], d. auto.
  - destruct fs as [|fd fs]; [discriminate|]. inversion Hks as [|? i ? ks' (ty & Hty & Hi) Hks']; subst. cbn [dump_fields].
    destruct (Hfound ty i Hi) as (r & Hr & _). rewrite Hr, numbered_cons. cbn [every fst snd]. rewrite Nat.add_0_r. unfold property at 1. cbn [snd fst]. rewrite Hty.
    pose proof (Hrec ty i r Hi Hr (Some (f_name fd')) body k u d Ho ltac:(pose proof (part_depth k body); lia)) as H. cbn [is_named] in H.
    assert (E : forall l, every (fun p => property (fated n) body (k + fst p, snd p)) (map (fun p : nat * field => (S (fst p), snd p)) l) =
      every (fun p => property (fated n) body (S k + fst p, snd p)) l).
    { induction l as [|[j q] l IHl]; [reflexivity|]. cbn [map every fst snd]. rewrite IHl. now replace (S k + j) with (k + S j) by lia. }
    rewrite E.
    destruct (fated n true ty (part k body)) as [x|e| |] eqn:Ef.
    + destruct H as (v & d1 & H1 & O1 & Hv). destruct (IH fs ks' (S k) d1 O1 Hh Hks' ltac:(cbn in Hl; congruence)) as (k' & C). exists k'.
      unfold bind at 1. rewrite H1. cbn [onward]. eapply comes_bind; [exact C|]. intros vs xs d2 O2 Hvs. exists (v :: vs), d2. split; [reflexivity|]. split; [exact O2|].
      cbn [map combine fst snd]. unfold told in Hv. rewrite Hv, Hvs. reflexivity.
    + exists k. destruct H as (d1 & H1 & O1). unfold bind at 1. rewrite H1. cbn. eauto.
    + exists k. unfold bind at 1. rewrite H. reflexivity.
    + exists k. unfold bind at 1. rewrite H. reflexivity.
Qed.
Lemma elements_right e i r body u : byType f e = Some i -> lock f i = Some r -> height body <= n -> forall m k d, upon body k u d ->
  exists k', comes body k' u (fun vs xs => map show vs = xs) (dump_elements rec m (Some r) d) (every (fun j => fated n false e (part j body)) (seq k m)).
Proof.
  intros Hi Hr Hh. induction m as [|m IH]; intros k d Ho.
  - exists k, [], d. auto.
  - cbn [dump_elements seq every]. pose proof (Hrec e i r Hi Hr None body k u d Ho ltac:(pose proof (part_depth k body); lia)) as H. cbn [is_named] in H.
    destruct (fated n false e (part k body)) as [x|y| |].
    + destruct H as (v & d1 & H1 & O1 & Hv). destruct (IH (S k) d1 O1) as (k' & C). exists k'. unfold bind at 1. rewrite H1. cbn [onward].
      eapply comes_bind; [exact C|]. intros vs xs d2 O2 <-. exists (v :: vs), d2. split; [reflexivity|]. split; [exact O2|]. cbn [map]. unfold told in Hv. cbn in Hv. now rewrite Hv.
    + exists k. destruct H as (d1 & H1 & O1). unfold bind at 1. rewrite H1. cbn. eauto.
    + exists k. unfold bind at 1. rewrite H. reflexivity.
    + exists k. unfold bind at 1. rewrite H. reflexivity.
Qed.
Lemma entry_right k v i j r q body u b d : byType f k = Some i -> lock f i = Some r -> byType f v = Some j -> lock f j = Some q ->
  upon body (2 * b) u d -> height body <= n ->
  comes body (2 * S b) u (fun e x => show e = x) (dump_entry kf rec (Some r) (Some q) d) (entry_of kf (fated n) k v (Some body) b).
Proof.
  intros Hi Hr Hj Hq Ho Hh. unfold dump_entry, dump_through, entry_of, inside. replace (2 * S b) with (S (S (2 * b))) by lia. replace (2 * b + 1) with (S (2 * b)) by lia.
  pose proof (part_depth (2 * b) body) as D1. pose proof (part_depth (S (2 * b)) body) as D2.
  assert (K : forall b : bool, b = true \/ b = false) by (intros []; auto). set (V := fated n).
  destruct (K kf) as [E|E]; rewrite E.
  - eapply comes_bind; [apply (Hrec k i r Hi Hr None _ _ _ _ Ho); lia|]. intros x a d1 O1 Ha.
    eapply comes_bind; [apply (Hrec v j q Hj Hq None _ _ _ _ O1); lia|]. intros y c d2 O2 Hc.
    eexists _, _. split; [reflexivity|]. split; [exact O2|]. cbn [show]. unfold told in *. cbn in Ha, Hc. now rewrite Ha, Hc.
  - eapply comes_bind; [apply (Hrec v j q Hj Hq None _ _ _ _ Ho); lia|]. intros x a d1 O1 Ha.
    eapply comes_bind; [apply (Hrec k i r Hi Hr None _ _ _ _ O1); lia|]. intros y c d2 O2 Hc.
    eexists _, _. split; [reflexivity|]. split; [exact O2|]. cbn [show]. unfold told in *. cbn in Ha, Hc. now rewrite Ha, Hc.
Qed.
Lemma entries_right k v i j r q body u : byType f k = Some i -> lock f i = Some r -> byType f v = Some j -> lock f j = Some q -> height body <= n ->
  forall c m, c = Nat.div2 (S m) -> forall b d, upon body (2 * b) u d ->
  exists k', comes body k' u (fun es xs => map show es = xs) (dump_entries kf rec m (Some r) (Some q) d) (every (entry_of kf (fated n) k v (Some body)) (seq b c)).
Proof.
  intros Hi Hr Hj Hq Hh. induction c as [|c IH]; intros m Hm b d Ho.
  - destruct m as [|[|m]]; [|discriminate|discriminate]. exists (2 * b), [], d. auto.
  - destruct m as [|m]; [discriminate|]. cbn [dump_entries seq every].
    pose proof (entry_right k v i j r q body u b d Hi Hr Hj Hq Ho Hh) as H. assert (Hm' : c = Nat.div2 (S (pred m))) by (destruct m as [|m]; cbn in Hm |- *; congruence).
    destruct (entry_of kf (fated n) k v (Some body) b) as [x|y| |].
    + destruct H as (e & d1 & H1 & O1 & He). destruct (IH (pred m) Hm' (S b) d1 O1) as (k' & C). exists k'. unfold bind at 1. rewrite H1. cbn [onward].
      eapply comes_bind; [exact C|]. intros vs xs d2 O2 <-. exists (e :: vs), d2. split; [reflexivity|]. split; [exact O2|]. cbn [map]. now rewrite He.
    + exists 0. destruct H as (d1 & H1 & O1). unfold bind at 1. rewrite H1. cbn. eauto.
    + exists 0. unfold bind at 1. rewrite H. reflexivity.
    + exists 0. unfold bind at 1. rewrite H. reflexivity.
Qed.

Lemma leaves_map {A A' B} d (R : A -> B -> Prop) (R' : A' -> B -> Prop) (m : PM A) (g : A -> A') r : leaves d R (m d) r ->
  (forall a b, R a b -> R' (g a) b) -> leaves d R' (bind m (fun a => ret (g a)) d) r.
Proof.
  intros H K. unfold bind. destruct r as [b|e| |]; cbn [leaves] in H |- *; try (now rewrite H).
  destruct H as (a & -> & HR). exists (g a). auto.
Qed.
Lemma leaves_weak {A B B'} d (R : A -> B -> Prop) (R' : A -> B' -> Prop) (o : outcome data A) r (g : B -> B') : leaves d R o r ->
  (forall a b, R a b -> R' a (g b)) -> leaves d R' o (onward r (fun b => Gives (g b))).
Proof. intros H K. destruct r; cbn [leaves onward] in *; auto. destruct H as (x & -> & HR). eauto. Qed.
Definition braced (vs : list ivalue) (x : string) : Prop := braces (map show vs) = x.
Definition bracketed (vs : list ivalue) (x : string) : Prop := brackets (map show vs) = x.
Lemma fields_leaves c' c ks l cs r u : height (Node AList cs) <= n -> length (c_fields c') = length (c_fields c) ->
  Forall2 (fun fd i => exists ty, property_type fd = Some ty /\ byType f ty = Some i) (c_fields c) ks ->
  leaves (Data (At l (Node AList cs) r) u) braced (auto_enter false (dump_fields f rec (c_fields c') ks) (Data (At l (Node AList cs) r) u))
    (let% xs := every (property (fated n) (Node AList cs)) (numbered (c_fields c)) in
     Gives (braces (map (fun p => f_name (fst p) ++ " : " ++ snd p) (combine (c_fields c') xs)))).
Proof.
  intros Hh Hl Hks. eapply leaves_weak.
  - apply enter_leaves. intros d0 O0. destruct (fields_right (Node AList cs) _ (c_fields c') (c_fields c) ks 0 d0 O0 Hh Hks Hl) as (k' & C). exists k'.
    replace (every (property (fated n) (Node AList cs)) (numbered (c_fields c))) with (every (fun p => property (fated n) (Node AList cs) (0 + fst p, snd p)) (numbered (c_fields c))); [exact C|].
    generalize (numbered (c_fields c)). induction l0 as [|[j q] l0 IH]; [reflexivity|]. cbn [every fst snd]. rewrite IH. reflexivity.
  - intros vs xs E. unfold braced. now rewrite E.
Qed.
Lemma list_attested l t r u : leaves (Data (At l t r) u) (fun (_ : unit) (x : list tree) => t = Node AList x) (attest_is_list (Data (At l t r) u))
  (match t with Node AList cs => Gives cs | _ => Raises RuntimeError end).
Proof. destruct t as [a cs]. destruct a; cbn; eauto. Qed.
Lemma upon_there p k u d t : upon p k u d -> part k p = Some t -> exists l r, d = Data (At l t r) u.
Proof. apply upon_at. Qed.
Lemma part_one t p0 : part 0 t = Some p0 -> exists p1, part 1 t = Some p1.
Proof.
  unfold part. destruct (tree_children t) as [|a [|b cs]]; cbn; [discriminate|eauto|eauto].
Qed.
Lemma composite_right c ks name p k u d : upon p k u d -> depth (part k p) <= n ->
  Forall2 (fun fd i => exists ty, property_type fd = Some ty /\ byType f ty = Some i) (c_fields c) ks ->
  comes p (S k) u (told name) (dump_composite f s rec ks name d) (object_of ts (fated n) c (part k p)).
Proof.
  intros Ho Hh Hks. unfold dump_composite. apply next_leaves; [exact Ho|].
  destruct (upon_cases _ _ _ _ Ho) as [(l & [a cs] & r & -> & E)|[-> ->]]; [|reflexivity]. rewrite E in Hh |- *. cbn [depth] in Hh.
  assert (a = ANull \/ a <> ANull) as [->|Hn] by (destruct a; auto; right; discriminate).
  { cbn. eexists. split; reflexivity. }
  replace (is_null (Data (At l (Node a cs) r) u)) with false by (destruct a; try reflexivity; contradiction).
  apply (leaves_map _ braced).
  2:{ intros vs x <-. unfold told. cbn [show]. now rewrite commas_concat. }
  assert (a = ADescribed \/ a <> ADescribed) as [->|Hd] by (destruct a; auto; right; discriminate).
  2:{ destruct a; try contradiction; reflexivity. }
  unfold composite_dump_. change (object_of ts (fated n) c (Some (Node ADescribed cs))) with
    (onward (described_tree (Some (Node ADescribed cs))) (fun t => let% fp := of_ending (symbol_of (part 0 t)) in
      match type_printed ts fp with
      | None => Raises RuntimeError
      | Some (TRestricted _) => Raises BadCast
      | Some (TComposite c') =>
          if Nat.eqb (length (c_fields c')) (length (c_fields c)) then
            match part 1 t with
            | Some (Node AList cs) =>
                let% xs := every (property (fated n) (Node AList cs)) (numbered (c_fields c)) in
                Gives (braces (map (fun p => f_name (fst p) ++ " : " ++ snd p) (combine (c_fields c') xs)))
            | _ => Raises RuntimeError
            end
          else Stops
      end)).
  eapply leaves_bind; [apply described_leaves|]. intros x t [-> _]. set (t := Node ADescribed cs) in *.
  apply enter_leaves. intros d0 O0. exists 1. eapply comes_bind; [apply symbol_comes; exact O0|]. intros fp fp' d1 O1 <-.
  pose proof (from_printed fp d1) as F. unfold bind at 1. destruct (type_printed ts fp) as [nt|]; cbn [leaves] in F.
  2:{ rewrite F. cbn. eexists. split; [reflexivity|]. eapply upon_among; eauto. }
  destruct F as (nt' & -> & ->). destruct nt as [c'|q]; [|cbn; eexists; split; [reflexivity|]; eapply upon_among; eauto].
  assert (Elen : length ks = length (c_fields c)) by (symmetry; clear -Hks; induction Hks; cbn; congruence). rewrite Elen.
  destruct (Nat.eqb_spec (length (c_fields c')) (length (c_fields c))) as [El|]; [|reflexivity].
  apply upon_next in O1. unfold bind at 1, next_. destruct (upon_cases _ _ _ _ O1) as [(l1 & body & r1 & E1 & P1)|[E1 P1]]; rewrite E1 in O1 |- *; rewrite P1.
  2:{ cbn. eexists. split; [reflexivity|]. eapply upon_among; eauto. }
  apply (comes_leaves _ _ _ _ _ _ _ O1). unfold bind at 1. destruct body as [ab cb].
  assert (ab = AList \/ ab <> AList) as [->|Hb] by (destruct ab; auto; right; discriminate).
  - cbn [attest_is_list require is_type pn_dtype here atom_type pn_type_eqb]. apply fields_leaves; auto.
    apply part_height in P1. lia.
  - destruct ab; try contradiction; reflexivity.
Qed.
Lemma type_comes t u d : upon t 0 u d -> comes t 1 u (fun _ _ => True) ((let! fp := readAndNext_string false in let! _ := lift (fromDescriptor s fp) in ret tt) d) (some_type ts t).
Proof.
  intros O. unfold some_type. eapply comes_bind; [apply name_comes; exact O|]. intros fp fp' d1 O1 <-.
  pose proof (from_printed fp d1) as F. unfold bind at 1. destruct (type_printed ts fp) as [nt|]; cbn [leaves] in F.
  - destruct F as (nt' & -> & ->). eexists _, _. split; [reflexivity|auto].
  - rewrite F. cbn. eexists. split; [reflexivity|]. eapply upon_among; eauto.
Qed.
Lemma every_ext {A B} (g h : A -> fate B) l : (forall a, In a l -> g a = h a) -> every g l = every h l.
Proof. induction l as [|a l IH]; intros H; [reflexivity|]. cbn [every]. rewrite H by now left. rewrite IH; [reflexivity|]. intros b Hb. apply H. now right. Qed.
Lemma every_parts (g : option tree -> fate string) body : every (fun p => g (Some p)) (elements body) = every (fun j => g (part j body)) (seq 0 (length (elements body))).
Proof.
  assert (H : forall cs pre, elements body = (pre ++ cs)%list -> every (fun p => g (Some p)) cs = every (fun j => g (part j body)) (seq (length pre) (length cs))).
  { induction cs as [|c cs IH]; intros pre E; [reflexivity|]. cbn [every length seq].
    replace (part (length pre) body) with (Some c).
    - rewrite (IH (pre ++ [c])%list) by now rewrite <- app_assoc. rewrite app_length. cbn [length]. now rewrite Nat.add_1_r.
    - destruct body as [a bs]. unfold elements in E. destruct a; try (destruct pre; discriminate).
      unfold part. cbn [tree_children]. rewrite E, app_length. cbn [length]. rewrite Nat.min_l by lia. rewrite nth_error_app2, Nat.sub_diag by lia. reflexivity. }
  apply (H (elements body) [] eq_refl).
Qed.
Lemma some_there t x : some_type ts t = Gives x -> part 1 t <> None.
Proof. destruct t as [a [|c cs]]; [discriminate|]. intros _. unfold part. cbn. destruct cs; discriminate. Qed.
Lemma typed_bind {B B'} (R : B -> B' -> Prop) t k u d (m : PM B) r : upon t 0 u d ->
  (forall d', part 1 t <> None -> upon t 1 u d' -> comes t k u R (m d') r) ->
  comes t k u R ((let! fp := readAndNext_string false in let! _ := lift (fromDescriptor s fp) in m) d) (let% _ := some_type ts t in r).
Proof.
  intros O H. pose proof (type_comes t u d O) as C. unfold bind in C |- *. destruct (readAndNext_string false d) as [fp d1| | | |];
    [destruct (lift (fromDescriptor s fp) d1) as [nt d2| | | |]|..]; destruct (some_type ts t) as [[]| | |] eqn:ES; cbn [comes onward] in C |- *;
    try discriminate; try reflexivity;
    (destruct C as (x & d3 & E & O3 & _) || destruct C as (d3 & E & O3)); try discriminate.
  - injection E as _ <-. apply H; [|exact O3]. eapply some_there, ES.
  - injection E as -> ->. eauto.
  - injection E as -> ->. eauto.
Qed.
Lemma described_enter {A B} (R : A -> B -> Prop) (m : PM A) g l t r u :
  (forall d0, tree_atom t = ADescribed -> upon t 0 (Frame l (tree_atom t) r :: u) d0 -> exists k, comes t k (Frame l (tree_atom t) r :: u) R (m d0) (g t)) ->
  leaves (Data (At l t r) u) R ((attest_is_described ;; auto_enter false m) (Data (At l t r) u)) (onward (described_tree (Some t)) g).
Proof.
  intros H. eapply leaves_bind; [apply described_leaves|]. intros x t' [-> Ht]. apply enter_leaves. auto.
Qed.
Lemma list_right e i name p k u d : upon p k u d -> depth (part k p) <= n -> byType f e = Some i ->
  comes p (S k) u (told name) (dump_list f s rec i name d) (sequence_of ts (fated n) e (part k p)).
Proof.
  intros Ho Hh Hi. unfold dump_list. apply next_leaves; [exact Ho|].
  destruct (upon_cases _ _ _ _ Ho) as [(l & t & r & -> & E)|[-> ->]]; [|reflexivity]. rewrite E in Hh |- *. cbn [depth] in Hh.
  apply (leaves_map _ bracketed).
  2:{ intros vs x <-. unfold told. cbn [show]. now rewrite commas_concat. }
  unfold list_dump_, sequence_of. apply described_enter. intros d0 Ht O0. exists 1. apply typed_bind; [exact O0|]. intros d1 Some1 O1.
  destruct (upon_cases _ _ _ _ O1) as [(l1 & body & r1 & -> & P1)|[-> P1]]; rewrite P1.
  2:{ contradiction. }
  apply (comes_leaves _ _ _ _ _ _ _ O1). cbn [parts_of_list]. eapply leaves_weak.
  - apply list_enter_leaves. intros d2 O2. rewrite (every_parts (fated n false e)).
    destruct (Hfound e i Hi) as (q & Hq & _). rewrite Hq. apply (elements_right e i q body); auto. apply part_height in P1. lia.
  - intros vs xs <-. reflexivity.
Qed.
Lemma map_right k0 v0 i j name p k u d : upon p k u d -> depth (part k p) <= n -> byType f k0 = Some i -> byType f v0 = Some j ->
  comes p (S k) u (told name) (dump_map kf f s rec i j name d) (mapping_of kf ts (fated n) k0 v0 (part k p)).
Proof.
  intros Ho Hh Hi Hj. unfold dump_map. apply next_leaves; [exact Ho|].
  destruct (upon_cases _ _ _ _ Ho) as [(l & t & r & -> & E)|[-> ->]]; [|reflexivity]. rewrite E in Hh |- *. cbn [depth] in Hh.
  apply (leaves_map _ braced).
  2:{ intros vs x <-. unfold told. cbn [show]. now rewrite commas_concat. }
  unfold map_dump_, mapping_of. apply described_enter. intros d0 Ht O0. exists 1. apply typed_bind; [exact O0|]. intros d1 Some1 O1.
  destruct (upon_cases _ _ _ _ O1) as [(l1 & body & r1 & -> & P1)|[-> P1]]; rewrite P1.
  2:{ contradiction. }
  apply (comes_leaves _ _ _ _ _ _ _ O1). cbn [pairs_of_map]. eapply leaves_weak.
  - apply map_enter_leaves. intros d2 O2.
    destruct (Hfound k0 i Hi) as (q & Hq & _), (Hfound v0 j Hj) as (q' & Hq' & _). rewrite Hq, Hq'.
    apply (entries_right k0 v0 i j q q' body); auto; [apply part_height in P1; lia|destruct body as [[] ?]; reflexivity].
  - intros vs xs <-. reflexivity.
Qed.
End Rec.

Lemma enum_right name p k u d : upon p k u d -> comes p (S k) u (told name) (dump_enum name d) (constant_of (part k p)).
Proof.
  intros Ho. unfold dump_enum. apply next_leaves; [exact Ho|].
  destruct (upon_cases _ _ _ _ Ho) as [(l & t & r & -> & E)|[-> ->]]; [|reflexivity]. rewrite E.
  assert (L : leaves (Data (At l t r) u) eq (enum_value (Data (At l t r) u)) (constant_of (Some t))).
  { unfold enum_value, constant_of. apply described_enter. intros d0 Ht O0. exists 1.
    assert (X : is_type TULong d0 && N.eqb (stripCorda (pn_get_ulong d0)) REFERENCED_OBJECT = true -> of_ending (name_of (part 0 t)) = Raises RuntimeError).
    { destruct (upon_cases _ _ _ _ O0) as [(l0 & [a0 cs0] & r0 & -> & ->)|[-> ->]]; [destruct a0; try discriminate; reflexivity|discriminate]. }
    assert (part 0 t = None \/ part 0 t <> None) as [P0|Some1] by (destruct (part 0 t); auto; right; discriminate).
    { destruct (upon_cases _ _ _ _ O0) as [(l0 & t0 & r0 & E0 & P0')|[E0 _]]; [congruence|]. rewrite P0, E0 in *. cbn. eexists. split; [reflexivity|]. eapply upon_among; eauto. }
    unfold bind at 1. destruct (is_type TULong d0 && _).
    - rewrite X by reflexivity. cbn. eexists. split; [reflexivity|]. eapply upon_among; eauto.
    - eapply comes_bind; [apply name_comes; exact O0|]. intros fp fp' d1 O1 <-.
      destruct (upon_cases _ _ _ _ O1) as [(l1 & body & r1 & -> & P1)|[-> P1]]; rewrite P1.
      + apply (comes_leaves _ _ _ _ _ _ _ O1). cbn [inside]. apply list_enter_leaves. intros d2 O2. exists 1. now apply name_comes.
      + destruct t as [a [|c cs]]; [|unfold part in P1; cbn in P1; destruct cs; discriminate].
        exfalso. clear -O1 Some1. apply Some1. reflexivity. }
  assert (Hd : leaves (Data (At l t r) u) (told name) (bind enum_value (fun v => ret (IText name v)) (Data (At l t r) u)) (constant_of (Some t))).
  { apply (leaves_map _ eq); [exact L|]. intros v x <-. reflexivity. }
  unfold bind at 1. destruct t as [a cs]. assert (a = ADescribed \/ a <> ADescribed) as [->|Ha] by (destruct a; auto; right; discriminate).
  - exact Hd.
  - destruct a; try contradiction; reflexivity.
Qed.
Lemma key_right name p k u d : upon p k u d -> comes p (S k) u (told name) (dump_public_key name d) (key_of (is_named name) (part k p)).
Proof.
  intros Ho. destruct name as [nm|]; cbn [dump_public_key is_named key_of].
  2:{ cbn. eexists. split; [reflexivity|]. eapply upon_among; eauto. }
  apply next_leaves; [exact Ho|].
  destruct (upon_cases _ _ _ _ Ho) as [(l & t & r & -> & E)|[-> ->]]; [|reflexivity]. rewrite E.
  unfold key_of. apply described_enter. intros d0 Ht O0. exists (match part 1 t with Some (Node (ABinary _) _) => 2 | _ => 1 end).
  apply upon_next in O0. unfold bind at 1, next_.
  destruct (upon_cases _ _ _ _ O0) as [(l1 & [a1 cs1] & r1 & E1 & P1)|[E1 P1]]; rewrite E1 in O0 |- *; rewrite P1.
  2:{ cbn. eexists. split; [reflexivity|]. eapply upon_among; eauto. }
  destruct a1; try (cbn; eexists; split; [reflexivity|]; eapply upon_among; eassumption).
  eexists _, _. split; [reflexivity|]. split; [apply upon_next; exact O0|reflexivity].
Qed.
Lemma beside_among p u d d' : among p u d -> beside d d' -> among p u d'.
Proof. intros [H1 H2] [H3 H4]. split; congruence. Qed.
Lemma primitive_none ty o : typeIsPrimitive ty = false -> primitive fmt dec ty o = None.
Proof.
  intros H. unfold primitive.
  destruct (String.eqb_spec ty "int") as [->|]; [discriminate|]. destruct (String.eqb_spec ty "long") as [->|]; [discriminate|].
  destruct (String.eqb_spec ty "double") as [->|]; [discriminate|]. destruct (String.eqb_spec ty "boolean") as [->|]; [discriminate|].
  destruct (String.eqb_spec ty "string") as [->|]; [discriminate|]. destruct (String.eqb_spec ty "float") as [->|]; [discriminate|].
  destruct (String.eqb_spec ty "binary") as [->|]; [discriminate|]. reflexivity.
Qed.
Lemma dump_right fuel : right_at fuel (dump fmt custom kf f s fuel).
Proof.
  induction fuel as [|fuel IH]; intros ty i r Hi Hr name p k u d Ho Hh; [lia|]. cbn [dump value].
  destruct (Hfound ty i Hi) as (r' & Hr' & F). rewrite Hr in Hr'. injection Hr' as <-. destruct F as [(q & -> & ->)|(Hp & F)].
  - pose proof (property_right q name p k u d _ Ho eq_refl) as C. destruct q; exact C.
  - rewrite (primitive_none ty _ Hp). unfold serialiser_for at 1. destruct (find _ rs) as [q|] eqn:Eq.
    + destruct F as [Hq ->]. destruct q; try destruct Hq.
      * now apply key_right.
      * apply find_some in Eq as [Eq _]. pose proof (Hanswers _ which Eq name d (upon_level _ _ _ _ Ho)) as A. rewrite (upon_view _ _ _ _ Ho) in A.
        destruct (answers which (is_named name) (part k p)); cbn [comes].
        -- destruct A as (v & -> & Ev). eexists _, _. split; [reflexivity|]. split; [now apply upon_next|exact Ev].
        -- destruct A as (d' & -> & B). eexists. split; [reflexivity|]. eapply beside_among; [|exact B]. eapply upon_among; eauto.
        -- exact A.
        -- exact A.
    + destruct F as (t & -> & R). destruct t as [c|x]; cbn [reads] in R.
      * destruct R as (ks & -> & Hks). apply composite_right; auto. lia.
      * destruct (r_kind x) eqn:K.
        -- destruct R as (e & j & -> & -> & Hj). apply list_right; auto. lia.
        -- destruct R as (k0 & v0 & i0 & j0 & -> & -> & Hi0 & Hj0). apply map_right; auto; lia.
        -- subst r. apply enum_right. exact Ho.
        -- destruct R as (e & j & -> & -> & Hj). apply list_right; auto. lia.
Qed.
End Value.
