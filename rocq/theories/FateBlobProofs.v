(** Proofs: inspecting any blob ends as SpecFate.v says. *)
From Coq Require Import Lia.
From Verif Require Import Base Proton ProtonProofs TypeNames Schema SpecSchema SchemaProofs Descriptors SpecDescriptors Factory SpecFactory FactoryProofs
  Readers SpecReaders Blob ReadersProofs SpecAccept AcceptProofs SpecDisplay SpecInstalled DisplayProofs ContentsProofs SpecReadScript SpecParse ParseProofs
  SpecSupply SupplyProofs FrameProofs SpecFate FateProofs PrepareProofs.
Import List ListNotations.
Open Scope string_scope.

(** ** The bound on the depth *)
Lemma onward_ext {A B} (r : fate A) (f g : A -> fate B) : (forall a, r = Gives a -> f a = g a) -> onward r f = onward r g.
Proof. destruct r; cbn; auto. Qed.
Lemma described_depth o t : described_tree o = Gives t -> o = Some t.
Proof. destruct o as [[[] cs]|]; try discriminate. now intros [= <-]. Qed.
Section Bound.
Context (double : N -> string) (kf : bool) (known ts : list notation) (inst : string -> option (bool -> option tree -> fate string)).
Notation fated := (value double dec kf known ts inst).
Lemma inside_depth k o t : o = Some t -> depth (inside k o) < height t.
Proof. intros ->. cbn. apply part_depth. Qed.
Lemma value_bound : forall n m b ty o, depth o < n -> depth o < m -> fated n b ty o = fated m b ty o.
Proof.
  induction n as [|n IH]; intros m b ty o Hn Hm; [lia|]. destruct m as [|m]; [lia|]. cbn [value].
  destruct (primitive _ _ ty o) as [r|]; [reflexivity|]. destruct (inst ty) as [g|]; [reflexivity|].
  assert (P : forall k t, o = Some t -> depth (part k t) < n /\ depth (part k t) < m).
  { intros k t ->. cbn [depth] in *. pose proof (part_depth k t). lia. }
  assert (Q : forall j k t, o = Some t -> depth (inside j (part k t)) < n /\ depth (inside j (part k t)) < m).
  { intros j k t ->. cbn [depth] in *. pose proof (part_depth k t) as Y. destruct (part k t) as [q|]; cbn [inside depth] in *; [|lia]. pose proof (part_depth j q). lia. }
  assert (E : forall k t p, o = Some t -> In p (parts_of_list (part k t)) -> height p < n /\ height p < m).
  { intros k t p -> Hp. cbn [depth] in *. pose proof (part_depth k t) as Y. destruct (part k t) as [[a cs]|]; [|destruct Hp]. cbn [parts_of_list depth] in *.
    rewrite height_node in Y. destruct a; try destruct Hp; cbn [elements] in Hp; apply heights_in in Hp; lia. }
  destruct (type_called known ty) as [[c|x]|]; [| |reflexivity].
  - unfold object_of. assert (X : forall t, o = Some t -> forall p, property (fated n) p = property (fated n) p) by reflexivity. clear X.
    assert (X : forall t body, o = Some t -> part 1 t = Some body -> every (property (fated n) body) (numbered (c_fields c)) = every (property (fated m) body) (numbered (c_fields c))).
    { intros t body Ho Hb. apply every_ext. intros p _. unfold property. destruct (property_type (snd p)) as [ty'|]; [|reflexivity].
      pose proof (Q (fst p) 1 t Ho) as [Q1 Q2]. rewrite Hb in Q1, Q2. cbn [inside] in Q1, Q2. now apply IH. }
    destruct o as [[a cs]|]; [|reflexivity].
    destruct a; try reflexivity. apply onward_ext. intros t Ht. apply described_depth in Ht.
    apply onward_ext. intros fp _. destruct (type_printed ts fp) as [[c'|]|]; try reflexivity. destruct (Nat.eqb _ _); [|reflexivity].
    destruct (part 1 t) as [body|] eqn:E1; [|reflexivity]. destruct body as [[] bs]; try reflexivity. now rewrite (X t _ Ht E1).
  - assert (Sq : forall e, sequence_of ts (fated n) e o = sequence_of ts (fated m) e o).
    { intros e. unfold sequence_of. apply onward_ext. intros t Ht. apply described_depth in Ht. apply onward_ext. intros _ _.
      f_equal. apply every_ext. intros p Hp. destruct (E 1 t p Ht Hp). now apply IH. }
    assert (Mp : forall k v, mapping_of kf ts (fated n) k v o = mapping_of kf ts (fated m) k v o).
    { intros k v. unfold mapping_of. apply onward_ext. intros t Ht. apply described_depth in Ht. apply onward_ext. intros _ _.
      f_equal. apply every_ext. intros i _. unfold entry_of.
      destruct (Q (2 * i) 1 t Ht), (Q (2 * i + 1) 1 t Ht). now rewrite !(IH m) by assumption. }
    destruct (r_kind x); destruct (r_of x) as [|k1 [|k2 [|]]]; auto.
Qed.
End Bound.

(** ** The factory *)
Lemma installs_state kf rs : forall f f', run kf (map Install rs) f f' ->
  (sound f -> sound f') /\ ((forall q, unpoisoned f q) -> forall q, unpoisoned f' q) /\
  (forall q, avail f' q <-> avail f q \/ In q (map reader_type rs)) /\ descriptors f' = descriptors f /\
  Forall is_custom rs /\ NoDup (map reader_type rs) /\ (forall q, In q (map reader_type rs) -> byType f q = None).
Proof.
  induction rs as [|r rs IH]; intros f f' R; inversion R as [|o h f0 f1 f2 Hc Hs R']; subst.
  - cbn [map In]. split; [auto|]. split; [auto|]. split; [tauto|]. split; [reflexivity|]. split; [constructor|]. split; [constructor|]. intros q [].
  - destruct Hc as [C1 C2]. cbn [effect] in Hs. destruct Hs as [Hs|[e Hs]]; [|discriminate]. unfold installCustomSerialiser, bind, make in Hs. injection Hs as <-.
    set (f1 := set_types _ _) in *. destruct (IH _ _ R') as (H1 & H2 & H3 & H4 & H5 & H6 & H7).
    assert (B : forall q, byType f1 q = if String.eqb q (reader_type r) then Some (List.length (heap f)) else byType f q).
    { intros q. unfold f1. unfold byType. cbn [types set_types]. rewrite assoc_put. now destruct (String.eqb q (reader_type r)). }
    assert (U : forall q, unpoisoned f q -> unpoisoned f1 q).
    { intros q. unfold unpoisoned, f1. cbn [types set_types]. rewrite assoc_put. destruct (String.eqb q (reader_type r)); [discriminate|auto]. }
    split; [intros S; apply H1; intros k Hk; auto|]. split; [auto|]. split.
    { intros q. rewrite H3. unfold avail. rewrite B. cbn [map In]. destruct (String.eqb_spec q (reader_type r)) as [->|N]; [intuition discriminate|].
      intuition congruence. }
    split; [exact H4|]. split; [now constructor|]. split.
    + cbn [map]. constructor; [|exact H6]. intros X. apply H7 in X. rewrite B, String.eqb_refl in X. discriminate.
    + intros q [<-|X]; [exact C2|]. apply H7 in X. rewrite B in X. destruct (String.eqb q (reader_type r)); [discriminate|exact X].
Qed.
Lemma installed_map rs : installed (map Install rs) = rs.
Proof. unfold installed. induction rs as [|r rs IH]; [reflexivity|]. cbn. now f_equal. Qed.
Lemma entries_map rs : entries_of (map Install rs) = [].
Proof. unfold entries_of. induction rs as [|r rs IH]; [reflexivity|exact IH]. Qed.
Lemma find_named rs r : NoDup (map reader_type rs) -> In r rs -> find (fun q => String.eqb (reader_type q) (reader_type r)) rs = Some r.
Proof.
  induction rs as [|q rs IH]; intros N H; [destruct H|]. cbn [map find] in *. inversion N as [|? ? N1 N2]; subst. destruct H as [->|H].
  - now rewrite String.eqb_refl.
  - destruct (String.eqb_spec (reader_type q) (reader_type r)) as [E|]; [|auto]. elim N1. rewrite E. now apply in_map.
Qed.
Lemma find_unnamed rs ty : ~ In ty (map reader_type rs) -> find (fun q => String.eqb (reader_type q) ty) rs = None.
Proof.
  induction rs as [|q rs IH]; intros N; [reflexivity|]. cbn [map find In] in *. destruct (String.eqb_spec (reader_type q) ty); [tauto|]. tauto.
Qed.
Lemma last_found fp ts : last_with fp ts = find (fun t => String.eqb (n_descriptor t) fp) (rev ts).
Proof.
  assert (FA : forall (a b : list notation) p, find p (a ++ b) = match find p a with Some x => Some x | None => find p b end).
  { induction a as [|x a IH]; intros b p; [reflexivity|]. cbn. destruct (p x); auto. }
  induction ts as [|t ts IH]; [reflexivity|]. cbn [last_with rev]. rewrite FA, <- IH. destruct (last_with fp ts); [reflexivity|]. cbn. rewrite String.eqb_sym. now destruct (String.eqb _ _).
Qed.

Section Process.
Context (mo : bool) (rs : list reader) (cf : factory) (R : run mo (map Install rs) new_factory cf).
Hypothesis Hrs : forall r, In r rs -> typeIsPrimitive (reader_type r) = false.
Lemma process_fate s : Forall proper (List.concat (s_types s)) ->
  match prepare mo (map reader_type rs) (List.concat (s_types s)) with
  | Gives _ => exists cf', process mo s cf = Ok tt cf' /\
      (forall ty i, byType cf' ty = Some i -> exists r, lock cf' i = Some r /\ found_as cf' rs (List.concat (s_types s)) ty r) /\
      forall fp, match find (fun t => String.eqb (n_descriptor t) fp) (rev (List.concat (s_types s))) with
        | Some n => exists i, byDescriptor cf' fp = Some i /\ byType cf' (n_name n) = Some i
        | None => byDescriptor cf' fp = None
        end
  | Raises e => exists cf', process mo s cf = Throw e cf'
  | Stops => False
  | Wild => process mo s cf = UB
  end.
Proof.
  intros Hp. destruct (installs_state _ _ _ _ R) as (H1 & H2 & H3 & H4 & H5 & H6 & H7).
  assert (S : sound cf) by (apply H1; intros k _; discriminate).
  assert (U : forall q, unpoisoned cf q) by (apply H2; intros q; discriminate).
  assert (A0 : forall q, avail cf q <-> readable_prim q \/ In q (map reader_type rs)).
  { intros q. rewrite H3. unfold avail. cbn. intuition congruence. }
  pose proof (history_backed _ _ _ R) as B. rewrite installed_map, entries_map in B.
  pose proof (process_entries_fate mo rs (List.concat (s_types s)) [] _ cf Hp S U A0 B) as F. unfold process.
  destruct (prepare _ _ _) as [[]|e| |]; try exact F. destruct F as (cf' & E & B'). exists cf'. split; [exact E|]. split.
  - intros ty i Hi. destruct (B' ty i Hi) as (r & Hr & C). exists r. split; [eapply byType_lock; eauto|]. unfold found_as.
    destruct C as [(p & -> & ->)|[[C <-]|(t & Ht & <- & Rd)]]; [left; eauto| |]; right.
    + split; [auto|]. rewrite (find_named _ _ H6 C). split; [|reflexivity]. rewrite Forall_forall in H5. auto.
    + cbn [app] in Ht. destruct (fresh_called _ _ _ Ht) as [N T]. split.
      * apply find_some in T as [T _]. rewrite Forall_forall in Hp. apply Hp in T. apply T.
      * rewrite (find_unnamed _ _ N). eauto.
  - intros fp. rewrite <- last_found. pose proof (entries_last mo fp _ Hp _ _ E) as L. destruct (last_with fp _); [exact L|]. rewrite L.
    unfold byDescriptor. now rewrite H4.
Qed.
End Process.

(** ** The envelope *)
Lemma envelope_fate fuel t : height t <= fuel ->
  match envelope_of t with
  | Gives e => read_envelope fuel (decoded t) = Ok e (decoded t) /\ Forall made (List.concat (s_types (e_schema e)))
  | Raises x => read_envelope fuel (decoded t) = Throw x (decoded t)
  | Stops => False
  | Wild => read_envelope fuel (decoded t) = UB
  end.
Proof.
  intros H. unfold envelope_of.
  assert (D : described_by t <> None \/ described_by t = None /\ read_envelope fuel (decoded t) = UB).
  { destruct t as [[] cs]; try (right; split; reflexivity). destruct cs as [|[[] ds] cs]; try (left; discriminate);
      right; (split; [reflexivity|]); unfold read_envelope; cbn [is_described is_type pn_dtype decoded here tree_atom atom_type pn_type_eqb];
      unfold bind, auto_enter, finally, build_id; (cbn [decoded w_enter pn_get_ulong] || idtac); rewrite ?registered_zero; try reflexivity. }
  destruct D as [D|[-> D]]; [|exact D]. destruct (described_by t) as [v|] eqn:Ev; [|congruence]. clear D.
  pose proof (parsed_exactly (S fuel) [] t [] [] ltac:(lia)) as P. fold (decoded t) in P.
  assert (E : read_envelope fuel (decoded t) = bind (dispatchDescribed (S fuel)) (fun e => match e with EEnvelope x => ret x | _ => ub end) (decoded t)).
  { destruct t as [[] cs]; try discriminate. destruct cs as [|[[] ds] cs]; try discriminate. reflexivity. }
  rewrite E. unfold bind. destruct (parsed t) as [e|x|]; cbn [of_ending onward ends_at] in P |- *; rewrite P; try reflexivity.
  destruct e; try reflexivity. split; [reflexivity|]. exact (parsed_made _ _ _ _ P).
Qed.

(** ** Names *)
Lemma own_spec k : own_name k = true <-> typeIsPrimitive k = false.
Proof.
  unfold own_name, typeIsPrimitive. rewrite negb_true_iff. destruct (memb k ("bool" :: primitives)) eqn:E1, (memb k ["string"; _; _; _; _; _; _; _]) eqn:E2; split; try congruence.
  - apply memb_spec in E1. rewrite <- not_true_iff_false, memb_spec in E2. exfalso. apply E2. cbn in *. tauto.
  - apply memb_spec in E2. rewrite <- not_true_iff_false, memb_spec in E1. exfalso. apply E1. cbn in *. tauto.
Qed.
Lemma own_names_spec rs t : own_names rs t = true -> (forall r, In r rs -> typeIsPrimitive (reader_type r) = false) /\
  (forall e, envelope_of t = Gives e -> forall n, In n (List.concat (s_types (e_schema e))) -> typeIsPrimitive (n_name n) = false).
Proof.
  unfold own_names. rewrite andb_true_iff, forallb_forall. intros [H1 H2]. split.
  - intros r H. apply own_spec, H1, in_map, H.
  - intros e E n H. rewrite E, forallb_forall in H2. apply own_spec, H2, in_map, H.
Qed.

Lemma payload_right fmt custom answers kf rs known cf s t fuel ty i r : answers_as rs custom answers ->
  (forall ty i, byType cf ty = Some i -> exists r, lock cf i = Some r /\ found_as cf rs known ty r) ->
  byType cf ty = Some i -> lock cf i = Some r -> height t < fuel ->
  leaves (decoded t) eq (dump_payload fmt custom kf fuel cf s r (decoded t))
    match part 1 t with
    | Some (Node AList cs) =>
        if Nat.eqb (length cs) 3 then
          let% x := value fmt dec kf known (List.concat (s_types s)) (serialiser_for answers rs) (height t) true ty (part 0 (Node AList cs)) in
          Gives ("{ Parsed : " ++ x ++ " }")
        else Stops
    | _ => Raises RuntimeError
    end.
Proof.
  intros Ha Hf Hi Hr Hh. set (x := match part 1 t with Some (Node AList cs) => _ | _ => _ end).
  unfold dump_payload, decoded. apply enter_next_leaves. intros d0 O. exists 1. subst x.
  destruct (upon_cases _ _ _ _ O) as [(l1 & [a cs] & r1 & -> & P1)|[E1 P1]]; rewrite P1.
  2:{ rewrite E1 in O |- *. cbn. eexists. split; [reflexivity|]. eapply upon_among; eauto. }
  apply (comes_leaves _ _ _ _ _ _ _ O). assert (a = AList \/ a <> AList) as [->|Na] by (destruct a; auto; right; discriminate).
  2:{ destruct a; try contradiction; reflexivity. }
  unfold bind at 1. cbn [attest_is_list require is_type pn_dtype here tree_atom atom_type pn_type_eqb]. unfold bind at 1. cbn [pn_get_list here].
  destruct (Nat.eqb (length cs) 3) eqn:E3; [|cbn [leaves]; reflexivity].
  apply enter_leaves. intros d1 O1. exists 1.
  assert (Db : depth (part 0 (Node AList cs)) < height t).
  { pose proof (part_depth 0 (Node AList cs)). apply part_height in P1. lia. }
  rewrite (value_bound _ _ _ _ _ (height t) fuel) by lia.
  eapply comes_bind; [apply (dump_right fmt custom kf cf s answers rs known Ha Hf fuel ty i r Hi Hr); [exact O1|lia]|].
  intros v y d2 O2 Tv. cbn [comes]. eexists _, _. split; [reflexivity|]. split; [exact O2|]. unfold told in Tv. rewrite Tv. reflexivity.
Qed.

Theorem inspected_exactly fmt custom answers mo kf rs cf t fuel :
  answers_as rs custom answers -> run mo (map Install rs) new_factory cf -> (forall r, In r rs -> typeIsPrimitive (reader_type r) = false) ->
  (forall e, envelope_of t = Gives e -> forall n, In n (List.concat (s_types (e_schema e))) -> typeIsPrimitive (n_name n) = false) ->
  height t < fuel ->
  turns_out t (dumpContents fmt custom mo kf fuel (decoded t, cf)) (inspected fmt answers mo kf rs t).
Proof.
  intros Ha R Hrs Hn Hh. unfold inspected, dumpContents. unfold bind at 1. unfold on_data at 1. cbv beta iota.
  pose proof (envelope_fate fuel t ltac:(lia)) as E. destruct (envelope_of t) as [e|x| |] eqn:Ee; cbn [onward]; [|rewrite E; cbn; eauto|destruct E|now rewrite E].
  destruct E as [-> Hm]. set (ts := List.concat (s_types (e_schema e))) in *.
  assert (Hp : Forall proper ts). { rewrite Forall_forall in *. intros n X. split; [auto|]. eapply Hn; eauto. }
  pose proof (process_fate mo rs cf R Hrs (e_schema e) Hp) as P. fold ts in P. unfold bind at 1. unfold on_factory. cbv beta iota.
  destruct (prepare mo (map reader_type rs) ts) as [[]|x| |]; cbn [onward].
  2:{ destruct P as (cf' & ->). cbn. eauto. } 2:{ destruct P. } 2:{ now rewrite P. }
  destruct P as (cf' & -> & Hf & Hl). cbn [snd]. unfold payload_type. fold ts. specialize (Hl (e_descriptor e)). destruct (find _ (rev ts)) as [n|]; [|now rewrite Hl].
  destruct Hl as (i & -> & Hi). destruct (Hf _ _ Hi) as (r & Hr & _). unfold reader_at. rewrite (lock_heap _ _ _ Hr).
  pose proof (payload_right fmt custom answers kf rs ts cf' (e_schema e) t fuel (n_name n) i r Ha Hf Hi Hr Hh) as L. fold ts in L.
  set (x := match part 1 t with Some (Node AList cs) => _ | _ => _ end) in *.
  cbn [on_data]. destruct x as [y|y| |]; cbn [leaves] in L.
  - destruct L as (a & -> & ->). cbn. eauto.
  - rewrite L. cbn. eauto.
  - now rewrite L.
  - now rewrite L.
Qed.

(** ** When nothing is undefined *)
Definition defined {A} (r : fate A) : Prop := r <> Wild.
Lemma defined_onward {A B} (r : fate A) (g : A -> fate B) : defined r -> (forall a, r = Gives a -> defined (g a)) -> defined (onward r g).
Proof. unfold defined. intros H K. destruct r; cbn; auto; discriminate. Qed.
Lemma defined_gives {A} (a : A) : defined (Gives a).
Proof. discriminate. Qed.
Lemma defined_raises {A} e : defined (@Raises A e).
Proof. discriminate. Qed.
Lemma defined_every {A B} (g : A -> fate B) l : (forall a, In a l -> defined (g a)) -> defined (every g l).
Proof.
  induction l as [|a l IH]; intros H; [discriminate|]. cbn [every]. apply defined_onward; [apply H; now left|]. intros b _.
  apply defined_onward; [apply IH; intros; apply H; now right|]. intros. discriminate.
Qed.
Lemma defined_name o : defined (of_ending (name_of o)).
Proof. destruct o as [[[] ?]|]; discriminate. Qed.
Lemma defined_symbol o : defined (of_ending (symbol_of o)).
Proof. destruct o as [[[] ?]|]; discriminate. Qed.
Lemma defined_described o : defined (described_tree o).
Proof. destruct o as [[[] ?]|]; discriminate. Qed.
Lemma defined_some ts t : defined (some_type ts t).
Proof. unfold some_type. apply defined_onward; [apply defined_name|]. intros fp _. destruct (type_printed ts fp); discriminate. Qed.
Lemma numbered_in {A} (p : nat * A) l : In p (numbered l) -> In (snd p) l.
Proof. unfold numbered. destruct p. apply in_combine_r. Qed.

Section Defined.
Context (double : N -> string) (mo kf : bool) (known ts : list notation) (inst : string -> option (bool -> option tree -> fate string)).
Definition readable (ty : string) : Prop := readable_prim ty \/ inst ty <> None \/ type_called known ty <> None.
Hypothesis Hinst : forall ty g, inst ty = Some g -> forall b o, defined (g b o).
Hypothesis Hwant : forall ty t, inst ty = None -> type_called known ty = Some t -> made t /\ forall w, In w (wanted mo t) -> exists k, w = Some k /\ readable k.
Notation fated := (value double dec kf known ts inst).
Lemma primitive_defined ty o r : primitive double dec ty o = Some r -> defined r.
Proof.
  unfold primitive. repeat (destruct (String.eqb ty _)); intros [= <-]; try discriminate. apply defined_onward; [apply defined_name|]. intros. discriminate.
Qed.
Lemma primitive_some p o : primitive double dec (prim_name p) o <> None.
Proof. destruct p; discriminate. Qed.
Lemma value_defined : forall n b ty o, depth o < n -> readable ty -> defined (fated n b ty o).
Proof.
  induction n as [|n IH]; intros b ty o Hn Hr; [lia|]. cbn [value].
  destruct (primitive double dec ty o) as [r|] eqn:Ep; [eapply primitive_defined; eauto|].
  destruct (inst ty) as [g|] eqn:Ei; [eapply Hinst; eauto|].
  assert (Q : forall j k t, o = Some t -> depth (inside j (part k t)) < n).
  { intros j k t ->. cbn [depth] in *. pose proof (part_depth k t) as Y. destruct (part k t) as [q|]; cbn [inside depth] in *; [|lia]. pose proof (part_depth j q). lia. }
  assert (E : forall k t p, o = Some t -> In p (parts_of_list (part k t)) -> height p < n).
  { intros k t p -> Hp. cbn [depth] in *. pose proof (part_depth k t) as Y. destruct (part k t) as [[a cs]|]; [|destruct Hp]. cbn [parts_of_list depth] in *.
    rewrite height_node in Y. destruct a; try destruct Hp; cbn [elements] in Hp; apply heights_in in Hp; lia. }
  destruct (type_called known ty) as [t|] eqn:Et.
  2:{ destruct Hr as [(p & ->)|[Hr|Hr]]; [|congruence..]. now apply primitive_some in Ep. }
  destruct (Hwant ty t Ei Et) as [Hm Hw]. destruct t as [c|x].
  - unfold object_of. assert (D : defined
      (let% t := described_tree o in let% fp := of_ending (symbol_of (part 0 t)) in
       match type_printed ts fp with
       | None => Raises RuntimeError
       | Some (TRestricted _) => Raises BadCast
       | Some (TComposite c') =>
           if Nat.eqb (length (c_fields c')) (length (c_fields c)) then
             match part 1 t with
             | Some (Node AList cs) =>
                 let% xs := every (property (fated n) (Node AList cs)) (numbered (c_fields c)) in
                 Gives (braces (map (fun p => f_name (fst p) ++ " : " ++ snd p) (combine (c_fields c') xs)))
             | _ => Raises RuntimeError
             end
           else Stops
       end)).
    { apply defined_onward; [apply defined_described|]. intros t Ht. apply described_depth in Ht.
      apply defined_onward; [apply defined_symbol|]. intros fp _. destruct (type_printed ts fp) as [[c'|]|]; try discriminate. destruct (Nat.eqb _ _); [|discriminate].
      destruct (part 1 t) as [[[] bs]|] eqn:P1; try discriminate. apply defined_onward; [|intros; discriminate]. apply defined_every. intros p Hp.
      unfold property. destruct (Hw (property_type (snd p))) as (k & Hk & Rk); [cbn [wanted]; apply in_map; eapply numbered_in; eauto|]. rewrite Hk.
      apply IH; [|exact Rk]. pose proof (Q (fst p) 1 t Ht) as X. rewrite P1 in X. exact X. }
    destruct o as [[[] cs]|]; try exact D. discriminate.
  - pose proof (made_of x Hm) as Ho. cbn [wanted] in Hw.
    assert (Sq : forall e, readable e -> defined (sequence_of ts (fated n) e o)).
    { intros e He. unfold sequence_of. apply defined_onward; [apply defined_described|]. intros t Ht. apply described_depth in Ht.
      apply defined_onward; [apply defined_some|]. intros _ _. apply defined_onward; [|intros; discriminate]. apply defined_every. intros p Hp. apply IH; [|exact He]. cbn. eauto. }
    assert (Mp : forall k v, readable k -> readable v -> defined (mapping_of kf ts (fated n) k v o)).
    { intros k v Hk Hv. unfold mapping_of. apply defined_onward; [apply defined_described|]. intros t Ht. apply described_depth in Ht.
      apply defined_onward; [apply defined_some|]. intros _ _. apply defined_onward; [|intros; discriminate]. apply defined_every. intros i _. unfold entry_of.
      destruct kf; (apply defined_onward; [apply IH; auto|]; intros ? _; apply defined_onward; [apply IH; auto|]; intros; discriminate). }
    destruct (r_kind x).
    + destruct Ho as (e & He). rewrite He in *. apply Sq. destruct (Hw (Some e)) as (k & [= <-] & Rk); [now left|exact Rk].
    + destruct Ho as (k & v & He). rewrite He in *. apply Mp.
      * destruct (Hw (Some k)) as (k' & [= <-] & Rk); [|exact Rk]. destruct mo; cbn; auto.
      * destruct (Hw (Some v)) as (k' & [= <-] & Rk); [|exact Rk]. destruct mo; cbn; auto.
    + destruct (r_of x); unfold constant_of; (apply defined_onward; [apply defined_described|]; intros; apply defined_onward; [apply defined_name|]; intros; apply defined_name).
    + destruct Ho as (e & He). rewrite He in *. apply Sq. destruct (Hw (Some e)) as (k & [= <-] & Rk); [now left|exact Rk].
Qed.
End Defined.

Lemma look_up_all have t ks : look_up have t ks = Gives tt -> forall w, In w ks -> exists k, w = Some k /\ (itself t k || memb k primitives || memb k have = true).
Proof.
  induction ks as [|o ks IH]; intros E w Hw; [destruct Hw|]. cbn [look_up] in E. destruct o as [k|]; [|discriminate].
  destruct (_ || _ || _) eqn:K; [|discriminate]. destruct Hw as [<-|Hw]; eauto.
Qed.
Lemma prepared_wants kf ts : forall have, prepare kf have ts = Gives tt -> forall u, In u (fresh have ts) -> forall w, In w (wanted kf u) ->
  exists k, w = Some k /\ (readable_prim k \/ In k have \/ In k (map n_name ts)).
Proof.
  induction ts as [|t ts IH]; intros have E u Hu w Hw; [destruct Hu|]. cbn [prepare fresh] in *. destruct (memb (n_name t) have).
  - destruct (IH _ E u Hu w Hw) as (k & -> & K). exists k. split; [reflexivity|]. cbn [map In]. tauto.
  - destruct (look_up have t (wanted kf t)) as [[]| | |] eqn:EL; try discriminate. cbn [onward] in E. destruct Hu as [<-|Hu].
    + destruct (look_up_all _ _ _ EL w Hw) as (k & -> & K). exists k. split; [reflexivity|]. rewrite !Bool.orb_true_iff, primitives_spec, memb_spec in K.
      destruct K as [[K|K]|K]; auto. right. right. left. destruct t; [|discriminate]. cbn [itself] in K. now apply String.eqb_eq in K.
    + destruct (IH _ E u Hu w Hw) as (k & -> & K). exists k. split; [reflexivity|]. cbn [map In] in *. tauto.
Qed.
Lemma called_some ts k : In k (map n_name ts) -> type_called ts k <> None.
Proof.
  intros H E. apply in_map_iff in H as (t & <- & Ht). apply (find_none _ _ E) in Ht. now rewrite String.eqb_refl in Ht.
Qed.
Lemma called_fresh ts : forall have k t, type_called ts k = Some t -> ~ In k have -> In t (fresh have ts).
Proof.
  unfold type_called. induction ts as [|u ts IH]; intros have k t E N; [discriminate|]. cbn [find fresh] in *. destruct (String.eqb_spec (n_name u) k) as [<-|Hk].
  - injection E as <-. destruct (memb (n_name u) have) eqn:M; [|now left]. apply memb_spec in M. contradiction.
  - destruct (memb (n_name u) have); [eauto|]. right. apply (IH (n_name u :: have) k); [exact E|]. intros [|]; contradiction.
Qed.
Lemma serialiser_some answers rs k : Forall is_custom rs -> In k (map reader_type rs) -> serialiser_for answers rs k <> None.
Proof.
  intros H Hk. unfold serialiser_for. destruct (find _ rs) as [q|] eqn:E.
  - apply find_some in E as [E _]. rewrite Forall_forall in H. apply H in E. destruct q; try destruct E; discriminate.
  - apply in_map_iff in Hk as (r & <- & Hr). apply (find_none _ _ E) in Hr. now rewrite String.eqb_refl in Hr.
Qed.
Lemma serialiser_none answers rs k : Forall is_custom rs -> serialiser_for answers rs k = None -> ~ In k (map reader_type rs).
Proof. intros H E Hk. exact (serialiser_some answers rs k H Hk E). Qed.
Lemma key_defined b o : defined (key_of b o).
Proof.
  destruct b; [|discriminate]. unfold key_of. apply defined_onward; [apply defined_described|]. intros t _. destruct (part 1 t) as [[[] ?]|]; discriminate.
Qed.

(** Everything but the envelope, a property without a type and the user's serialisers is defined. *)
Theorem inspected_defined double answers mo kf rs t : Forall is_custom rs ->
  (forall ty which, In (RCustom ty which) rs -> forall b o, answers which b o <> Wild) ->
  inspected double answers mo kf rs t = Wild ->
  envelope_of t = Wild \/ exists e, envelope_of t = Gives e /\ prepare mo (map reader_type rs) (List.concat (s_types (e_schema e))) = Wild.
Proof.
  intros Hc Ha. unfold inspected. pose proof (envelope_fate (height t) t (le_n _)) as EF. destruct (envelope_of t) as [e| | |]; cbn [onward]; try discriminate; [|auto].
  destruct EF as [_ Hm]. set (ts := List.concat (s_types (e_schema e))) in *.
  destruct (prepare mo (map reader_type rs) ts) as [[]| | |] eqn:EP; cbn [onward]; try discriminate; [|right; eauto].
  intros W. exfalso. revert W. change (defined (match payload_type e with None => Stops | Some n => match part 1 t with Some (Node AList cs) =>
    if Nat.eqb (length cs) 3 then let% x := value double dec kf ts ts (serialiser_for answers rs) (height t) true (n_name n) (part 0 (Node AList cs)) in Gives ("{ Parsed : " ++ x ++ " }")
    else Stops | _ => Raises RuntimeError end end)).
  destruct (payload_type e) as [n|] eqn:En; [|discriminate]. destruct (part 1 t) as [[a cs]|] eqn:P1; [|discriminate]. destruct a; try discriminate.
  destruct (Nat.eqb (length cs) 3); [|discriminate]. apply defined_onward; [|intros; discriminate].
  apply (value_defined double mo kf ts ts (serialiser_for answers rs)).
  - intros ty g E b o. unfold serialiser_for in E. destruct (find _ rs) as [q|] eqn:Eq; [|discriminate]. apply find_some in Eq as [Eq _]. destruct q; try discriminate.
    + injection E as <-. apply key_defined.
    + injection E as <-. eapply Ha; eauto.
  - intros ty u Ei Eu. pose proof (serialiser_none _ _ _ Hc Ei) as N. split.
    + apply find_some in Eu as [Eu _]. rewrite Forall_forall in Hm. auto.
    + intros w Hw. destruct (prepared_wants mo ts _ EP u (called_fresh ts _ ty u Eu N) w Hw) as (k & -> & K). exists k. split; [reflexivity|].
      unfold readable. destruct K as [K|[K|K]]; [auto| |right; right; now apply called_some]. right. left. now apply serialiser_some.
  - pose proof (part_depth 0 (Node AList cs)). apply part_height in P1. lia.
  - right. right. apply called_some. unfold payload_type in En. apply find_some in En as [En _]. apply in_map. now apply in_rev.
Qed.
Lemma look_up_solid have t ks : (forall w, In w ks -> w <> None) -> look_up have t ks <> Wild.
Proof.
  induction ks as [|o ks IH]; intros H; [discriminate|]. cbn [look_up]. destruct o as [k|]; [|elim (H None (or_introl eq_refl)); reflexivity].
  destruct (_ || _ || _); [|discriminate]. apply IH. intros; apply H; now right.
Qed.
Lemma prepare_solid kf ts : Forall made ts -> Forall solid_type ts -> forall have, prepare kf have ts <> Wild.
Proof.
  induction ts as [|t ts IH]; intros Hm Hs have; [discriminate|]. cbn [prepare]. apply Forall_cons_iff in Hm as [Hm1 Hm]. apply Forall_cons_iff in Hs as [Hs1 Hs].
  destruct (memb (n_name t) have); [auto|]. apply defined_onward; [|intros; apply IH; auto]. apply look_up_solid. intros w Hw ->.
  destruct t as [c|x]; cbn [wanted solid_type made] in *.
  - apply in_map_iff in Hw as (fd & E & Hf). rewrite Forall_forall in Hm1, Hs1. destruct (Hs1 fd Hf) as (s & Es). rewrite (resolved_property fd s (Hm1 fd Hf) Es) in E. discriminate.
  - assert (N : forall l : list string, ~ In None (map Some l)) by (intros l X; apply in_map_iff in X as (? & ? & _); discriminate).
    destruct (r_kind x); [|destruct kf|destruct Hw|]; eapply N; eauto.
Qed.
Theorem placed_defined double answers mo kf rs t : Forall is_custom rs ->
  (forall ty which, In (RCustom ty which) rs -> forall b o, answers which b o <> Wild) ->
  described_by t = Some (vendor 1) -> everywhere placed t = true -> inspected double answers mo kf rs t <> Wild.
Proof.
  intros Hc Ha Hd Hp W. pose proof (parse_safe (S (height t)) t ltac:(lia) Hp) as K. fold (parsed t) in K.
  pose proof (envelope_fate (height t) t (le_n _)) as EF.
  assert (En : envelope_of t = let% e := of_ending (parsed t) in match e with EEnvelope x => Gives x | _ => Wild end) by (unfold envelope_of; now rewrite Hd).
  destruct (inspected_defined double answers mo kf rs t Hc Ha W) as [E|(e & E & P)]; rewrite En in E.
  - destruct (parsed t) as [x|x|]; [|discriminate|destruct K]. destruct K as [(v & Hv & Kv) _]. rewrite Hd in Hv. injection Hv as <-.
    apply kind_exact in Kv; [|cbn; auto]. destruct x; try discriminate; destruct Kv; discriminate.
  - rewrite En, E in EF. destruct EF as [_ Hm]. destruct (parsed t) as [x|x|]; try discriminate. destruct x; try discriminate. injection E as ->.
    destruct K as [_ K]. exact (prepare_solid mo _ Hm K _ P).
Qed.

(** ** Exceptions and failed assertions *)
Section Within.
Context (PE : exn -> Prop) (PS : Prop).
Definition within {A} (r : fate A) : Prop := match r with Raises e => PE e | Stops => PS | _ => True end.
Lemma within_onward {A B} (r : fate A) (g : A -> fate B) : within r -> (forall a, r = Gives a -> within (g a)) -> within (onward r g).
Proof. intros H K. destruct r; cbn in *; auto. Qed.
Lemma within_every {A B} (g : A -> fate B) l : (forall a, In a l -> within (g a)) -> within (every g l).
Proof.
  induction l as [|a l IH]; intros H; [exact I|]. cbn [every]. apply within_onward; [apply H; now left|]. intros b _.
  apply within_onward; [apply IH; intros; apply H; now right|]. intros. exact I.
Qed.
Hypothesis HR : PE RuntimeError.
Lemma within_name o : within (of_ending (name_of o)).
Proof. destruct o as [[[] ?]|]; exact HR || exact I. Qed.
Lemma within_symbol o : within (of_ending (symbol_of o)).
Proof. destruct o as [[[] ?]|]; exact HR || exact I. Qed.
Lemma within_described o : within (described_tree o).
Proof. destruct o as [[[] ?]|]; exact HR || exact I. Qed.
Lemma within_some ts t : within (some_type ts t).
Proof. unfold some_type. apply within_onward; [apply within_name|]. intros fp _. destruct (type_printed ts fp); exact HR || exact I. Qed.
Lemma within_key b o : within (key_of b o).
Proof. destruct b; [|exact HR]. unfold key_of. apply within_onward; [apply within_described|]. intros t _. destruct (part 1 t) as [[[] ?]|]; exact HR || exact I. Qed.
Lemma within_look_up have t ks : within (look_up have t ks).
Proof. induction ks as [|[k|] ks IH]; [exact I| |exact I]. cbn [look_up]. destruct (_ || _ || _); [exact IH|exact HR]. Qed.
Lemma within_prepare kf ts : forall have, within (prepare kf have ts).
Proof. induction ts as [|t ts IH]; intros have; [exact I|]. cbn [prepare]. destruct (memb _ _); [auto|]. apply within_onward; [apply within_look_up|auto]. Qed.

Context (double : N -> string) (kf : bool) (known ts : list notation) (inst : string -> option (bool -> option tree -> fate string)).
Hypothesis HB : PE BadCast.
Hypothesis Hinst : forall ty g, inst ty = Some g -> forall b o, within (g b o).
Notation fated := (value double dec kf known ts inst).
(** [all]: every part of the payload, at any depth. *)
Context (all : tree -> Prop).
Hypothesis Hall : forall t k p, all t -> part k t = Some p -> all p.
Hypothesis HS : forall c c' ty t fp, type_called known ty = Some (TComposite c) -> all t -> described_tree (Some t) = Gives t -> symbol_of (part 0 t) = Got fp ->
  type_printed ts fp = Some (TComposite c') -> length (c_fields c') <> length (c_fields c) -> PS.
Lemma element_part p t : In p (elements t) -> exists k, part k t = Some p.
Proof.
  destruct t as [a cs]. intros H. assert (Hc : In p cs) by (destruct a; try destruct H; exact H). apply in_split in Hc as (l1 & l2 & ->).
  exists (length l1). unfold part. cbn [tree_children]. rewrite app_length. cbn [length]. rewrite Nat.min_l by lia. rewrite nth_error_app2, Nat.sub_diag by lia. reflexivity.
Qed.
Lemma within_value : forall n b ty o, (forall t, o = Some t -> all t) -> within (fated n b ty o).
Proof.
  induction n as [|n IH]; intros b ty o Ho; [exact I|]. cbn [value].
  destruct (primitive double dec ty o) as [r|] eqn:Ep.
  { revert Ep. unfold primitive. repeat (destruct (String.eqb ty _)); intros [= <-]; try exact I; try exact HR. apply within_onward; [apply within_name|]. intros. exact I. }
  destruct (inst ty) as [g|] eqn:Ei; [eapply Hinst; eauto|]. destruct (type_called known ty) as [t|] eqn:Et; [|exact I].
  assert (Q : forall j k t p, o = Some t -> inside j (part k t) = Some p -> all p).
  { intros j k u p E. destruct (part k u) as [q|] eqn:Eq; [|discriminate]. cbn [inside]. eauto. }
  destruct t as [c|x].
  - unfold object_of. assert (D : within
      (let% t := described_tree o in let% fp := of_ending (symbol_of (part 0 t)) in
       match type_printed ts fp with
       | None => Raises RuntimeError
       | Some (TRestricted _) => Raises BadCast
       | Some (TComposite c') =>
           if Nat.eqb (length (c_fields c')) (length (c_fields c)) then
             match part 1 t with
             | Some (Node AList cs) =>
                 let% xs := every (property (fated n) (Node AList cs)) (numbered (c_fields c)) in
                 Gives (braces (map (fun p => f_name (fst p) ++ " : " ++ snd p) (combine (c_fields c') xs)))
             | _ => Raises RuntimeError
             end
           else Stops
       end)).
    { apply within_onward; [apply within_described|]. intros t Ht. pose proof Ht as Hd. apply described_depth in Ht.
      apply within_onward; [apply within_symbol|]. intros fp Hfp. destruct (type_printed ts fp) as [[c'|]|] eqn:Ef; [|exact HB|exact HR].
      destruct (Nat.eqb_spec (length (c_fields c')) (length (c_fields c))) as [_|Hl].
      2:{ apply (HS c c' ty t fp); auto; [now rewrite <- Ht|]. destruct (symbol_of (part 0 t)); cbn in Hfp; congruence. }
      destruct (part 1 t) as [[a bs]|] eqn:P1; [|exact HR]. destruct a; try exact HR. apply within_onward; [|intros; exact I]. apply within_every. intros p Hp.
      unfold property. destruct (property_type (snd p)) as [ty'|]; [|exact I]. apply IH. intros q Hq. apply (Q (fst p) 1 t q Ht). now rewrite P1. }
    destruct o as [[[] cs]|]; try exact D. exact I.
  - assert (Sq : forall e, within (sequence_of ts (fated n) e o)).
    { intros e. unfold sequence_of. apply within_onward; [apply within_described|]. intros t Ht. apply described_depth in Ht.
      apply within_onward; [apply within_some|]. intros _ _. apply within_onward; [|intros; exact I]. apply within_every. intros p Hp. apply IH. intros q [= <-].
      destruct (part 1 t) as [body|] eqn:P1; [|destruct Hp]. cbn [parts_of_list] in Hp. apply element_part in Hp as (k & Hk). eauto. }
    assert (Mp : forall k v, within (mapping_of kf ts (fated n) k v o)).
    { intros k v. unfold mapping_of. apply within_onward; [apply within_described|]. intros t Ht. apply described_depth in Ht.
      apply within_onward; [apply within_some|]. intros _ _. apply within_onward; [|intros; exact I]. apply within_every. intros i _. unfold entry_of.
      destruct kf; (apply within_onward; [apply IH; eauto|]; intros ? _; apply within_onward; [apply IH; eauto|]; intros; exact I). }
    assert (Cn : within (constant_of o)).
    { unfold constant_of. apply within_onward; [apply within_described|]. intros. apply within_onward; [apply within_name|]. intros. apply within_name. }
    destruct (r_kind x); destruct (r_of x) as [|k1 [|k2 [|]]]; try exact I; auto.
Qed.
End Within.

Theorem inspected_raises double answers mo kf rs t e : inspected double answers mo kf rs t = Raises e ->
  e = RuntimeError \/ e = OutOfRange \/ e = BadCast \/ exists ty which b o, In (RCustom ty which) rs /\ answers which b o = Raises e.
Proof.
  intros E. set (PE e := e = RuntimeError \/ e = OutOfRange \/ e = BadCast \/ exists ty which b o, In (RCustom ty which) rs /\ answers which b o = Raises e).
  change (PE e). assert (HR : PE RuntimeError) by (left; reflexivity). assert (HB : PE BadCast) by (right; right; left; reflexivity).
  assert (W : within PE True (inspected double answers mo kf rs t)); [|rewrite E in W; exact W]. clear E. unfold inspected.
  apply within_onward.
  { unfold envelope_of. destruct (described_by t); [|exact I]. apply within_onward; [|intros [] _; exact I]. pose proof (parse_tame (S (height t)) t) as T. fold (parsed t) in T.
    destruct (parsed t); try exact I. cbn. destruct (T _ eq_refl) as [->| ->]; [exact HR|right; left; reflexivity]. }
  intros x _. apply within_onward; [now apply within_prepare|]. intros _ _. destruct (payload_type x) as [n|]; [|exact I].
  destruct (part 1 t) as [[a cs]|]; [|exact HR]. destruct a; try exact HR. destruct (Nat.eqb _ 3); [|exact I]. apply within_onward; [|intros; exact I].
  apply (within_value PE True HR double kf _ _ _ HB) with (all := fun _ => True); auto.
  intros ty g Eg b o. unfold serialiser_for in Eg. destruct (find _ rs) as [q|] eqn:Eq; [|discriminate]. apply find_some in Eq as [Eq _]. destruct q; try discriminate.
  - injection Eg as <-. now apply within_key.
  - injection Eg as <-. destruct (answers which b o) as [|e'| |] eqn:Ea; try exact I. right. right. right. eauto 6.
Qed.

Lemma somewhere_part t q k p : somewhere t q -> part k q = Some p -> somewhere t p.
Proof. intros H. revert p. induction H as [t|t j q0 q Hj _ IH]; intros p Hp; eauto using here_itself, further_in. Qed.
Theorem inspected_stops double answers mo kf rs t : inspected double answers mo kf rs t = Stops ->
  exists e, envelope_of t = Gives e /\ let ts := List.concat (s_types (e_schema e)) in
  ((payload_type e = None) \/
   (exists cs, part 1 t = Some (Node AList cs) /\ length cs <> 3) \/
   (exists o fp ty c c', somewhere t o /\ tree_atom o = ADescribed /\ symbol_of (part 0 o) = Got fp /\
      type_called ts ty = Some (TComposite c) /\ type_printed ts fp = Some (TComposite c') /\ length (c_fields c') <> length (c_fields c)) \/
   exists ty which b o, In (RCustom ty which) rs /\ answers which b o = Stops).
Proof.
  unfold inspected. pose proof (envelope_fate (height t) t (le_n _)) as EF. destruct (envelope_of t) as [e| | |]; cbn [onward]; try discriminate; [|destruct EF].
  intros E. exists e. split; [reflexivity|]. set (ts := List.concat (s_types (e_schema e))) in *. cbv zeta. pose proof (within_prepare (fun _ => True) False I mo ts (map reader_type rs)) as WP.
  destruct (prepare mo _ ts) as [[]| | |]; cbn [onward] in E; try discriminate; [|destruct WP].
  destruct (payload_type e) as [n|]; [|auto]. destruct (part 1 t) as [[a cs]|] eqn:P1; [|discriminate]. destruct a; try discriminate.
  destruct (Nat.eqb_spec (length cs) 3) as [_|N]; [|right; left; eauto]. right. right.
  match goal with |- ?G => set (PS := G) end.
  assert (W : within (fun _ => True) PS (let% x := value double dec kf ts ts (serialiser_for answers rs) (height t) true (n_name n) (part 0 (Node AList cs)) in Gives ("{ Parsed : " ++ x ++ " }"))).
  2:{ rewrite E in W. exact W. }
  apply within_onward; [|intros; exact I]. apply (within_value (fun _ => True) PS I double kf _ _ _ I) with (all := somewhere t).
  - intros ty g Eg b o. unfold serialiser_for in Eg. destruct (find _ rs) as [q|] eqn:Eq; [|discriminate]. apply find_some in Eq as [Eq _]. destruct q; try discriminate.
    + injection Eg as <-. now apply within_key.
    + injection Eg as <-. destruct (answers which b o) as [|e'| |] eqn:Ea; try exact I. right. eauto 6.
  - intros. eapply somewhere_part; eauto.
  - intros c c' ty o fp H1 H2 H3 H4 H5 H6. left. exists o, fp, ty, c, c'. repeat split; auto. destruct o as [[] ?]; try discriminate; reflexivity.
  - intros p Hp. eapply further_in; [exact P1|]. eapply further_in; [exact Hp|]. apply here_itself.
Qed.
