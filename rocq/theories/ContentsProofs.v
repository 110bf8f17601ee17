(** Inspecting a blob whose payload may be anything. *)
From Coq Require Import Lia Permutation.
From Verif Require Import Base Proton ProtonProofs TypeNames Schema SpecSchema SchemaProofs SpecOrdering Descriptors SpecDescriptors DescriptorsProofs
  Factory SpecFactory FactoryProofs Readers SpecReaders Blob ReadersProofs SpecAccept AcceptProofs SpecDisplay SpecInstalled DisplayProofs.
Import List ListNotations.
Open Scope string_scope.

(** ** Parsed entries are made by the constructors *)
Definition post {A} (Q : A -> Prop) (m : PM A) : Prop := forall d a d', m d = Ok a d' -> Q a.
Lemma post_bind {A B} (P : A -> Prop) (Q : B -> Prop) (m : PM A) (k : A -> PM B) : post P m -> (forall a, P a -> post Q (k a)) -> post Q (bind m k).
Proof. intros H1 H2 d b d' H. apply bind_inv in H as (a & d1 & H & H'). eapply H2; [eapply H1; exact H|exact H']. Qed.
Lemma post_then {A B} (Q : B -> Prop) (m : PM A) (k : A -> PM B) : (forall a, post Q (k a)) -> post Q (bind m k).
Proof. intros H. apply (post_bind (fun _ => True)); [intros d a d' _; exact I|auto]. Qed.
Lemma post_ret {A} (Q : A -> Prop) a : Q a -> post Q (ret a).
Proof. intros H d x d' [= <- _]. exact H. Qed.
Lemma post_enter {A} (Q : A -> Prop) b (m : PM A) : post Q m -> post Q (auto_enter b m).
Proof. intros H d x d' E. unfold auto_enter in E. apply finally_inv in E as (d1 & E & _). eapply H; exact E. Qed.
Lemma post_list_enter {A} (Q : A -> Prop) b (m : nat -> PM A) : (forall n, post Q (m n)) -> post Q (auto_list_enter b m).
Proof. intros H d x d' E. unfold auto_list_enter in E. apply finally_inv in E as (d1 & E & _). eapply H; exact E. Qed.
Lemma post_while {A} (Q : A -> Prop) (body : A -> PM A) acc : Q acc -> (forall a, Q a -> post Q (body a)) -> post Q (while_next body acc).
Proof.
  intros Ha Hb d x d' E. unfold while_next in E. revert E. generalize (length (siblings (here d))) as n. intros n. revert acc Ha d.
  induction n as [|n IH]; intros acc Ha d0 E; cbn [while_loop] in E.
  - destruct (pn_next_ok d0); [discriminate|]. now injection E as <- _.
  - destruct (pn_next_ok d0); [|now injection E as <- _]. apply bind_inv in E as (a & d1 & E1 & E2). eapply IH; [|exact E2]. eapply Hb; eauto.
Qed.
Lemma post_lift {A} (Q : A -> Prop) (m : res A) : (forall a, m = Ret a -> Q a) -> post Q (lift m).
Proof. intros H d a d' E. apply lift_inv in E as [E _]. auto. Qed.

Definition made_element (e : element) : Prop :=
  match e with
  | EEnvelope x => Forall made (List.concat (s_types (e_schema x)))
  | ESchema s => Forall made (List.concat (s_types s))
  | EField f => field_made f
  | EType t => made t
  | _ => True
  end.
Lemma parsed_made fuel : post made_element (dispatchDescribed fuel).
Proof.
  induction fuel as [|fuel IH]; [intros d a d' H; discriminate|]. cbn [dispatchDescribed].
  apply post_then. intros _. apply post_enter, post_then. intros _ d a d' H. revert H. generalize (pn_get_ulong d) as id. intros id.
  revert d a d'. change (post made_element (build_id (dispatchDescribed fuel) id)). set (rec := dispatchDescribed fuel) in *.
  unfold build_id. destruct (registered id) as [[kind sym val]|]; [|intros d a d' H; discriminate].
  unfold build. cbn [d_kind d_val].
  assert (I : forall v, post made_element (build_ignored v)) by (intros v; apply post_then; intros _; now apply post_ret).
  destruct kind; try apply I.
  - intros d a d' H. discriminate.
  - unfold build_envelope. apply post_then. intros _. apply (post_bind (fun p => Forall made (List.concat (s_types (fst p))))).
    + apply post_enter, post_then. intros o. apply post_then. intros _. apply (post_bind made_element); [exact IH|]. intros e He.
      apply (post_bind (fun s => Forall made (List.concat (s_types s)))).
      { intros d s d' H. apply as_schema_inv in H as [-> _]. exact He. }
      intros s Hs. apply post_then. intros _. now apply post_ret.
    + intros [s o] Hs. now apply post_ret.
  - unfold build_schema. apply post_then. intros _. apply (post_bind (fun l => Forall made (List.concat l))); [|intros l Hl; now apply post_ret].
    apply post_list_enter. intros _. apply post_while; [constructor|]. intros l Hl. apply post_list_enter. intros _. apply post_while; [exact Hl|].
    clear l Hl. intros l Hl. apply (post_bind made_element); [exact IH|]. intros e He. apply (post_bind made).
    { intros d s d' H. apply as_type_inv in H as [-> _]. exact He. }
    intros t Ht. apply post_lift. intros l' H. apply insert_keeps in H. rewrite H. now constructor.
  - unfold build_object. apply post_then. intros _. apply post_enter, post_then. intros s. now apply post_ret.
  - unfold build_field. apply post_then. intros _. apply post_enter. do 13 (apply post_then; intros ?).
    apply (post_bind field_made); [|intros f Hf; now apply post_ret]. apply post_lift. intros f H. repeat eexists. exact H.
  - unfold build_composite. apply post_then. intros _. apply post_enter. do 9 (apply post_then; intros ?).
    apply (post_bind (Forall field_made)); [|intros fs Hf; now apply post_ret]. apply post_list_enter. intros _. apply post_while; [constructor|].
    intros fs Hf. apply (post_bind made_element); [exact IH|]. intros e He. apply (post_bind field_made).
    { intros d s d' H. apply as_field_inv in H as [-> _]. exact He. }
    intros f H. apply post_ret. apply Forall_app. auto.
  - unfold build_restricted. apply post_then. intros _. apply post_enter. do 9 (apply post_then; intros ?).
    apply (post_bind (fun r => made (TRestricted r))); [|intros r Hr; now apply post_ret]. apply post_lift. intros r H. repeat eexists. exact H.
  - unfold build_choice. apply post_then. intros _. apply post_enter, post_then. intros s. now apply post_ret.
Qed.
Lemma read_envelope_inv F d e d' : read_envelope F d = Ok e d' -> dispatchDescribed (S F) d = Ok (EEnvelope e) d'.
Proof.
  unfold read_envelope. cbn [dispatchDescribed]. destruct (is_described d) eqn:E; [|discriminate].
  intros H. apply bind_inv in H as (x & d1 & H & H'). destruct x; try discriminate. injection H' as <- <-.
  unfold bind at 1. unfold attest_is_described, require. change (is_type TDescribed d) with (is_described d). rewrite E.
  unfold auto_enter in *. apply finally_inv in H as (d2 & H & ->). unfold finally, bind, is_ulong, require.
  replace (is_type TULong (w_enter d)) with true; [now rewrite H|].
  unfold is_type. destruct (w_enter d) as [[cs|l [[] cs] r] u]; try reflexivity; exfalso; change (pn_get_ulong _) with 0%N in H;
    unfold build_id in H; rewrite registered_zero in H; discriminate.
Qed.

(** ** Installed serialisers are found *)
Lemma installed_found mo h f f' r : run mo h f f' -> In (Install r) h -> exists i, byType f' (reader_type r) = Some i /\ nth_error (heap f') i = Some r.
Proof.
  induction 1 as [|o h f f1 f2 Hc Hs R IH]; [intros []|]. intros [-> |H]; [|auto].
  destruct Hc as [Hc Hn]. unfold SpecFactory.steps in Hs. cbn [effect] in Hs. destruct Hs as [Hs|[e Hs]]; [|discriminate].
  destruct (install_ext r f f1 Hn Hs) as (_ & H1 & H2 & _). pose proof (run_ext _ _ _ _ R) as [E1 E2]. eauto.
Qed.
Lemma installed_custom mo h f f' r : run mo h f f' -> In (Install r) h -> is_custom r.
Proof. induction 1 as [|o h f f1 f2 Hc Hs R IH]; [intros []|]. intros [-> |H]; [apply Hc|auto]. Qed.
Lemma installed_locked mo h f s f' r : run mo h new_factory f -> Forall proper (List.concat (s_types s)) -> process mo s f = Ok tt f' ->
  In (Install r) h -> exists i, byType f' (reader_type r) = Some i /\ lock f' i = Some r.
Proof.
  intros R Hp HP Hr. destruct (installed_found _ _ _ _ _ R Hr) as (i & H1 & H2).
  pose proof (entries_ext mo _ f (propers_okent _ Hp)) as X. unfold process in HP. rewrite HP in X. destruct X as [E1 E2].
  exists i. split; [auto|]. eapply byType_lock; eauto.
Qed.

Lemma displays_incl fmt numeral kf inst ts ts' : incl ts ts' -> forall named ty o x, displays fmt numeral kf ts inst named ty o x -> displays fmt numeral kf ts' inst named ty o x.
Proof.
  intros Hi. fix IH 5. intros named ty o x H.
  destruct H as [o|o|o|o|t s Hs|o|c t H1 H2|c c' t body xs H1 H2 H3 H4 H5 H6 H7 H8|r e t body xs H1 H2 H3 H4 H5 H6 H7|r k v t body xys H1 H2 H3 H4 H5 H6 H7|r t s H1 H2 H3 H4 H5|ty o x H].
  - constructor.
  - constructor.
  - constructor.
  - constructor.
  - now constructor.
  - constructor.
  - apply shows_null; auto.
  - eapply shows_object; eauto. clear -IH H8. induction H8 as [|a b l l' (ty & A & B) _ IHf]; constructor; [|exact IHf]. exists ty. split; [exact A|]. apply IH. exact B.
  - eapply shows_list; eauto.
    + destruct H5 as (p & P & u & Hu & C). exists p. eauto.
    + clear -IH H7. induction H7 as [|a b l l' B _ IHf]; constructor; [|exact IHf]. apply IH. exact B.
  - eapply shows_map; eauto.
    + destruct H5 as (p & P & u & Hu & C). exists p. eauto.
    + clear -IH H7. induction H7 as [|a b l l' [B C] _ IHf]; constructor; [|exact IHf]. split; apply IH; assumption.
  - apply shows_constant; auto.
  - now apply shows_installed.
Qed.
Lemma covered_perm h ts ts' : Permutation ts' ts -> covered h ts -> covered h ts'.
Proof.
  intros P H t k Ht Hk. destruct (H t k (Permutation_in _ P Ht) Hk) as [A|[(u & A & B)|A]]; [auto| |auto].
  right. left. exists u. split; [|exact B]. eapply Permutation_in; [symmetry; exact P|exact A].
Qed.
Lemma envelope_high p groups x n : height (envelope_tree p groups [x]) < n -> exists m, S n = S (S (S (S m))).
Proof.
  unfold envelope_tree, described, list_of. rewrite height_node, !heights_cons, height_node, heights_cons. intros H.
  assert (1 <= height p) by (destruct p; rewrite height_node; lia).
  destruct n as [|[|[|n]]]; try lia. eauto.
Qed.

(** ** Blobs *)
Section Whole.
Context (fmt : N -> string) (custom : nat -> option string -> PM ivalue) (mo kf : bool) (fuel : nat).
Context (tells : nat -> bool -> option tree -> string -> Prop) (h : list op) (cf : factory).
Hypothesis Hcustom : custom_as custom tells.
Hypothesis R : run mo h new_factory cf.

Lemma enter2_inv {A} (m : PM A) l t r u x d' : auto_enter true m (Data (At l t r) u) = Ok x d' ->
  exists d0 d1, upon t 1 (Frame l (tree_atom t) r :: u) d0 /\ m d0 = Ok x d1 /\ d' = pn_exit d1.
Proof.
  intros H. unfold auto_enter in H. apply finally_inv in H as (d1 & H & ->). destruct t as [a cs].
  exists (pn_next (w_enter (Data (At l (Node a cs) r) u))), d1. split; [|auto]. apply upon_next, upon_enter.
Qed.

Section Schema.
Context (e : envelope) (cf' : factory) (n : notation).
Notation ts := (List.concat (s_types (e_schema e))).
Hypothesis Hp : Forall proper ts.
Hypothesis HP : process mo (e_schema e) cf = Ok tt cf'.
Hypothesis Hc : consistent h ts.
Hypothesis Hn : In n ts.
Hypothesis One : one_name_per_fingerprint ts.
Lemma payload_sound t text d' : covered h ts -> forall i r, byDescriptor cf' (n_descriptor n) = Some i -> reader_at i cf' = Some r ->
  dump_payload fmt custom kf fuel cf' (e_schema e) r (decoded t) = Ok text d' ->
  d' = decoded t /\ exists body p x, part 1 t = Some body /\ tree_atom body = AList /\ length (tree_children body) = 3 /\ part 0 body = Some p /\
    displays fmt dec kf ts (installed_by tells h) true (n_name n) (Some p) x /\ text = "{ Parsed : " ++ x ++ " }".
Proof.
  intros Hcov i r Hi Hr H. pose proof (history_ready _ _ _ _ _ R Hp HP Hc) as Hready.
  destruct (processed_resolves mo cf (e_schema e) cf' ltac:(eexists; eauto) Hp One HP n Hn) as (i' & r' & H1 & H2 & H3 & _).
  assert (i' = i) by congruence. subst i'. assert (r' = r) by (apply lock_heap in H3; unfold reader_at in Hr; congruence). subst r'.
  unfold dump_payload, decoded in H. apply enter2_inv in H as (d0 & d1 & O & H & ->).
  apply bind_inv in H as (x1 & d2 & H0 & H). apply require_inv in H0 as [-> H0]. apply dtype_view in H0; [|discriminate].
  destruct H0 as (l1 & body & r1 & u1 & -> & Hb). apply type_list in Hb.
  pose proof (upon_view _ _ _ _ O) as P1. cbn [view here] in P1. symmetry in P1.
  assert (u1 = [Frame [] (tree_atom t) []]) as -> by (destruct (upon_at _ _ _ _ _ O P1) as (l & rr & E); congruence).
  apply bind_inv in H as (x2 & d3 & H0 & H). destruct (Nat.eqb_spec (pn_get_list (Data (At l1 body r1) [Frame [] (tree_atom t) []])) 3) as [E3|]; [|discriminate].
  injection H0 as _ <-. apply enter_any_inv in H as (d4 & d5 & O4 & H & ->). apply bind_inv in H as (v & d6 & H0 & H). injection H as <- <-.
  destruct (dump_sound fmt custom kf cf' (e_schema e) h tells Hready (fun r Hr => installed_locked _ _ _ _ _ r R Hp HP Hr) (fun r => installed_custom _ _ _ _ r R)
    Hcov Hcustom fuel (n_name n) i r ltac:(right; left; eauto) H1 H3 _ _ _ _ (upon_level _ _ _ _ O4) H0) as (-> & x & Hx & Hd).
  rewrite (upon_view _ _ _ _ O4) in Hd.
  rewrite (upon_exit _ _ _ _ _ _ (upon_next _ _ _ _ O4)). split; [now apply (upon_exit [] t [] [] 1)|].
  assert (Hlen : length (tree_children body) = 3) by (destruct body as [ab cb]; cbn in Hb; subst ab; exact E3).
  exists body. destruct (part 0 body) as [p|] eqn:P0.
  - exists p, x. rewrite Hx. auto 7.
  - unfold part in P0. destruct (tree_children body); discriminate.
Qed.
Hypothesis Hdist : distinct_fingerprints ts.
Lemma payload_complete t body p x : part 1 t = Some body -> tree_atom body = AList -> length (tree_children body) = 3 -> part 0 body = Some p -> height t < fuel ->
  displays fmt dec kf ts (installed_by tells h) true (n_name n) (Some p) x ->
  exists i r, byDescriptor cf' (n_descriptor n) = Some i /\ reader_at i cf' = Some r /\
  dump_payload fmt custom kf fuel cf' (e_schema e) r (decoded t) = Ok ("{ Parsed : " ++ x ++ " }") (decoded t).
Proof.
  intros P1 Hb Hl P0 Hh Hx. pose proof (history_ready _ _ _ _ _ R Hp HP Hc) as Hready.
  destruct (processed_resolves mo cf (e_schema e) cf' ltac:(eexists; eauto) Hp One HP n Hn) as (i & r & H1 & H2 & H3 & _).
  exists i, r. split; [exact H2|]. split; [now apply lock_heap|]. unfold decoded, dump_payload.
  assert (O1 : upon t 1 [Frame [] (tree_atom t) []] (pn_next (w_enter (Data (At [] t []) [])))) by (destruct t as [a cs]; apply upon_next, upon_enter).
  destruct (upon_at _ _ _ _ _ O1 P1) as (l1 & r1 & E1).
  assert (B : exists text, auto_enter false (let! v := dump fmt custom kf cf' (e_schema e) fuel r (Some "{ Parsed") in ret (show v ++ " }"))
     (Data (At l1 body r1) [Frame [] (tree_atom t) []]) = Ok text (Data (At l1 body r1) [Frame [] (tree_atom t) []]) /\ text = "{ Parsed : " ++ x ++ " }").
  { apply entered. intros d0 O0. pose proof (part_depth 0 body). pose proof (part_depth 1 t) as D1. rewrite P1 in D1. cbn [depth] in D1.
    rewrite <- P0, <- (upon_view _ _ _ _ O0) in Hx.
    destruct (dump_complete fmt custom kf cf' (e_schema e) h tells Hready (fun r Hr => installed_locked _ _ _ _ _ r R Hp HP Hr) Hcustom Hdist fuel (n_name n) i r H1 H3
      (Some "{ Parsed") d0 x (upon_level _ _ _ _ O0) Hx) as (v & E & Ev); [rewrite (upon_view _ _ _ _ O0); lia|].
    eexists _, 1, _. split; [eapply bind_ok; [exact E|reflexivity]|]. split; [apply upon_next, O0|]. rewrite Ev. unfold labelled. reflexivity. }
  destruct B as (text & B & ->). erewrite auto_enter2_ok; [|rewrite E1; eapply bind_ok; [|eapply bind_ok; [|exact B]]].
  - rewrite <- E1. f_equal. now apply (upon_exit [] t [] [] 1).
  - destruct body as [ab cb]. cbn in Hb. subst ab. reflexivity.
  - cbn beta. replace (pn_get_list (Data (At l1 body r1) [Frame [] (tree_atom t) []])) with 3; [reflexivity|]. destruct body as [ab cb]. cbn in Hb, Hl. subst ab. now rewrite <- Hl.
Qed.
End Schema.

(** Whatever is shown is in the blob. *)
Theorem shown_is_there t text st' : dumpContents fmt custom mo kf fuel (decoded t, cf) = Ok text st' ->
  exists e, accepted_envelope t e /\ Forall made (List.concat (s_types (e_schema e))) /\
  forall n, let ts := List.concat (s_types (e_schema e)) in
    (forall u, In u ts -> typeIsPrimitive (n_name u) = false) -> consistent h ts -> covered h ts -> one_name_per_fingerprint ts ->
    In n ts -> n_descriptor n = e_descriptor e ->
    fst st' = decoded t /\ exists body p x, part 1 t = Some body /\ tree_atom body = AList /\ length (tree_children body) = 3 /\ part 0 body = Some p /\
      displays fmt dec kf ts (installed_by tells h) true (n_name n) (Some p) x /\ text = "{ Parsed : " ++ x ++ " }".
Proof.
  intros H. unfold dumpContents in H. apply bind_inv in H as (e & st1 & H1 & H). unfold on_data in H1.
  destruct (read_envelope fuel (decoded t)) as [e' d1| | | |] eqn:E; try discriminate. injection H1 as -> <-.
  apply read_envelope_inv in E. pose proof (parsed_made _ _ _ _ E) as M. apply accepts_only in E as [-> A]. fold (decoded t) in H.
  apply bind_inv in H as (y & st2 & H2 & H). unfold on_factory in H2.
  destruct (process mo (e_schema e) cf) as [[] cf'| | | |] eqn:HP; try discriminate. injection H2 as _ <-. cbn [snd] in H.
  destruct (byDescriptor cf' (e_descriptor e)) as [i|] eqn:Ei; [|discriminate]. destruct (reader_at i cf') as [r|] eqn:Er; [|discriminate].
  unfold on_data in H. destruct (dump_payload fmt custom kf fuel cf' (e_schema e) r (decoded t)) as [text' d2| | | |] eqn:Ed; try discriminate.
  injection H as -> <-. cbn [fst]. exists e. split; [exact A|]. split; [exact M|]. intros n Hn Hc Hcov One Hin En.
  assert (Hp : Forall proper (List.concat (s_types (e_schema e)))) by (apply Forall_forall; intros u Hu; split; [|now apply Hn]; cbn in M; rewrite Forall_forall in M; now apply M).
  rewrite <- En in Ei. exact (payload_sound e cf' n Hp HP Hc Hin One t text d2 Hcov i r Ei Er Ed).
Qed.
(** For a blob with a payload of any form in a proper envelope, and a schema the
    factory can process. *)
Theorem shown_exactly groups x fp body : Forall readable_type (List.concat groups) ->
  let blob := envelope_tree (payload_tree fp body) groups [x] in height blob < fuel -> (forall k, unpoisoned cf k) ->
  exists ts, Forall2 type_means (List.concat groups) ts /\ Forall entry_ok ts /\
  forall n, regular ts -> listed ts -> closed cf ts ->
    (forall u, In u ts -> typeIsPrimitive (n_name u) = false) -> consistent h ts -> covered h ts -> distinct_fingerprints ts ->
    In n ts -> n_descriptor n = fp -> forall text,
    (exists st', dumpContents fmt custom mo kf fuel (decoded blob, cf) = Ok text st') <->
    exists y, displays fmt dec kf ts (installed_by tells h) true (n_name n) (Some (payload_tree fp body)) y /\ text = "{ Parsed : " ++ y ++ " }".
Proof.
  intros Hg blob Hh Hclean. destruct (type_results _ Hg) as (ts & H1 & H2 & H3). exists ts. split; [assumption|]. split; [assumption|].
  intros n Hreg Hdep Hcl Hnp Hcons Hcov Hd Ht Hf text.
  assert (Hp : Forall proper ts).
  { rewrite Forall_forall in *. intros u Hu. apply entry_proper; auto. }
  destruct (ordered_processed mo cf ts Hclean Hreg Hdep Hp Hcl) as (levels & cf' & Hi & HP).
  destruct (inserts_conserve ts H3) as (levels' & Hi' & Hperm & _). rewrite Hi in Hi'. injection Hi' as <-.
  destruct (envelope_high _ _ _ _ Hh) as (m & Em). set (e := {| e_schema := schema_of levels; e_descriptor := fp |}).
  assert (E : read_envelope fuel (decoded blob) = Ok e (decoded blob)).
  { apply read_envelope_parsed; [exact I|]. unfold decoded, blob. rewrite Em, envelope_parses. unfold envelope_result, schema_result.
    rewrite (add_types_spec _ _ _ H1), Hi. reflexivity. }
  pose proof (incl_perm _ _ Hperm) as I1. assert (I2 : incl (List.concat levels) ts) by (intros u Hu; eapply Permutation_in; eauto).
  assert (Hp' : Forall proper (List.concat levels)) by (eapply proper_perm; eauto).
  assert (Hd' : distinct_fingerprints (List.concat levels)) by (eapply distinct_perm; eauto).
  assert (One : one_name_per_fingerprint (List.concat levels)) by (intros a b Ha Hb Eab; now rewrite (Hd' a b Ha Hb Eab)).
  assert (D : dumpContents fmt custom mo kf fuel (decoded blob, cf) = match byDescriptor cf' fp with None => Abort | Some i =>
    match reader_at i cf' with Some r => on_data (dump_payload fmt custom kf fuel cf' (schema_of levels) r) (decoded blob, cf') | None => UB end end).
  { unfold dumpContents. unfold bind at 1. unfold on_data at 1. rewrite E. unfold bind at 1, on_factory. cbn [e_schema e]. rewrite HP. reflexivity. }
  split.
  - intros (st' & H). rewrite D in H. destruct (byDescriptor cf' fp) as [i|] eqn:Ei; [|discriminate]. destruct (reader_at i cf') as [r|] eqn:Er; [|discriminate].
    unfold on_data in H. destruct (dump_payload fmt custom kf fuel cf' (schema_of levels) r (decoded blob)) as [text' d2| | | |] eqn:Ed; try discriminate.
    injection H as -> <-. rewrite <- Hf in Ei.
    destruct (payload_sound e cf' n Hp' HP (consistent_perm _ _ _ Hperm Hcons) (I1 _ Ht) One blob text d2 (covered_perm _ _ _ Hperm Hcov) i r Ei Er Ed)
      as (_ & b & p & y & P1 & _ & _ & P0 & Hy & ->). exists y. split; [|reflexivity].
    injection P1 as <-. injection P0 as <-. eapply displays_incl; [|exact Hy]. exact I2.
  - intros (y & Hy & ->). rewrite <- Hf in D.
    destruct (payload_complete e cf' n Hp' HP (consistent_perm _ _ _ Hperm Hcons) (I1 _ Ht) One Hd' blob (list_of [payload_tree fp body; schema_tree groups; x]) (payload_tree fp body) y
      eq_refl eq_refl eq_refl eq_refl Hh (displays_incl _ _ _ _ _ _ I1 _ _ _ _ Hy)) as (i & r & Ei & Er & Ed).
    rewrite Ei, Er in D. cbn [e_schema e] in Ed. unfold on_data in D. rewrite Ed in D. eauto.
Qed.
End Whole.

(** ** Conforming values *)
Lemma part_nth cs a k t : nth_error cs k = Some t -> part k (Node a cs) = Some t.
Proof.
  intros H. unfold part. cbn [tree_children]. rewrite Nat.min_l; [exact H|].
  assert (k < length cs) by (apply nth_error_Some; congruence). lia.
Qed.
Theorem conforming_displayed fmt numeral kf inst ts : forall v named ty, kf = true \/ map_free v -> conforms ts ty v ->
  displays fmt numeral kf ts inst named ty (Some (encode v)) (printed fmt numeral v).
Proof.
  intros v. induction v as [z|z|b|b|x|x| |fp ps IH|fp es IH|fp kvs IH|fp c o] using value_ind'; intros named ty Hm H; inversion H; subst.
  - apply (shows_int _ _ _ _ _ named (Some (encode (VInt z)))).
  - apply (shows_long _ _ _ _ _ named (Some (encode (VLong z)))).
  - apply (shows_double _ _ _ _ _ named (Some (encode (VDouble b)))).
  - apply (shows_boolean _ _ _ _ _ named (Some (encode (VBoolean b)))).
  - apply shows_string. now left.
  - apply (shows_binary _ _ _ _ _ named (Some (encode (VBinary x)))).
  - now apply shows_null.
  - match goal with X : Forall2 _ (c_fields c) ps |- _ => rename X into HP end.
    assert (Ep : braces (map (fun p => f_name (fst p) ++ " : " ++ snd p) (combine (c_fields c) (map (fun p => printed fmt numeral (snd p)) ps))) = printed fmt numeral (VObject (c_descriptor c) ps)).
    { cbn [printed]. unfold braces. do 3 f_equal. clear -HP. induction HP as [|fd p fs ps' (E & _) _ IHp]; cbn [map combine]; [reflexivity|]. cbn [fst snd]. now rewrite IHp, E. }
    rewrite <- Ep. apply (shows_object _ _ _ _ _ _ c c _ (list_of (map (fun p => encode (snd p)) ps))); auto.
    { exists (leaf (ASymbol (c_descriptor c))). auto. }
    assert (K : forall fs ps2, Forall2 (fun fd p => fst p = f_name fd /\ exists ty, property_type fd = Some ty /\ conforms ts ty (snd p)) fs ps2 ->
      forall ps1, ps = (ps1 ++ ps2)%list -> Forall2 (fun p x => exists ty, property_type (snd p) = Some ty /\
        displays fmt numeral kf ts inst true ty (part (length ps1 + fst p) (list_of (map (fun p => encode (snd p)) ps))) x) (numbered fs) (map (fun p => printed fmt numeral (snd p)) ps2)).
    { induction 1 as [|fd p fs ps2 (_ & ty & Hty & Hc) _ IHf]; intros ps1 E; [constructor|]. rewrite numbered_cons. cbn [map]. constructor.
      - exists ty. split; [exact Hty|]. cbn [fst]. rewrite Nat.add_0_r.
        replace (part (length ps1) (list_of (map (fun p => encode (snd p)) ps))) with (Some (encode (snd p))).
        + assert (Hin : In p ps) by (rewrite E; apply in_elt). rewrite Forall_forall in IH. apply (IH p Hin); [|exact Hc].
          destruct Hm as [Hm|Hm]; [now left|right; eapply map_free_object; eauto].
        + symmetry. apply part_nth. rewrite E, map_app, nth_error_app2; rewrite map_length; [|lia]. now rewrite Nat.sub_diag.
      - specialize (IHf (ps1 ++ [p])%list). rewrite <- app_assoc in IHf. specialize (IHf E). clear -IHf. rewrite app_length in IHf. cbn [length] in IHf.
        induction IHf as [|[j q] y l l' (ty & A & B) _ IH]; cbn [map]; constructor; [|exact IH].
        exists ty. split; [exact A|]. cbn [fst snd] in *. now replace (length ps1 + S j) with (length ps1 + 1 + j) by lia. }
    exact (K _ _ HP [] eq_refl).
  - match goal with X : Forall (conforms ts e) es |- _ => rename X into HP end.
    apply (shows_list _ _ _ _ _ _ r e _ (list_of (map encode es)) (map (printed fmt numeral) es)); auto.
    { exists (leaf (ASymbol (r_descriptor r))). split; [reflexivity|]. exists (TRestricted r). split; [assumption|now right]. }
    cbn [elements list_of]. assert (M : forall v, In v es -> kf = true \/ map_free v) by (intros v Hv; destruct Hm as [Hm|Hm]; [now left|right; eapply map_free_list; eauto]).
    clear H Hm. induction es as [|v es IHe]; cbn [map]; constructor.
    + apply Forall_inv in IH. apply IH; [apply M; now left|]. now apply Forall_inv in HP.
    + apply IHe; [now inversion IH|now inversion HP|]. intros w Hw. apply M. now right.
  - destruct Hm as [-> |[]]. match goal with X : Forall (fun kv => conforms ts _ _ /\ _) kvs |- _ => rename X into HP end.
    set (body := Node AMap (flat_map (fun kv => [encode (fst kv); encode (snd kv)]) kvs)).
    replace (printed fmt numeral (VMap (r_descriptor r) kvs)) with (braces (map (fun xy => fst xy ++ " : " ++ snd xy) (map (fun kv => (printed fmt numeral (fst kv), printed fmt numeral (snd kv))) kvs)))
      by (rewrite map_map; reflexivity).
    apply (shows_map _ _ _ _ _ _ r k v _ body); auto.
    { exists (leaf (ASymbol (r_descriptor r))). split; [reflexivity|]. exists (TRestricted r). split; [assumption|now right]. }
    assert (Len : forall l : list (value * value), length (flat_map (fun kv => [encode (fst kv); encode (snd kv)]) l) = 2 * length l)
      by (induction l as [|kv l IHl]; [reflexivity|]; cbn [flat_map]; rewrite app_length, IHl; cbn; lia).
    assert (En : entries body = length kvs). { unfold entries, body. rewrite Len. apply Nat.div2_succ_double. }
    rewrite En.
    assert (K : forall kvs2 kvs1, kvs = (kvs1 ++ kvs2)%list -> Forall2 (fun i xy => displays fmt numeral true ts inst false k (part (2 * i) body) (fst xy) /\ displays fmt numeral true ts inst false v (part (2 * i + 1) body) (snd xy))
      (seq (length kvs1) (length kvs2)) (map (fun kv => (printed fmt numeral (fst kv), printed fmt numeral (snd kv))) kvs2)).
    { induction kvs2 as [|kv kvs2 IHk]; intros kvs1 E; cbn [length seq map]; constructor.
      - assert (Hin : In kv kvs) by (rewrite E; apply in_elt). rewrite Forall_forall in IH, HP. destruct (IH kv Hin) as [I1 I2], (HP kv Hin) as [C1 C2].
        assert (Eb : tree_children body = (flat_map (fun kv => [encode (fst kv); encode (snd kv)]) kvs1 ++ encode (fst kv) :: encode (snd kv) :: flat_map (fun kv => [encode (fst kv); encode (snd kv)]) kvs2)%list)
          by (unfold body; cbn [tree_children]; rewrite E, flat_map_app; reflexivity).
        assert (P0 : part (2 * length kvs1) body = Some (encode (fst kv))).
        { unfold body in *. apply part_nth. cbn [tree_children] in Eb. rewrite Eb, nth_error_app2; rewrite Len; [|lia]. now rewrite Nat.sub_diag. }
        assert (P1 : part (2 * length kvs1 + 1) body = Some (encode (snd kv))).
        { unfold body in *. apply part_nth. cbn [tree_children] in Eb. rewrite Eb, nth_error_app2; rewrite Len; [|lia]. now replace (2 * length kvs1 + 1 - 2 * length kvs1) with 1 by lia. }
        rewrite P0, P1. cbn [fst snd]. split; [apply I1|apply I2]; auto.
      - specialize (IHk (kvs1 ++ [kv])%list). rewrite <- app_assoc, app_length in IHk. cbn [length] in IHk. rewrite Nat.add_1_r in IHk. now apply IHk. }
    exact (K kvs [] eq_refl).
  - apply shows_constant; auto.
    + exists (leaf (ASymbol (r_descriptor r))). split; [reflexivity|]. exists (r_descriptor r). now right.
    + exists (list_of [str c; leaf (AInt o)]). split; [reflexivity|]. exists (str c). split; [reflexivity|]. now left.
Qed.

(** ** Installed serialisers *)
Theorem installed_decides fmt numeral kf mo h cf ts tells named o x r : run mo h new_factory cf -> consistent h ts -> In (Install r) h ->
  displays fmt numeral kf ts (installed_by tells h) named (reader_type r) o x ->
  match r with RPublicKey => named = true /\ public_key o /\ x = "<<<Public Key>>>" | RCustom _ which => tells which named o x | _ => False end.
Proof.
  intros R [_ Hc] Hr H. destruct (Hc r Hr) as [Hp Hn].
  assert (E : exists q, In (Install q) h /\ reader_type q = reader_type r /\
    match q with RPublicKey => named = true /\ public_key o /\ x = "<<<Public Key>>>" | RCustom _ which => tells which named o x | _ => False end).
  { inversion H; subst; try (exfalso; match goal with X : _ = reader_type r |- _ => rewrite <- X in Hp; discriminate end);
      try (exfalso; match goal with X : In ?t ts |- _ => apply (Hn t X); cbn; congruence end). assumption. }
  destruct E as (q & Hq & Eq & T). destruct (installed_found _ _ _ _ _ R Hr) as (i & A1 & A2), (installed_found _ _ _ _ _ R Hq) as (j & B1 & B2).
  rewrite Eq in B1. assert (q = r) by congruence. now subst q.
Qed.
