(** Inspecting any blob: what is written while the payload is shown, and what is not. *)
From Coq Require Import Lia.
From Verif Require Import Base OutputWriter SpecOutputWriter Proton ProtonProofs TypeNames Schema SpecSchema SchemaProofs Descriptors SpecDescriptors Factory SpecFactory FactoryProofs
  Readers SpecReaders Blob ReadersProofs SpecAccept AcceptProofs SpecDisplay SpecInstalled DisplayProofs ContentsProofs SpecReadScript SpecParse ParseProofs
  SpecSupply SupplyProofs SpecFate FateProofs PrepareProofs FateBlobProofs Output SpecOutput OutputProofs OutputReader SpecOutputReader OutputReaderProofs OutputShow SpecOutputShow OutputShowProofs.
Import List ListNotations.
Open Scope string_scope.

(** ** The bound on the depth *)
Lemma and_then_ext {A B} (h : heard A) (f g : A -> heard B) : (forall a, snd h = Gives a -> f a = g a) -> and_then h f = and_then h g.
Proof. unfold and_then. destruct (snd h) as [a|e| |]; auto. intros H. now rewrite (H a eq_refl). Qed.
Lemma must_described o t : snd (must_be_described o) = Gives t -> o = Some t.
Proof. apply described_depth. Qed.
Lemma must_list env o t : snd (must_be_list env o) = Gives t -> o = Some t /\ tree_atom t = AList.
Proof. destruct o as [[[] cs]|]; try discriminate. cbn. now intros [= <-]. Qed.
Section Bound.
Context (env : platform) (double : N -> string) (kf : bool) (known ts : list notation) (inst : string -> option (option string -> option tree -> heard string)).
Notation aloud := (value_aloud env double kf known ts inst).
Lemma aloud_bound : forall n m b ty o, depth o < n -> depth o < m -> aloud n b ty o = aloud m b ty o.
Proof.
  induction n as [|n IH]; intros m b ty o Hn Hm; [lia|]. destruct m as [|m]; [lia|]. cbn [value_aloud].
  destruct (primitive_aloud _ _ b ty o) as [r|]; [reflexivity|]. destruct (inst ty) as [g|]; [reflexivity|].
  assert (Q : forall j k t, o = Some t -> depth (inside j (part k t)) < n /\ depth (inside j (part k t)) < m).
  { intros j k t ->. cbn [depth] in *. pose proof (part_depth k t) as Y. destruct (part k t) as [q|]; cbn [inside depth] in *; [|lia]. pose proof (part_depth j q). lia. }
  assert (E : forall k t p, o = Some t -> In p (parts_of_list (part k t)) -> height p < n /\ height p < m).
  { intros k t p -> Hp. cbn [depth] in *. pose proof (part_depth k t) as Y. destruct (part k t) as [[a cs]|]; [|destruct Hp]. cbn [parts_of_list depth] in *.
    rewrite height_node in Y. destruct a; try destruct Hp; cbn [elements] in Hp; apply heights_in in Hp; lia. }
  destruct (type_called known ty) as [[c|x]|]; [| |reflexivity].
  - assert (X : forall t body l, o = Some t -> part 1 t = Some body -> in_turn (property_aloud env (aloud n) body) l = in_turn (property_aloud env (aloud m) body) l).
    { intros t body l Ho Hb. apply in_turn_ext. intros [i [fd' fd]] _. unfold property_aloud. apply and_then_ext. intros _ _. destruct (property_type fd) as [ty'|]; [|reflexivity].
      pose proof (Q i 1 t Ho) as [Q1 Q2]. rewrite Hb in Q1, Q2. cbn [inside] in Q1, Q2. now rewrite (IH m) by assumption. }
    unfold object_aloud. destruct o as [[a cs]|]; [|reflexivity].
    destruct a; try reflexivity; apply and_then_ext; intros _ _; apply and_then_ext; intros t Ht; apply must_described in Ht;
    apply and_then_ext; intros fp _; (destruct (type_printed ts fp) as [[c'|]|]; [|reflexivity|reflexivity]); (destruct (Nat.eqb _ _); [|reflexivity]);
    apply and_then_ext; intros body Hb; apply must_list in Hb as [Hb _]; now rewrite (X t _ _ Ht Hb).
  - assert (Sq : forall e, sequence_aloud ts (aloud n) e o = sequence_aloud ts (aloud m) e o).
    { intros e. unfold sequence_aloud. apply and_then_ext. intros t Ht. apply must_described in Ht. apply and_then_ext. intros _ _.
      f_equal. apply in_turn_ext. intros p Hp. destruct (E 1 t p Ht Hp). now apply IH. }
    assert (Mp : forall k v, mapping_aloud env kf ts (aloud n) b k v o = mapping_aloud env kf ts (aloud m) b k v o).
    { intros k v. unfold mapping_aloud. apply and_then_ext. intros _ _. apply and_then_ext. intros t Ht. apply must_described in Ht. apply and_then_ext. intros _ _. apply and_then_ext. intros _ _.
      f_equal. apply in_turn_ext. intros i _. unfold entry_aloud.
      destruct (Q (2 * i) 1 t Ht), (Q (2 * i + 1) 1 t Ht). now rewrite !(IH m) by assumption. }
    destruct (r_kind x); destruct (r_of x) as [|k1 [|k2 [|]]]; auto.
Qed.
End Bound.

(** ** Blobs *)
Lemma payload_right' env fmt custom answers kf rs cf e t fuel ty i r out : answers_aloud rs custom answers ->
  (forall ty i, byType cf ty = Some i -> exists r, lock cf i = Some r /\ found_as cf rs (List.concat (s_types (e_schema e))) ty r) ->
  byType cf ty = Some i -> lock cf i = Some r -> height t < fuel ->
  keeps (decoded t) eq out (dump_payload_said env fmt custom kf cf (e_schema e) fuel r (decoded t, out)) (payload_aloud env fmt answers kf rs e ty t).
Proof.
  intros Ha Hf Hi Hr Hh. unfold dump_payload_said, decoded, payload_aloud. apply enter_next_roams. intros d0 O.
  destruct (upon_cases _ _ _ _ O) as [(l1 & body & r1 & -> & P1)|[E1 P1]]; rewrite P1.
  2:{ rewrite E1 in O |- *. unfold roams, bind, list_attested, attest_is_list_said. cbn. eexists. rewrite append_nil. split; [reflexivity|]. eapply upon_among; eauto. }
  apply (keeps_roams _ _ _ _ _ _ _ (upon_among _ _ _ _ O)). eapply keeps_bind; [apply list_keeps'|]. cbv beta. intros _ body' out1 [-> Hb].
  destruct body as [a cs]. cbn in Hb. subst a. unfold bind at 1. cbn [fst pn_get_list here tree_children].
  destruct (Nat.eqb (length cs) 3) eqn:E3; [|reflexivity].
  apply enter_roams. intros d1 O1.
  assert (Db : depth (part 0 (Node AList cs)) < height t).
  { pose proof (part_depth 0 (Node AList cs)). apply part_height in P1. lia. }
  rewrite (aloud_bound _ _ _ _ _ _ (height t) fuel) by lia.
  eapply tells_roams. eapply tells_map; [apply (dump_aloud env fmt custom kf cf (e_schema e) answers rs _ Ha Hf fuel ty i r Hi Hr); [exact O1|lia]|].
  intros v y Tv. unfold FateProofs.told in Tv. rewrite Tv. reflexivity.
Qed.
Theorem inspected_aloud_exactly env fmt custom answers mo kf preface rs cf t fuel out :
  answers_aloud rs custom answers -> run mo (map Install rs) new_factory cf -> (forall r, In r rs -> typeIsPrimitive (reader_type r) = false) ->
  (forall e, envelope_of t = Gives e -> forall n, In n (List.concat (s_types (e_schema e))) -> typeIsPrimitive (n_name n) = false) ->
  height t < fuel ->
  turns_out_aloud t (out ++ preface (decoded t) cf) (dumpContents_said env fmt custom mo kf preface fuel (decoded t, cf, out)) (inspected_aloud env fmt answers mo kf rs t).
Proof.
  intros Ha R Hrs Hn Hh. unfold inspected_aloud, dumpContents_said. cbv zeta. set (out1 := out ++ preface (decoded t) cf).
  unfold bind at 1. unfold on_data at 1. cbv beta iota.
  pose proof (envelope_fate fuel t ltac:(lia)) as E. destruct (envelope_of t) as [e|x| |] eqn:Ee; [|rewrite E; unfold turns_out_aloud; cbn; rewrite append_nil; eauto|destruct E|now rewrite E].
  rewrite silent_then. destruct E as [-> Hm]. set (ts := List.concat (s_types (e_schema e))) in *.
  assert (Hp : Forall proper ts). { rewrite Forall_forall in *. intros n X. split; [auto|]. eapply Hn; eauto. }
  pose proof (process_fate mo rs cf R Hrs (e_schema e) Hp) as P. fold ts in P. unfold bind at 1. unfold on_factory. cbv beta iota.
  destruct (prepare mo (map reader_type rs) ts) as [[]|x| |].
  2:{ destruct P as (cf' & ->). unfold turns_out_aloud. cbn. rewrite append_nil. eauto. } 2:{ destruct P. } 2:{ now rewrite P. }
  rewrite silent_then. destruct P as (cf' & -> & Hf & Hl). cbn [snd ret]. unfold payload_type. fold ts. specialize (Hl (e_descriptor e)). destruct (find _ (rev ts)) as [n|]; [|now rewrite Hl].
  destruct Hl as (i & -> & Hi). destruct (Hf _ _ Hi) as (r & Hr & _). unfold reader_at. rewrite (lock_heap _ _ _ Hr).
  pose proof (payload_right' env fmt custom answers kf rs cf' e t fuel (n_name n) i r out1 Ha Hf Hi Hr Hh) as L.
  unfold keeps in L. unfold turns_out_aloud. destruct (snd (payload_aloud env fmt answers kf rs e (n_name n) t)) as [y|y| |].
  - destruct L as (a & -> & ->). eauto.
  - rewrite L. eauto.
  - now rewrite L.
  - now rewrite L.
Qed.

(** ** Without the output *)
Section Erased.
Context (env : platform) (fmt : N -> string) (custom : nat -> option string -> OM ivalue) (custom' : nat -> option string -> PM ivalue) (kf : bool) (f : factory) (s : schema).
Hypothesis Hc : forall which name, erases (custom which name) (custom' which name).
Lemma erases_trace {A} source n text (m : OM A) m' : erases m m' -> erases (trace env source n text ;; m) m'.
Proof. apply erases_cout. Qed.
Lemma erases_string b : erases (readAndNext_string_said b) (readAndNext_string b).
Proof. apply erases_cout, erases_silently. Qed.
Lemma erases_attested : erases (list_attested env) attest_is_list.
Proof. apply erases_list. Qed.
Lemma erases_next {A} (m : OM A) m' : erases m m' -> erases (auto_next_said m) (auto_next m').
Proof. intros H d out. apply erases_finally; auto. Qed.
Lemma erases_throw {A} e : erases (@throw (data * string) A e) (throw e).
Proof. intros d out. cbn. auto using begins_refl. Qed.
Lemma erases_ub {A} : erases (@ub (data * string) A) ub.
Proof. intros d out. exact I. Qed.
Lemma erases_abort {A} : erases (@abort (data * string) A) abort.
Proof. intros d out. exact I. Qed.
Lemma erases_property p name : erases (dump_property_said env fmt p name) (dump_property fmt p name).
Proof.
  destruct p; try (destruct name; apply erases_silently).
  - destruct name as [x|]; cbn [dump_property_said dump_property].
    + do 2 apply erases_trace. apply erases_bind; [apply erases_silently|]. intros z. apply erases_trace, erases_ret.
    + apply erases_trace. apply erases_bind; [apply erases_silently|]. intros z. apply erases_ret.
  - destruct name as [x|]; cbn [dump_property_said dump_property]; apply erases_trace; (apply erases_bind; [apply erases_string|]); intros z; apply erases_ret.
Qed.
Lemma erases_enum name : erases (dump_enum_said name) (dump_enum name).
Proof.
  apply erases_next. apply erases_bind; [apply erases_silently|]. intros _. apply erases_bind; [|intros v; apply erases_ret].
  apply erases_bind; [apply erases_silently|]. intros _. apply erases_enter. apply erases_bind; [apply erases_silently|]. intros _.
  apply erases_bind; [apply erases_string|]. intros _. apply erases_list_enter. intros _. apply erases_string.
Qed.
Section Rec.
Context (rec : reader -> option string -> OM ivalue) (rec' : reader -> option string -> PM ivalue).
Hypothesis Hr : forall r name, erases (rec r name) (rec' r name).
Lemma erases_fields fs : forall ks, erases (dump_fields_said env f rec fs ks) (dump_fields f rec' fs ks).
Proof.
  induction fs as [|fd fs IH]; intros [|k ks]; cbn [dump_fields_said dump_fields]; try apply erases_ret. destruct (lock f k) as [r|]; [|apply erases_throw].
  apply erases_trace. apply erases_bind; [apply Hr|]. intros v. apply erases_bind; [apply IH|]. intros vs. apply erases_ret.
Qed.
Lemma erases_composite ks name : erases (dump_composite_said env f s rec ks name) (dump_composite f s rec' ks name).
Proof.
  apply erases_next. intros d out. cbn [fst]. destruct (is_null d); [auto using begins_refl|]. revert d out.
  change (erases (let! vs := composite_dump_said_ env f s rec ks in ret (IBraces name vs)) (let! vs := composite_dump_ f s rec' ks in ret (IBraces name vs))).
  apply erases_bind; [|intros vs; apply erases_ret]. apply erases_trace. apply erases_bind; [apply erases_silently|]. intros _. apply erases_enter.
  apply erases_bind; [apply erases_silently|]. intros sym. apply erases_bind; [apply erases_silently|]. intros [c|q]; [|apply erases_throw].
  destruct (Nat.eqb _ _); [|apply erases_abort]. apply erases_bind; [apply erases_silently|]. intros _. apply erases_bind; [apply erases_attested|]. intros _.
  apply erases_enter, erases_fields.
Qed.
Lemma erases_elements n r : erases (dump_elements_said rec n r) (dump_elements rec' n r).
Proof.
  induction n as [|n IH]; [apply erases_ret|]. cbn [dump_elements_said dump_elements]. destruct r as [r|]; [|apply erases_ub].
  apply erases_bind; [apply Hr|]. intros v. apply erases_bind; [apply IH|]. intros vs. apply erases_ret.
Qed.
Lemma erases_dump_list k name : erases (dump_list_said f s rec k name) (dump_list f s rec' k name).
Proof.
  apply erases_next. apply erases_bind; [|intros vs; apply erases_ret]. apply erases_bind; [apply erases_silently|]. intros _. apply erases_enter.
  apply erases_bind; [apply erases_string|]. intros fp. apply erases_bind; [apply erases_silently|]. intros _. apply erases_list_enter. intros n. apply erases_elements.
Qed.
Lemma erases_through r : erases (dump_through_said rec r) (dump_through rec' r).
Proof. destruct r; [apply Hr|apply erases_ub]. Qed.
Lemma erases_dump_entry k v : erases (dump_entry_said kf rec k v) (dump_entry kf rec' k v).
Proof.
  unfold dump_entry_said, dump_entry. destruct kf; (apply erases_bind; [apply erases_through|]; intros a; apply erases_bind; [apply erases_through|]; intros b; apply erases_ret).
Qed.
Lemma erases_dump_entries k v : forall c n, n <= c -> erases (dump_entries_said kf rec n k v) (dump_entries kf rec' n k v).
Proof.
  induction c as [|c IH]; intros n Hn; [destruct n; [|lia]; apply erases_ret|]. destruct n as [|n]; [apply erases_ret|].
  cbn [dump_entries_said dump_entries]. apply erases_bind; [apply erases_dump_entry|]. intros e. apply erases_bind; [apply IH; lia|]. intros es. apply erases_ret.
Qed.
Lemma erases_dump_map k v name : erases (dump_map_said env kf f s rec k v name) (dump_map kf f s rec' k v name).
Proof.
  assert (G : erases (auto_next_said (let! vs := map_dump_said_ env kf f s rec k v in ret (IBraces name vs))) (dump_map kf f s rec' k v name)).
  { apply erases_next. apply erases_bind; [|intros vs; apply erases_ret]. apply erases_bind; [apply erases_silently|]. intros _. apply erases_enter.
    apply erases_bind; [apply erases_string|]. intros fp. apply erases_bind; [apply erases_silently|]. intros _. apply erases_map_enter. intros n.
    apply erases_trace. eapply erases_dump_entries, le_n. }
  unfold dump_map_said. destruct name; apply erases_trace, G.
Qed.
End Rec.
Lemma erases_key name : erases (dump_public_key_said env name) (dump_public_key name).
Proof. destruct name; [apply erases_trace, erases_silently|]. exact (erases_silently (dump_public_key None)). Qed.
Lemma erases_dump fuel : forall r name, erases (dump_said env fmt custom kf f s fuel r name) (dump fmt custom' kf f s fuel r name).
Proof.
  induction fuel as [|fuel IH]; intros r name; [apply erases_fuel|]. destruct r; cbn [dump_said dump];
    auto using erases_property, erases_composite, erases_enum, erases_dump_list, erases_dump_map, erases_key.
Qed.
Lemma erases_payload fuel r : erases (dump_payload_said env fmt custom kf f s fuel r) (dump_payload fmt custom' kf fuel f s r).
Proof.
  apply erases_enter. apply erases_bind; [apply erases_attested|]. intros _. apply erases_bind.
  { intros d out. cbn [fst]. destruct (Nat.eqb _ _); [auto using begins_refl|exact I]. }
  intros _. apply erases_enter. apply erases_bind; [apply erases_dump|]. intros v. apply erases_ret.
Qed.
End Erased.
Theorem contents_same env fmt custom custom' mo kf preface fuel d cf out : (forall which name, erases (custom which name) (custom' which name)) ->
  same_contents (dumpContents_said env fmt custom mo kf preface fuel (d, cf, out)) (out ++ preface d cf) (dumpContents fmt custom' mo kf fuel (d, cf)).
Proof.
  intros H. unfold dumpContents_said, dumpContents. cbv zeta. unfold bind, on_data, on_factory, ret. cbv beta iota. destruct (read_envelope fuel d) as [e d1|e d1| | |]; cbn [same_contents]; auto using begins_refl.
  destruct (process mo (e_schema e) cf) as [[] cf1|x cf1| | |]; cbn [same_contents]; auto using begins_refl.
  cbn [fst snd]. destruct (byDescriptor cf1 (e_descriptor e)) as [i|]; [|exact I]. destruct (reader_at i cf1) as [r|]; [|exact I].
  pose proof (erases_payload env fmt custom custom' kf cf1 (e_schema e) H fuel r d1 (out ++ preface d cf)) as P.
  destruct (dump_payload_said env fmt custom kf cf1 (e_schema e) fuel r (d1, out ++ preface d cf)) as [y [d2 o2]|y [d2 o2]| | |],
           (dump_payload fmt custom' kf fuel cf1 (e_schema e) r d1) as [y' d2'|y' d2'| | |]; cbn [same_contents]; try contradiction; auto; destruct P as (-> & -> & P); auto.
Qed.
