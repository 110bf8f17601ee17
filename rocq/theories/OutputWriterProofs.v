(** Proofs about what serialising writes to standard output. *)
From Coq Require Import Lia Sorting.Sorted.
From Verif Require Import Base Proton ProtonProofs Descriptors SpecTypes TypeNames SpecDescriptors DescriptorsProofs Writer SpecWriter WriterProofs
  SpecIdentity IdentityProofs Programs ProgramsProofs OutputWriter SpecOutputWriter.
Import List ListNotations.
Open Scope string_scope.

Lemma append_assoc a b c : (a ++ b) ++ c = a ++ b ++ c.
Proof. induction a; cbn; congruence. Qed.
Lemma append_nil a : a ++ "" = a.
Proof. induction a; cbn; congruence. Qed.

Section Proofs.
Context (P : program) (env : platform).

(** [known] are the properties that the writer has. *)
Definition in_step (w : writer) (known : key -> string -> bool) : Prop :=
  forall k n, known k n = match field_at (m_schemas w) k n with Some _ => true | None => false end.

(** [c] does what [q] does and writes what [es] say. *)
Definition follows (c : SM unit) (q : WM unit) (es : list event) : Prop :=
  forall w out known, in_step w known ->
  match q w with
  | Ok _ w' => let s := play env es (out, known) in c (w, out) = Ok tt (w', fst s) /\ in_step w' (snd s)
  | Throw e w' => exists out', c (w, out) = Throw e (w', out')
  | Abort => c (w, out) = Abort
  | UB => c (w, out) = UB
  | Fuel => c (w, out) = Fuel
  end.

Lemma play_app a b s : play env (a ++ b) s = play env b (play env a s).
Proof. apply fold_left_app. Qed.

Lemma follows_nothing : follows (ret tt) (ret tt) [].
Proof. intros w out known I. split; auto. Qed.
Lemma follows_then c1 q1 E1 c2 q2 E2 : follows c1 q1 E1 -> follows c2 q2 E2 -> follows (c1 ;; c2) (q1 ;; q2) (E1 ++ E2)%list.
Proof.
  intros H1 H2 w out known I. unfold bind. specialize (H1 w out known I). destruct (q1 w) as [u w1|e w1| | |].
  - destruct H1 as [-> I1]. rewrite play_app. destruct (play env E1 (out, known)) as [out1 known1]. exact (H2 w1 out1 known1 I1).
  - destruct H1 as [out' ->]. now exists out'.
  - now rewrite H1.
  - now rewrite H1.
  - now rewrite H1.
Qed.
Lemma follows_then_at (R : writer -> Prop) c1 q1 E1 c2 q2 E2 : follows c1 q1 E1 -> (forall w w', q1 w = Ok tt w' -> R w') ->
  (forall w out known, R w -> in_step w known ->
   match q2 w with
   | Ok _ w' => let s := play env E2 (out, known) in c2 (w, out) = Ok tt (w', fst s) /\ in_step w' (snd s)
   | Throw e w' => exists out', c2 (w, out) = Throw e (w', out')
   | Abort => c2 (w, out) = Abort
   | UB => c2 (w, out) = UB
   | Fuel => c2 (w, out) = Fuel
   end) -> follows (c1 ;; c2) (q1 ;; q2) (E1 ++ E2)%list.
Proof.
  intros H1 H3 H2 w out known I. unfold bind. specialize (H1 w out known I). destruct (q1 w) as [[] w1|e w1| | |] eqn:Q.
  - destruct H1 as [-> I1]. rewrite play_app. destruct (play env E1 (out, known)) as [out1 known1]. exact (H2 w1 out1 known1 (H3 _ _ Q) I1).
  - destruct H1 as [out' ->]. now exists out'.
  - now rewrite H1.
  - now rewrite H1.
  - now rewrite H1.
Qed.
Lemma follows_say x c q E : follows c q E -> follows (say x ;; c) q (Text x :: E).
Proof. intros H w out known I. exact (H w (out ++ x) known I). Qed.
Lemma follows_q c q q' E : (forall w, q w = q' w) -> follows c q E -> follows c q' E.
Proof. intros H F w out known I. rewrite <- H. now apply F. Qed.
Lemma follows_c c c' q E : (forall s, c s = c' s) -> follows c q E -> follows c' q E.
Proof. intros H F w out known I. rewrite <- H. now apply F. Qed.
Lemma say_app a b c q E : follows (say a ;; (say b ;; c)) q E -> follows (say (a ++ b) ;; c) q E.
Proof. intros H. eapply follows_c; [|exact H]. intros [w out]. unfold bind, say. now rewrite append_assoc. Qed.
Lemma follows_quiet q : (forall w w', q w = Ok tt w' -> forall k n, field_at (m_schemas w') k n = field_at (m_schemas w) k n) -> follows (quietly q) q [].
Proof.
  intros H w out known I. unfold quietly. destruct (q w) as [[] w'|e w'| | |] eqn:E; auto.
  - split; [reflexivity|]. intros k n. rewrite (H w w' E). apply I.
  - now exists out.
Qed.
Lemma follows_payload f : follows (quietly (on_payload f)) (on_payload f) [].
Proof. apply follows_quiet. now intros w w' [= <-]. Qed.
Lemma follows_put a : follows (quietly (put a)) (put a) [].
Proof. apply follows_payload. Qed.
Lemma follows_log t v : follows (quietly (log_pointer t v)) (log_pointer t v) [].
Proof. apply follows_quiet. intros w w'. destruct t; try now intros [= <-]. destruct v as [[| | | | | |[]]|]; try discriminate. now intros [= <-]. Qed.
Lemma follows_finally c q E x : follows c q E -> forall d, (forall w out, d (w, out) = (ended w, out ++ x)) ->
  follows (finally c d) (finally q ended) (E ++ [Text x])%list.
Proof.
  intros H d Hd w out known I. unfold finally. specialize (H w out known I). destruct (q w) as [u w1|e w1| | |].
  - destruct H as [-> I1]. rewrite play_app. destruct (play env E (out, known)) as [o k]. cbn [fst snd play fold_left step] in *. rewrite Hd. split; [reflexivity|]. exact I1.
  - destruct H as [out' ->]. exists (out' ++ x). now rewrite Hd.
  - now rewrite H.
  - now rewrite H.
  - now rewrite H.
Qed.

Lemma line_DBG f l x : DBG env f l x = line env f l x.
Proof. unfold DBG, line, starts, OutputWriter.endl, newline. now rewrite !append_assoc. Qed.

(** *** Entries *)
Lemma field_set m k b n k' : field_at (m_set kcmp k b m) k' n =
  if key_eqb k k' then match b with CompositeBlob fs => m_find scmp n fs | _ => None end else field_at m k' n.
Proof.
  unfold field_at. destruct (key_eqb k k') eqn:E.
  - apply key_eqb_eq in E. subst k'. now rewrite k_find_same.
  - rewrite k_find_other; [reflexivity|]. intros ->. now rewrite key_eqb_refl in E.
Qed.
Lemma follows_absent id b : b = CompositeBlob [] \/ (exists s, b = ListBlob s) -> follows (quietly (schema_if_absent id b)) (schema_if_absent id b) [].
Proof.
  intros Hb. apply follows_quiet. intros w w'. unfold schema_if_absent. destruct (m_find kcmp id (m_schemas w)) eqn:E; [now intros [= <-]|].
  intros [= <-] k n. cbn [m_schemas]. rewrite field_set. destruct (key_eqb id k) eqn:Ek; [|reflexivity].
  apply key_eqb_eq in Ek. subst k. unfold field_at. rewrite E. destruct Hb as [-> |[s ->]]; reflexivity.
Qed.
Lemma follows_field id pn f : follows (add_field_said id pn f (makeProton_said env pn)) (add_field id pn f) [Describe id pn].
Proof.
  intros w out known I. unfold add_field, add_field_said. pose proof (I id pn) as K. unfold field_at in K.
  destruct (m_find kcmp id (m_schemas w)) as [[fs|s]|] eqn:E; [|now exists out|reflexivity].
  cbn [play fold_left step fst snd]. destruct (m_find scmp pn fs) as [d|] eqn:Ef; rewrite K; [now split|].
  unfold makeProton_said. rewrite line_DBG. split; [reflexivity|]. intros k n. cbn [snd m_schemas]. rewrite field_set.
  destruct (key_eqb id k) eqn:Ek; cbn [andb orb].
  - apply key_eqb_eq in Ek. subst k. rewrite (I id n). unfold field_at. rewrite E. destruct (String.eqb_spec pn n) as [-> |N]; cbn [orb].
    + now rewrite s_find_same.
    + now rewrite s_find_other by exact N.
  - exact (I k n).
Qed.
(** *** Texts *)
Lemma naming_said t : type_said env (demangled t) = naming env t.
Proof.
  induction t as [|path cls|e IH|k IHk v IHv]; cbn [demangled type_said naming]; auto.
  - unfold DBG, line, starts, OutputWriter.endl, newline. rewrite !append_assoc. reflexivity.
  - now rewrite IHk, IHv.
Qed.
Lemma java_naming t : java_said env t = naming env (cxx_of t).
Proof. apply naming_said. Qed.
Lemma prim_shown v : prim_ok v -> prim_text env v = text_of env v.
Proof.
  destruct v as [z|z|x|x|x|x|z]; try (intros _; reflexivity).
  - intros H. cbn [prim_ok] in H. cbn [prim_text text_of]. do 3 f_equal. destruct (Z.ltb_spec z 0).
    + rewrite <- (Z.mod_add z 1) by lia. rewrite Z.mod_small by lia. reflexivity.
    + now rewrite Z.mod_small by lia.
Qed.
(** A way of showing a value, and an event. *)
Definition shows_as (shown : string -> string) (e : event) : Prop :=
  forall out known, step env e (out, known) = (out ++ shown out, known).
Lemma shows_prim v : prim_ok v -> shows_as (fun _ => prim_text env v) (Text (text_of env v)).
Proof. intros H out known. cbn [step fst snd]. now rewrite prim_shown. Qed.
Lemma shows_pointer t v : shows_as (pointer_text env t v) (of_pointer env t v).
Proof. intros out known. destruct t, v; reflexivity. Qed.
Lemma follows_value f l x shown e c q E : shows_as shown e -> follows c q E ->
  follows (DBG_value env f l x shown ;; c) q (Text (starts env f l ++ x) :: e :: Text newline :: E).
Proof.
  intros S H w out known I. unfold DBG_value, bind, say. cbn [snd].
  change (play env (Text (starts env f l ++ x) :: e :: Text newline :: E) (out, known))
    with (play env E (step env (Text newline) (step env e (step env (Text (starts env f l ++ x)) (out, known))))).
  cbn [step fst snd] in *. fold step. rewrite S. cbn [fst snd]. 
  replace ("[" ++ file env f ++ "::" ++ Readers.dec l ++ "] " ++ x) with (starts env f l ++ x) by (unfold starts; now rewrite !append_assoc).
  exact (H w _ known I).
Qed.

(** *** The parts of [serialise_said] *)
Lemma follows_primitive shown e a t ptr pn id : shows_as shown e ->
  follows (writePrimitive_said env shown a t ptr pn id) (writePrimitive a t ptr pn id) (simple env id pn e).
Proof.
  intros S. unfold writePrimitive_said, writePrimitive, simple. apply follows_value; [exact S|].
  apply (follows_then _ _ [Describe id pn] _ _ [_]); [apply follows_field|]. rewrite line_DBG. apply follows_say. apply follows_put.
Qed.
Lemma follows_single t shown e a : shows_as shown e -> follows (single_said env t shown a) (writePrimitiveSingle a) (single env t e).
Proof.
  intros S. unfold single_said, single. rewrite java_naming, line_DBG. do 2 apply follows_say. apply follows_value; [exact S|]. apply follows_put.
Qed.
Lemma follows_serializable fp : follows (startSerializable_said env fp) (startSerializable fp) [Text (line env "ModifiableAMQPBlobImpl.cxx" 39 ("  startSerializable: " ++ fp))].
Proof. unfold startSerializable_said. rewrite line_DBG. apply follows_say. apply follows_payload. Qed.
Lemma follows_startComposite n fp : follows (startComposite_said env (n, fp)) (startComposite (n, fp)) (starting env "startComposite" 63 68 n fp).
Proof.
  unfold startComposite_said, startComposite, starting. cbn [fst snd]. rewrite line_DBG. apply follows_say.
  apply (follows_then _ _ [] _ _ [_]); [apply follows_absent; now left|]. apply (follows_then _ _ [_] _ _ []); [apply follows_serializable|]. apply follows_payload.
Qed.
Lemma follows_startRestricted n fp s : follows (startRestricted_said env (n, fp) s) (startRestricted (n, fp) s) (starting env "startRestricted" 88 93 n fp).
Proof.
  unfold startRestricted_said, startRestricted, starting. cbn [fst snd]. rewrite line_DBG. apply follows_say.
  apply (follows_then _ _ [] _ _ [_]); [apply follows_absent; right; now exists s|]. apply (follows_then _ _ [_] _ _ []); [apply follows_serializable|].
  apply follows_quiet. intros w w'. unfold bind. destruct (String.eqb s "map"); [now intros [= <-]|]. destruct (String.eqb s "list"); [now intros [= <-]|discriminate].
Qed.
Lemma asked_called i c q E : follows c q E -> follows (say (called env i) ;; c) q (asked env i ++ E)%list.
Proof.
  intros H. destruct i; cbn [asked called List.app]; rewrite ?line_DBG; try (apply follows_say; exact H);
    intros w out known I; unfold bind, say; rewrite append_nil; exact (H w out known I).
Qed.
Lemma follows_composite pn ty id c q E : follows c q E ->
  follows (writeComposite_said env pn ty id ;; c) (writeComposite pn ty id ;; q) (composite env id pn ++ E)%list.
Proof.
  intros H. apply follows_then; [|exact H]. unfold writeComposite_said, composite. rewrite line_DBG. apply follows_say. apply follows_field.
Qed.
Lemma follows_container pn ty id c q E : follows c q E ->
  follows (writeRestricted_said env pn ty id ;; c) (writeRestricted pn ty id ;; q) (container env id pn ++ E)%list.
Proof.
  intros H. apply follows_then; [|exact H]. unfold writeRestricted_said, container. rewrite line_DBG. apply follows_say. apply follows_field.
Qed.
Lemma bind_assoc {S A B C} (m : S -> outcome S A) (f : A -> S -> outcome S B) (g : B -> S -> outcome S C) s :
  bind (bind m f) g s = bind m (fun a => bind (f a) g) s.
Proof. unfold bind. now destruct (m s). Qed.
Lemma follows_null pn ty id :
  follows (writeComposite_said env pn ty id ;; writeNull_said env pn ty id) (writeComposite pn ty id ;; writeNull pn ty id)
    (composite env id pn ++ [Text (line env "ModifiableAMQPBlobImpl.cxx" (span env 135 138) ("writeNull::" ++ pn ++ "::0 PARENT: " ++ fst id));
                             Text (line env "ModifiableAMQPBlobImpl.cxx" 158 "WRITE IT")])%list.
Proof.
  apply follows_then_at with (R := fun w => exists fs d, m_find kcmp id (m_schemas w) = Some (CompositeBlob fs) /\ m_find scmp pn fs = Some d).
  - unfold writeComposite_said, composite. rewrite line_DBG. apply follows_say. apply follows_field.
  - intros w w1 A. unfold writeComposite, add_field in A. destruct (m_find kcmp id (m_schemas w)) as [[fs|s]|] eqn:B; try discriminate.
    destruct (m_find scmp pn fs) as [d|] eqn:Bf; injection A as <-; [eauto|]. cbn [m_schemas]. rewrite k_find_same. eexists _, _. split; [reflexivity|]. apply s_find_same.
  - intros w out known (fs & d & B1 & B2) I. unfold writeNull, writeNull_said, bind, add_field, add_field_said, say. rewrite B1, B2, !line_DBG. split; [reflexivity|exact I].
Qed.
Lemma follows_element t i q c r E : follows (serialise_said P env t i) q (events P env t i) -> follows c r E ->
  follows (say (element_said env t i) ;; (serialise_said P env t i ;; c)) (q ;; r) (element env t i ++ events P env t i ++ E)%list.
Proof.
  intros H1 H2. pose proof (follows_then _ _ _ _ _ _ H1 H2) as H. unfold element.
  assert (N : forall F, follows (serialise_said P env t i ;; c) (q ;; r) F -> follows (say "" ;; (serialise_said P env t i ;; c)) (q ;; r) F).
  { intros F HF. eapply follows_c; [|exact HF]. intros [w out]. generalize (serialise_said P env t i ;; c). intros m. unfold bind, say. now rewrite append_nil. }
  destruct i; cbn [element_said]; try (apply N; exact H); rewrite java_naming, line_DBG;
    apply say_app; apply follows_say; apply asked_called; exact H.
Qed.
Lemma follows_entry k v c q E : follows c q E ->
  follows (say (entry_said env k v) ;; c) q
    ([ Text (line env "SerializableMap.h" 45 ("  * " ++ naming env (cxx_of k) ++ java_of k));
       Text (line env "SerializableMap.h" 46 ("  * " ++ naming env (cxx_of v) ++ java_of v)) ] ++ E)%list.
Proof.
  intros H w out known I. unfold entry_said. rewrite !line_DBG, !java_naming. unfold bind, say. rewrite <- append_assoc. exact (H w _ known I).
Qed.

(** *** All of it *)
Definition told_right (i : item) : Prop := forall t, of_type P t i ->
  follows (serialise_said P env t i) (serialise i) (events P env t i).
Lemma follows_all i : told_right i /\ (forall o, i = IPointer (Some o) -> told_right o).
Proof.
  induction i as [v|p v|n fp ps IH|n fp es IH|n fp kvs IH| |o IH] using item_induction; (split; [|try discriminate]); try intros t T.
  - destruct t; try destruct T as [_ []]; try now destruct T. cbn [serialise_said serialise events].
    apply follows_single. apply shows_prim. apply T.
  - destruct t; try now destruct T. cbn [serialise_said serialise events].
    apply (follows_then _ _ [] _ _ (single env _ _)); [apply follows_log|]. apply follows_single. apply shows_pointer.
  - apply object_type in T as (c & -> & _ & _ & M). eapply follows_q; [intros w; symmetry; apply serialise_object|].
    cbn [serialise_said events]. apply follows_then; [apply follows_startComposite|].
    apply follows_finally; [|intros w out; cbn [endComposite_said]; now rewrite line_DBG].
    match goal with |- follows (?f ps _) _ (?h ps _) => set (g := f); set (go := h) end.
    revert IH M. generalize (declared P c). induction ps as [|[pn [ty v]] ps IHps]; intros [|[dn d] ds] IH M; try solve [inversion M].
    + apply follows_nothing.
    + apply Forall_inv in IH as IHv. apply Forall_inv_tail in IH. assert (Mv := M). inversion_clear Mv as [|? ? ? ? (_ & _ & T) M']. cbn [snd] in T, IHv.
      change (each (write_property (n, fp)) ((pn, (ty, v)) :: ps)) with (write_property (n, fp) (pn, (ty, v)) ;; each (write_property (n, fp)) ps).
      unfold g, go. fold g. fold go. apply follows_then; [|now apply IHps]. cbn [write_property]. clear g go IHps. destruct IHv as [IHv IHo].
      destruct v as [x|q x|n' fp' ps'|n' fp' es'|n' fp' kvs'|[o|]]; destruct d as [d1|d1|c1|e1|k1 v1|d1]; try now destruct T.
      * apply follows_primitive. apply shows_prim. apply T.
      * apply (follows_then _ _ [] _ _ (simple env _ _ _)); [apply follows_log|]. apply follows_primitive. apply shows_pointer.
      * rewrite java_naming. apply follows_say. apply follows_composite. apply asked_called. now apply IHv.
      * rewrite java_naming. unfold vector_said. rewrite line_DBG. do 2 apply follows_say. apply follows_container. apply asked_called. now apply IHv.
      * rewrite java_naming. apply follows_say. apply follows_container. apply asked_called. now apply IHv.
      * rewrite java_naming. apply follows_say. apply follows_composite. apply asked_called. now apply IHo.
      * rewrite java_naming. apply follows_say. apply follows_null.
  - apply vector_type in T as (e & -> & _ & _ & T). eapply follows_q; [intros w; symmetry; apply serialise_vector|].
    cbn [serialise_said events]. apply follows_then; [apply follows_startRestricted|].
    apply follows_finally; [|intros w out; cbn [endRestricted_said]; now rewrite line_DBG].
    match goal with |- follows (?f es) _ _ => set (g := f) end.
    induction es as [|x es IHes]; [apply follows_nothing|]. destruct (Forall_inv IH) as [IHx _]. pose proof (Forall_inv T) as Tx. apply Forall_inv_tail in IH, T.
    unfold g. fold g. cbn [each flat_map]. rewrite <- !app_assoc. apply follows_element; [now apply IHx|now apply IHes].
  - apply map_type in T as (k & v & -> & _ & _ & T). eapply follows_q; [intros w; symmetry; apply serialise_map|].
    cbn [serialise_said events]. apply follows_then; [apply follows_startRestricted|].
    apply follows_finally; [|intros w out; cbn [endRestricted_said]; now rewrite line_DBG].
    match goal with |- follows (?f kvs) _ _ => set (g := f) end.
    induction kvs as [|[x y] kvs IHkvs]; [apply follows_nothing|]. destruct (Forall_inv IH) as [[IHx _] [IHy _]]. destruct (Forall_inv T) as [Tx Ty]. apply Forall_inv_tail in IH, T.
    unfold g. fold g. cbn [each flat_map fst snd]. rewrite <- !app_assoc. apply follows_entry.
    match goal with |- follows _ _ (_ ++ _ ++ _ ++ _ ++ ?l)%list => set (R := l) in * end.
    apply follows_q with (q := (serialise x ;; (serialise y ;; each (fun kv => serialise (fst kv) ;; serialise (snd kv)) kvs))).
    { intros w. symmetry. apply bind_assoc. }
    apply follows_element; [now apply IHx|]. apply follows_element; [now apply IHy|now apply IHkvs].
  - intros w out known I. reflexivity.
  - intros w out known I. reflexivity.
  - injection T as <-. exact (proj1 IH).
Qed.

(** The writer that is there before. *)
Definition fields_in (w : writer) : key -> string -> bool := fun k n => match field_at (m_schemas w) k n with Some _ => true | None => false end.
Lemma root_follows t i : of_type P t i -> is_target i = true ->
  follows (say (match i with IObject _ _ _ => "" | _ => called env i end) ;; serialise_said P env t i) (serialise i) (root_events P env t i).
Proof.
  intros T H. pose proof (proj1 (follows_all i) t T) as F. unfold root_events.
  destruct i as [| |n fp ps|n fp es|n fp kvs|]; try discriminate.
  - eapply follows_c; [|exact F]. intros [w out]. generalize (serialise_said P env t (IObject n fp ps)). intros m. unfold bind, say. now rewrite append_nil.
  - now apply (asked_called (IVector n fp es)).
  - now apply (asked_called (IMap n fp kvs)).
Qed.

(** *** The listing *)
Definition class_size (e : key * schema_blob) : key * option nat :=
  (fst e, match snd e with CompositeBlob fs => Some (List.length fs) | ListBlob _ => None end).
Definition described_size (t : wire_type) : key * option nat :=
  (type_key t, match t with WClass c => Some (List.length (wc_fields c)) | WContainer _ => None end).
Lemma same_listing m ts : map class_size m = map described_size ts ->
  fold_right (fun e s => made_said env e ++ s) "" m = fold_right (fun t s => listed env t ++ s) "" ts.
Proof.
  revert ts. induction m as [|[[n fp] b] m IH]; intros [|t ts] H; try discriminate; [reflexivity|].
  cbn [map] in H. injection H as H1 H2 H. cbn [fold_right]. rewrite (IH ts H). f_equal.
  destruct b as [fs|s], t as [c|r]; try discriminate; cbn [type_key] in H1; injection H1 as -> _.
  - injection H2 as E. cbn [made_said listed]. rewrite !line_DBG, E. reflexivity.
  - cbn [made_said listed]. rewrite !line_DBG. reflexivity.
Qed.
Lemma key_in (m : list (key * schema_blob)) k : StronglySorted key_before (map fst m) -> In k (map fst m) <-> kind_at m k <> None.
Proof.
  intros S. unfold kind_at. split.
  - intros H. apply in_map_iff in H as ([k' b] & <- & H). apply k_in_find in H; [|exact S]. cbn [fst]. rewrite H. now destruct b.
  - destruct (m_find kcmp k m) as [b|] eqn:E; [|intros H; now destruct H]. intros _. apply k_find_in in E. now apply (in_map fst) in E.
Qed.
Lemma sizes_agree root m ts : no_clash root -> grown (occurrences root) (fun k => fields_written k root) [] m ->
  schema_for root ts -> map blob_size m = map type_size ts -> map class_size m = map described_size ts.
Proof.
  intros N G (S1 & K1 & D1) B. assert (G' := G). destruct G' as [[T1 T2] GK GF].
  assert (E : map fst m = map type_key ts).
  { apply (sorted_unique key_before key_before_trans key_before_irrefl); auto. intros k. rewrite (key_in m k T1), K1, GK. cbn.
    unfold first_kind. destruct (find _ (occurrences root)) as [[k' x]|] eqn:Ef; cbn.
    - apply find_some in Ef as [Hin Hk]. cbn [fst] in Hk. apply key_eqb_eq in Hk. subst k'. split; [intros _; now apply (in_map fst) in Hin|discriminate].
    - split; [now intros []|]. intros H. apply in_map_iff in H as ([k' x] & <- & Hin). apply (find_none _ _ Ef) in Hin. cbn [fst] in Hin. now rewrite key_eqb_refl in Hin. }
  assert (K : forall e t, In e m -> In t ts -> fst e = type_key t -> match snd e, t with CompositeBlob _, WClass _ | ListBlob _, WContainer _ => True | _, _ => False end).
  { intros [k b] t He Ht Ek. cbn [fst snd] in *. apply k_in_find in He; [|exact T1]. pose proof (GK k) as K. unfold kind_at in K. rewrite He in K. cbn in K.
    rewrite Forall_forall in D1. specialize (D1 t Ht). destruct b as [fs|s], t as [c|r]; try exact I; symmetry in K; apply first_kind_in in K; destruct D1 as [D1 _]; cbn [type_key] in Ek; rewrite <- Ek in D1.
    - exact (N _ _ K D1).
    - exact (N _ _ D1 K). }
  clear - B E K. revert ts B E K. induction m as [|e m IH]; intros [|t ts] B E K; try discriminate; [reflexivity|].
  cbn [map] in *. injection B as B1 B2. injection E as E1 E2. f_equal.
  - specialize (K e t (or_introl eq_refl) (or_introl eq_refl) E1). unfold class_size, described_size, blob_size, type_size in *.
    rewrite E1. destruct e as [k b]. cbn [snd] in *. destruct b, t; try destruct K; congruence.
  - apply IH; auto. intros e' t' He Ht. apply K; now right.
Qed.

Theorem output_exact t root before : of_type P t root -> well_formed root -> is_target root = true -> no_clash root ->
  exists blob w ts, serialise_blob root new_writer = Ok blob w /\ blob = decoded (envelope_tree (wire root) [ts] [leaf ANull]) /\ schema_for root ts /\
    serialise_blob_said P env t root (new_writer, before) = Ok blob (w, whole_output P env before t root ts).
Proof.
  intros T W R N.
  assert (Hp : is_pointer root = false) by now destruct root.
  assert (Nin : incl (occurrences root) (occurrences root)) by apply incl_refl.
  destruct (good_all (occurrences root) N root W Nin) as [G _]. specialize (G Hp).
  destruct (G pn_data [] tidy_empty) as (m & E1 & G1).
  { intros k s Hk [=]. } { intros k []. }
  destruct (entries_sized _ _ _ G1) as (ts & E2 & E3 & S). assert (SF : schema_for root ts) by exact S.
  fold new_writer in E1.
  assert (EB : serialise_blob root new_writer = Ok (decoded (envelope_tree (wire root) [ts] [leaf ANull])) (Writer (put_all [wire root] pn_data) m)).
  { unfold serialise_blob, bind. rewrite E1. unfold toBlob. cbn [m_payload m_schemas]. rewrite E2.
    rewrite schema_makeProton_spec. exact (f_equal (fun d => Ok d _) (envelope_makeProton_spec (wire root) [ts])). }
  eexists _, _, ts. split; [exact EB|]. split; [reflexivity|]. split; [exact SF|].
  pose proof (root_follows t root T R new_writer before (fun _ _ => false)) as F. specialize (F ltac:(intros k n; reflexivity)). rewrite E1 in F.
  destruct F as [F _]. unfold serialise_blob_said. rewrite <- bind_assoc. unfold bind at 1. rewrite F.
  unfold toBlob_said, bind. cbn [m_schemas]. pose proof (sizes_agree root m ts N G1 SF E3) as SZ. rewrite (same_listing m ts SZ), line_DBG.
  assert (L : List.length m = List.length ts). { apply (f_equal (@List.length _)) in SZ. now rewrite !map_length in SZ. }
  rewrite L. unfold serialise_blob, bind in EB. rewrite E1 in EB. unfold toBlob in *. unfold quietly. cbn [m_payload m_schemas] in *.
  assert (EB' : envelope_makeProton (put_all [wire root] pn_data) (schema_makeProton (map make m)) = decoded (envelope_tree (wire root) [ts] [leaf ANull])) by (now injection EB).
  rewrite EB'. reflexivity.
Qed.

Theorem output_beside t root w before : of_type P t root -> is_target root = true ->
  forget (serialise_blob_said P env t root (w, before)) = serialise_blob root w.
Proof.
  intros T R. pose proof (root_follows t root T R w before (fields_in w)) as F. specialize (F ltac:(intros k n; reflexivity)).
  unfold serialise_blob_said. rewrite <- bind_assoc. unfold serialise_blob, bind at 1. unfold bind at 2. destruct (serialise root w) as [[] w'|e w'| | |].
  - destruct F as [-> _]. reflexivity.
  - destruct F as [o ->]. reflexivity.
  - now rewrite F.
  - now rewrite F.
  - now rewrite F.
Qed.

(** *** Values are shown *)
Lemma in_lines_after vs x a : in_lines env vs x -> in_lines env vs (a ++ x).
Proof. intros H. destruct H as [s|v vs b rest H]; [constructor|]. rewrite <- append_assoc. now constructor. Qed.
Lemma in_lines_app vs us x y : in_lines env vs x -> in_lines env us y -> in_lines env (vs ++ us) (x ++ y).
Proof.
  intros H Hu. induction H as [s|v vs b rest H IH]; [now apply in_lines_after|].
  cbn [List.app]. rewrite !append_assoc. now constructor.
Qed.
Definition yields (es : list event) (vs : list prim_value) : Prop :=
  forall s, exists x k, play env es s = (fst s ++ x, k) /\ in_lines env vs x.
Lemma yields_step e : yields [e] [].
Proof.
  intros [o k]. destruct e as [x| |c p]; cbn [play fold_left step fst snd].
  - exists x, k. split; [reflexivity|constructor].
  - exists (address env o), k. split; [reflexivity|constructor].
  - destruct (k c p); [exists "", k; rewrite append_nil|eexists _, _]; (split; [reflexivity|constructor]).
Qed.
Lemma yields_app a b vs us : yields a vs -> yields b us -> yields (a ++ b) (vs ++ us).
Proof.
  intros Ha Hb s. destruct (Ha s) as (x & k & E & Hx). destruct (Hb (fst s ++ x, k)) as (y & k' & E' & Hy).
  exists (x ++ y), k'. rewrite play_app, E, E'. cbn [fst]. rewrite append_assoc. split; [reflexivity|]. now apply in_lines_app.
Qed.
Lemma yields_any es : yields es [].
Proof.
  induction es as [|e es IH]; [intros [o k]; exists "", k; rewrite append_nil; split; [reflexivity|constructor]|].
  change (e :: es) with ([e] ++ es)%list. apply (yields_app _ _ [] []); [apply yields_step|exact IH].
Qed.
Lemma yields_before a es vs : yields es vs -> yields (a ++ es) vs.
Proof. intros H. apply (yields_app a es [] vs); [apply yields_any|exact H]. Qed.
Lemma yields_after a es vs : yields es vs -> yields (es ++ a) vs.
Proof. intros H. rewrite <- (app_nil_r vs). apply yields_app; [exact H|apply yields_any]. Qed.
Lemma yields_value a b v r : yields (Text (a ++ b ++ "::") :: Text (text_of env v) :: Text newline :: r) [v].
Proof.
  apply (yields_after r [_; _; _]). intros [o k]. cbn [play fold_left step fst snd].
  exists ((a ++ b) ++ "::" ++ text_of env v ++ newline ++ ""), k. split; [now rewrite !append_assoc|]. constructor. constructor.
Qed.
Lemma yields_each {A} (f : A -> list event) (g : A -> list prim_value) l : Forall (fun a => yields (f a) (g a)) l -> yields (flat_map f l) (flat_map g l).
Proof. induction 1; cbn [flat_map]; [apply yields_any|]. now apply yields_app. Qed.
Lemma target_not_pointer o : is_target o = true -> is_pointer o = false.
Proof. now destruct o. Qed.
Definition values_told (i : item) : Prop := forall t, of_type P t i -> well_formed i -> is_pointer i = false -> yields (events P env t i) (values_held i).
Lemma values_all i : values_told i /\ (forall o, i = IPointer (Some o) -> values_told o).
Proof.
  induction i as [v|p v|n fp ps IH|n fp es IH|n fp kvs IH| |o IH] using item_induction; (split; [|try discriminate]).
  - intros t T W N. cbn [events values_held]. unfold single. apply (yields_before [_; _]). apply (yields_value (starts env "ModifiableAMQPBlobImpl.h" 241) "writePrimitiveSingle").
  - intros t T W N. apply yields_any.
  - intros t T W N. apply object_type in T as (c & -> & _ & _ & M). cbn [events values_held]. apply yields_before. apply yields_after.
    cbn [well_formed] in W. apply fold_and in W.
    match goal with |- yields (?h ps _) _ => set (go := h) end.
    revert IH M W. generalize (declared P c). induction ps as [|[pn [ty v]] ps IHps]; intros [|[dn d] ds] IH M W; try solve [inversion M].
    + apply yields_any.
    + destruct (Forall_inv IH) as [IHv IHo]. apply Forall_inv_tail in IH. inversion_clear M as [|? ? ? ? (_ & _ & T) M']. cbn [snd] in T, IHv, IHo.
      pose proof (Forall_inv W) as Wv. apply Forall_inv_tail in W. cbn [snd] in Wv.
      unfold go. fold go. cbn [flat_map snd]. apply yields_app; [|now apply IHps]. clear go IHps.
      destruct v as [x|q x|n' fp' ps'|n' fp' es'|n' fp' kvs'|[o|]]; destruct d as [d1|d1|c1|e1|k1 v1|d1]; try now destruct T.
      * unfold simple. replace (starts env "ModifiableAMQPBlobImpl.h" 207 ++ "writePrimitive::" ++ pn ++ "::")
          with ((starts env "ModifiableAMQPBlobImpl.h" 207 ++ "writePrimitive::") ++ pn ++ "::") by now rewrite !append_assoc.
        apply yields_value.
      * apply yields_any.
      * rewrite app_assoc, app_comm_cons. apply yields_before. now apply IHv.
      * rewrite app_assoc, !app_comm_cons. apply yields_before. now apply IHv.
      * rewrite app_assoc, app_comm_cons. apply yields_before. now apply IHv.
      * rewrite app_assoc, app_comm_cons. apply yields_before. cbn [values_held]. destruct Wv as [W1 W2]. apply (IHo o eq_refl); auto. now apply target_not_pointer.
      * apply yields_any.
  - intros t T W N. apply vector_type in T as (e & -> & _ & _ & T). cbn [events values_held]. apply yields_before. apply yields_after. apply yields_each.
    cbn [well_formed] in W. apply fold_and in W.
    rewrite Forall_forall in *. intros x Hx. apply yields_before. destruct (W x Hx). apply (proj1 (IH x Hx)); auto.
  - intros t T W N. apply map_type in T as (k & v & -> & _ & _ & T). cbn [events values_held]. apply yields_before. apply yields_after. apply yields_each.
    rewrite Forall_forall in *. intros x Hx.
    assert (Wx : (is_pointer (fst x) = false /\ well_formed (fst x)) /\ (is_pointer (snd x) = false /\ well_formed (snd x))).
    { clear - W Hx. cbn [well_formed] in W. induction kvs as [|y kvs IH]; [destruct Hx|]. cbn in W. destruct Hx as [-> |Hx]; tauto. }
    destruct Wx as [[W1 W2] [W3 W4]], (T x Hx) as [T1 T2], (IH x Hx) as [[I1 _] [I2 _]].
    apply yields_before. apply yields_app; apply yields_before; [apply I1|apply I2]; auto.
  - intros t T W N. discriminate.
  - intros t T W N. discriminate.
  - intros o' [= <-]. exact (proj1 IH).
Qed.
Theorem output_shows t root before : of_type P t root -> well_formed root -> is_target root = true -> no_clash root ->
  exists blob w x, serialise_blob root new_writer = Ok blob w /\
    serialise_blob_said P env t root (new_writer, before) = Ok blob (w, before ++ x) /\ x <> "" /\ in_lines env (values_held root) x.
Proof.
  intros T W R N. destruct (output_exact t root before T W R N) as (blob & w & ts & E1 & _ & _ & E2).
  pose proof (proj1 (values_all root) t T W (target_not_pointer _ R)) as Y.
  apply (yields_before (match root with IObject _ _ _ => [] | _ => asked env root end)) in Y. fold (root_events P env t root) in Y.
  destruct (Y (before, fun _ _ => false)) as (x & k & E & L). cbn [fst] in E.
  exists blob, w, (x ++ listing env ts). split; [exact E1|]. split; [|split].
  - rewrite E2. unfold whole_output. rewrite E. cbn [fst]. now rewrite append_assoc.
  - unfold listing, line, starts. destruct x; discriminate.
  - rewrite <- (app_nil_r (values_held root)). apply in_lines_app; [exact L|constructor].
Qed.

(** *** What pointers point to is not shown *)
Lemma masked_asked i : asked env (masked i) = asked env i.
Proof. now destruct i as [|? []| | | |[]]. Qed.
Lemma masked_element t i : element env t (masked i) = element env t i.
Proof. now destruct i as [|? []| | | |[]]. Qed.
Lemma flat_map_masked {A B} (g : A -> A) (f : A -> list B) l : Forall (fun a => f (g a) = f a) l -> flat_map f (map g l) = flat_map f l.
Proof. induction 1; cbn [map flat_map]; congruence. Qed.
Lemma masked_events i : (forall t, events P env t (masked i) = events P env t i) /\
  (forall o, i = IPointer (Some o) -> forall t, events P env t (masked o) = events P env t o).
Proof.
  induction i as [v|p v|n fp ps IH|n fp es IH|n fp kvs IH| |o IH] using item_induction; (split; [intros t; try reflexivity|try discriminate]).
  - destruct v as [v|]; [|reflexivity]. cbn [masked events]. now destruct p.
  - cbn [masked events]. destruct t as [| |c| | |]; try reflexivity. f_equal. f_equal.
    match goal with |- ?h (map _ ps) _ = _ => set (go := h) end. generalize (declared P c).
    induction ps as [|[pn [ty v]] ps IHps]; intros [|[dn d] ds]; try reflexivity.
    destruct (Forall_inv IH) as [IHv IHo]. apply Forall_inv_tail in IH. cbn [snd] in IHv, IHo.
    cbn [map fst snd]. unfold go. fold go. rewrite (IHps IH ds). f_equal. clear go IHps IH.
    destruct v as [x|q [x|]|n' fp' ps'|n' fp' es'|n' fp' kvs'|[o|]]; try reflexivity.
    + change (masked (IObject n' fp' ps')) with (IObject n' fp' (map (fun p => (fst p, (fst (snd p), masked (snd (snd p))))) ps')) in *.
      cbv iota. now rewrite IHv.
    + change (masked (IVector n' fp' es')) with (IVector n' fp' (map masked es')) in *. cbv iota. now rewrite IHv.
    + change (masked (IMap n' fp' kvs')) with (IMap n' fp' (map (fun kv => (masked (fst kv), masked (snd kv))) kvs')) in *. cbv iota. now rewrite IHv.
    + cbn [masked]. destruct d as [| | | | |d']; try reflexivity. now rewrite masked_asked, (IHo o eq_refl).
  - cbn [masked events]. destruct t as [| | |e| |]; try reflexivity. f_equal. f_equal. apply flat_map_masked.
    revert IH. apply Forall_impl. intros x [Hx _]. now rewrite masked_element, Hx.
  - cbn [masked events]. destruct t as [| | | |k v|]; try reflexivity. f_equal. f_equal. apply flat_map_masked.
    revert IH. apply Forall_impl. intros [x y] [[Hx _] [Hy _]]. cbn [fst snd] in *. now rewrite !masked_element, Hx, Hy.
  - intros o' [= <-]. exact (proj1 IH).
Qed.
Lemma masked_root t i : root_events P env t (masked i) = root_events P env t i.
Proof. unfold root_events. rewrite (proj1 (masked_events i)), masked_asked. f_equal. now destruct i as [|? []| | | |[]]. Qed.
Lemma masked_occurrences i : occurrences (masked i) = occurrences i.
Proof.
  induction i as [v|p v|n fp ps IH|n fp es IH|n fp kvs IH| |o IH] using item_induction; cbn [masked occurrences]; try reflexivity.
  - now destruct v.
  - f_equal. now apply (flat_map_masked (fun p : string * (string * item) => (fst p, (fst (snd p), masked (snd (snd p))))) (fun p => occurrences (snd (snd p)))).
  - f_equal. now apply flat_map_masked.
  - f_equal. apply (flat_map_masked (fun kv : item * item => (masked (fst kv), masked (snd kv))) (fun kv => (occurrences (fst kv) ++ occurrences (snd kv))%list)).
    revert IH. apply Forall_impl. intros [x y] [Hx Hy]. cbn [fst snd] in *. congruence.
  - exact IH.
Qed.
Lemma masked_fields k i : fields_written k (masked i) = fields_written k i.
Proof.
  induction i as [v|p v|n fp ps IH|n fp es IH|n fp kvs IH| |o IH] using item_induction; cbn [masked fields_written]; try reflexivity.
  - now destruct v.
  - apply (flat_map_masked (fun p : string * (string * item) => (fst p, (fst (snd p), masked (snd (snd p)))))
      (fun p => ((if key_eqb k (n, fp) then [property_field (fst p) (fst (snd p)) (snd (snd p))] else []) ++ fields_written k (snd (snd p)))%list)).
    revert IH. apply Forall_impl. intros [pn [ty v]] Hx. cbn [fst snd] in *. rewrite Hx. do 2 f_equal. now destruct v as [|? []| | | |[]].
  - now apply flat_map_masked.
  - apply (flat_map_masked (fun kv : item * item => (masked (fst kv), masked (snd kv))) (fun kv => (fields_written k (fst kv) ++ fields_written k (snd kv))%list)).
    revert IH. apply Forall_impl. intros [x y] [Hx Hy]. cbn [fst snd] in *. congruence.
  - exact IH.
Qed.
Theorem output_hides t a b before : (forall x, x = a \/ x = b -> of_type P t x /\ well_formed x /\ is_target x = true /\ one_kind x) ->
  masked a = masked b ->
  exists blob_a w_a blob_b w_b out,
    serialise_blob_said P env t a (new_writer, before) = Ok blob_a (w_a, out) /\
    serialise_blob_said P env t b (new_writer, before) = Ok blob_b (w_b, out).
Proof.
  intros H E. destruct (H a (or_introl eq_refl)) as (Ta & Wa & Ra & Na), (H b (or_intror eq_refl)) as (Tb & Wb & Rb & Nb).
  destruct (output_exact t a before Ta Wa Ra (kind_clash a Na)) as (ba & wa & tsa & _ & _ & Sa & Ea).
  destruct (output_exact t b before Tb Wb Rb (kind_clash b Nb)) as (bb & wb & tsb & _ & _ & Sb & Eb).
  exists ba, wa, bb, wb, (whole_output P env before t a tsa). split; [exact Ea|]. rewrite Eb. do 2 f_equal. unfold whole_output.
  rewrite <- (masked_root t a), E, masked_root. do 2 f_equal. symmetry. apply (schema_unique a b); auto.
  - now rewrite <- (masked_occurrences a), E, masked_occurrences.
  - intros k n. now rewrite <- (masked_fields k a), E, masked_fields.
Qed.
End Proofs.
