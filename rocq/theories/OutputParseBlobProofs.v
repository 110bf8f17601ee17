(** Inspecting any blob: all that is written. *)
From Coq Require Import Lia.
From Verif Require Import Base OutputWriter SpecOutputWriter Proton SpecCursor ProtonProofs TypeNames SpecTypes SpecNames NamesProofs Ordering Schema SpecSchema SchemaProofs Descriptors SpecDescriptors DescriptorsProofs Factory SpecFactory FactoryProofs
  Readers SpecReaders Blob ReadersProofs SpecAccept AcceptProofs SpecDisplay SpecInstalled DisplayProofs ContentsProofs SpecReadScript Print SpecPrint PrintProofs SpecParse ParseProofs
  SpecSupply SupplyProofs SpecFate FateProofs PrepareProofs FateBlobProofs Output SpecOutput OutputProofs OutputSchema SchemaOutputProofs OutputReader SpecOutputReader OutputReaderProofs OutputShow SpecOutputShow OutputShowProofs
  OutputShowBlobProofs OutputParse SpecOutputParse OutputParseProofs.
Import List ListNotations.
Open Scope string_scope.


(** ** Without the output *)
Section Erased.
Context (env : platform) (tn : pn_type -> string) (tnum : pn_type -> Z) (also_told : tellings).
Lemma erases_noted {A} a n text (m : OM A) m' : erases m m' -> erases (trace_node env tn tnum a n text ;; m) m'.
Proof. intros H d out. exact (OutputShowBlobProofs.erases_trace env a n (text ++ node_text tn tnum d) m m' H d out). Qed.
Definition uncounted {A} (o : outcome data (nat * A)) : outcome data A :=
  match o with Ok (_, a) d => Ok a d | Throw e d => Throw e d | Abort => Abort | UB => UB | Fuel => Fuel end.
Lemma while_counted {A} (body : A -> PM A) : forall n i acc d,
  uncounted (while_loop n (fun '(i, acc) => let! acc := body acc in ret (S i, acc)) (i, acc) d) = while_loop n body acc d.
Proof.
  induction n as [|n IH]; intros i acc d; cbn [while_loop].
  - destruct (pn_next_ok d); reflexivity.
  - destruct (pn_next_ok d); [|reflexivity]. unfold bind. destruct (body acc (pn_next d)) as [a d1|e d1| | |]; try reflexivity. apply IH.
Qed.
Section Rec.
Context (rec : OM element) (rec' : PM element).
Hypothesis Hrec : erases rec rec'.
Ltac es := first
  [ apply erases_trace | apply erases_noted | apply erases_cout
  | apply erases_enter | apply erases_list_enter; intros ? | apply erases_while_next; intros ?
  | apply Hrec | apply erases_ret | apply erases_silently
  | apply erases_bind; [first [apply OutputShowBlobProofs.erases_string | apply erases_silently | apply Hrec | idtac]|intros ?]
  | match goal with |- erases (match ?x with (_, _) => _ end) _ => destruct x end ].
Lemma erases_field v : erases (build_field_said env also_told v) (build_field v).
Proof. unfold build_field_said, build_field. repeat es. Qed.
Lemma erases_object v : erases (build_object_said env v) (build_object v).
Proof. unfold build_object_said. repeat es. Qed.
Lemma erases_class v : erases (build_composite_said env rec v) (build_composite rec' v).
Proof. unfold build_composite_said, build_composite. repeat es. Qed.
Lemma erases_container v : erases (build_restricted_said env tn tnum also_told rec v) (build_restricted rec' v).
Proof. unfold build_restricted_said, build_restricted, push_string. repeat es. Qed.
Lemma erases_envelope v : erases (build_envelope_said env rec v) (build_envelope rec' v).
Proof. unfold build_envelope_said, build_envelope. repeat es. Qed.
Lemma erases_other n w v : erases (build_ignored_said env tn tnum n w v) (build_ignored v).
Proof. unfold build_ignored_said, build_ignored. repeat es. Qed.
Lemma erases_to {A} (m : OM A) m1 m2 : erases m m1 -> (forall d, m1 d = m2 d) -> erases m m2.
Proof. intros H E d out. rewrite <- E. apply H. Qed.
Lemma erases_Schema l : erases (Schema_said env l) (ret (schema_of l)).
Proof. intros d out. rewrite all_traced. cbn [ret]. split; [reflexivity|]. split; [reflexivity|]. eexists. reflexivity. Qed.
Lemma erases_schema v : erases (build_schema_said env also_told rec v) (build_schema rec' v).
Proof.
  unfold build_schema_said, build_schema. apply erases_trace. apply erases_bind; [apply erases_silently|]. intros _.
  set (inner := fun acc => auto_list_enter false (fun _ => while_next (fun acc => let! e := rec' in let! t := as_type e in lift (insert notation dependsOn t acc)) acc)).
  apply (erases_to _ (let! (_, schemas) := auto_list_enter false (fun _ => while_next (fun '(i, acc) => let! acc := inner acc in ret (S i, acc)) (1, [])) in ret (ESchema (schema_of schemas)))).
  - apply erases_bind; [|intros [i l]; apply (erases_to _ (let! s := ret (schema_of l) in ret (ESchema s))); [apply erases_bind; [apply erases_Schema|intros s; apply erases_ret]|reflexivity]].
    apply erases_list_enter. intros n. apply erases_while_next. intros [i acc]. apply erases_trace.
    apply erases_bind; [|intros l; apply erases_ret]. apply erases_list_enter. intros _. apply erases_while_next. intros l. apply erases_bind; [exact Hrec|]. intros e.
    apply erases_bind; [apply erases_silently|]. intros t. apply erases_cout.
    apply (erases_to _ (let! x := lift (insert notation dependsOn t l) in ret x)).
    + apply erases_bind; [apply erases_silently|]. intros x. apply erases_trace, erases_ret.
    + intros d. unfold bind. now destruct (lift (insert notation dependsOn t l) d).
  - intros d. unfold bind at 1. unfold bind at 2. unfold auto_list_enter, finally, while_next. fold inner. rewrite <- (while_counted inner _ 1).
    destruct (while_loop _ (fun '(i, acc) => let! acc := inner acc in ret (S i, acc)) (1, []) _) as [[i a] d1|e d1| | |]; reflexivity.
Qed.
Lemma erases_id code : erases (build_id_said env tn tnum also_told rec code) (build_id rec' code).
Proof.
  unfold build_id_said, build_id. destruct (registered code) as [x|]; [|apply erases_ub]. unfold build_said, build.
  destruct (d_kind x); [apply erases_throw|apply erases_envelope|apply erases_schema|apply erases_object|apply erases_field|apply erases_class|apply erases_container|apply erases_silently|apply erases_other..].
Qed.
End Rec.
Lemma erases_dispatch fuel : erases (dispatchDescribed_said env tn tnum also_told fuel) (dispatchDescribed fuel).
Proof.
  induction fuel as [|fuel IH]; [apply erases_fuel|]. cbn [dispatchDescribed_said dispatchDescribed]. apply erases_bind; [apply erases_silently|]. intros _. apply erases_enter.
  apply erases_bind; [apply erases_silently|]. intros _ d out. cbn [fst]. now apply erases_id.
Qed.
Lemma erases_read fuel : erases (read_envelope_said env tn tnum also_told fuel) (read_envelope fuel).
Proof.
  intros d out. unfold read_envelope_said, read_envelope. cbn [fst]. destruct (is_described d); [|exact I]. revert d out.
  match goal with |- forall d out, match ?m (d, out) with _ => _ end => idtac | _ => idtac end.
  intros d out. apply (erases_bind (auto_enter_said false (fun s => build_id_said env tn tnum also_told (dispatchDescribed_said env tn tnum also_told fuel) (pn_get_ulong (fst s)) s))
    (auto_enter false (fun d => build_id (dispatchDescribed fuel) (pn_get_ulong d) d))).
  - apply erases_enter. intros d1 o1. cbn [fst]. apply erases_id, erases_dispatch.
  - intros []; first [apply erases_ret|apply erases_ub].
Qed.
End Erased.

Theorem all_same env tn tnum also_told fmt custom custom' mo kf fuel d cf out : (forall which name, erases (custom which name) (custom' which name)) ->
  same_contents (dumpContents_aloud env tn tnum also_told fmt custom mo kf fuel (d, cf, out)) out (dumpContents fmt custom' mo kf fuel (d, cf)).
Proof.
  intros H. unfold dumpContents_aloud, dumpContents. unfold bind, on_data, on_factory, ret. cbv beta iota. pose proof (erases_read env tn tnum also_told fuel d out) as E.
  destruct (read_envelope_said env tn tnum also_told fuel (d, out)) as [e [d1 o1]|e [d1 o1]| | |], (read_envelope fuel d) as [e' d1'|e' d1'| | |]; try contradiction; try exact I.
  2:{ destruct E as (-> & -> & E). cbn. auto. }
  destruct E as (-> & -> & E). cbv zeta. assert (E' : begins (o1 ++ process_text also_told (e_schema e') cf) out). { eapply begins_trans; [|exact E]. eexists. reflexivity. }
  set (o2 := o1 ++ process_text also_told (e_schema e') cf) in *. clearbody o2.
  destruct (process mo (e_schema e') cf) as [[] cf1|x cf1| | |]; cbn [same_contents]; auto.
  cbn [fst snd]. destruct (byDescriptor cf1 (e_descriptor e')) as [i|]; [|exact I]. destruct (reader_at i cf1) as [r|]; [|exact I].
  pose proof (erases_payload env fmt custom custom' kf cf1 (e_schema e') H fuel r d1' o2) as P.
  destruct (dump_payload_said env fmt custom kf cf1 (e_schema e') fuel r (d1', o2)) as [y [d2 o3]|y [d2 o3]| | |],
           (dump_payload fmt custom' kf fuel cf1 (e_schema e') r d1') as [y' d2'|y' d2'| | |]; cbn [same_contents]; try contradiction; auto;
    destruct P as (-> & -> & P); repeat split; auto; eapply begins_trans; eassumption.
Qed.

(** ** Every blob *)
Lemma envelope_end env tn tnum also_told t : snd (envelope_aloud env tn tnum also_told t) = envelope_of t.
Proof.
  pose proof (envelope_stays env tn tnum also_told (height t) t "" (le_n _)) as S. pose proof (envelope_fate (height t) t (le_n _)) as F.
  pose proof (erases_read env tn tnum also_told (height t) (decoded t) "") as E. rewrite S in E. clear S.
  destruct (envelope_of t) as [e'|e'| |]; [destruct F as [F _]| |destruct F|]; rewrite F in E; destruct (snd (envelope_aloud env tn tnum also_told t)) as [e|e| |];
    try contradiction; try reflexivity; destruct E as (-> & _); reflexivity.
Qed.
Theorem all_exactly env tn tnum also_told fmt custom answers mo kf rs cf t fuel out :
  answers_aloud rs custom answers -> run mo (map Install rs) new_factory cf -> (forall r, In r rs -> typeIsPrimitive (reader_type r) = false) ->
  (forall e, envelope_of t = Gives e -> forall n, In n (List.concat (s_types (e_schema e))) -> typeIsPrimitive (n_name n) = false) ->
  height t < fuel ->
  turns_out_aloud t out (dumpContents_aloud env tn tnum also_told fmt custom mo kf fuel (decoded t, cf, out)) (inspected_all_aloud env tn tnum also_told fmt answers mo kf rs cf t).
Proof.
  intros Ha R Hrs Hn Hh. unfold inspected_all_aloud, dumpContents_aloud.
  pose proof (envelope_stays env tn tnum also_told fuel t out ltac:(lia)) as E. unfold stays in E. rewrite E. clear E.
  pose proof (envelope_end env tn tnum also_told t) as Ee. pose proof (envelope_fate fuel t ltac:(lia)) as F.
  destruct (envelope_aloud env tn tnum also_told t) as [s he]. cbn [fst snd] in *. subst he. destruct (envelope_of t) as [e|x| |]; [|unfold turns_out_aloud; cbn; eauto|destruct F|reflexivity].
  destruct F as [_ Hm]. set (ts := List.concat (s_types (e_schema e))) in *. cbv zeta.
  assert (Hp : Forall proper ts). { rewrite Forall_forall in *. intros n X. split; [auto|]. eapply Hn; eauto. }
  pose proof (process_fate mo rs cf R Hrs (e_schema e) Hp) as P. fold ts in P. unfold and_then at 1. cbn [fst snd]. cbv beta. fold ts.
  set (w := process_text also_told (e_schema e) cf).
  destruct (prepare mo (map reader_type rs) ts) as [[]|x| |].
  2:{ destruct P as (cf' & ->). unfold turns_out_aloud, and_then. cbn. rewrite append_assoc3. eauto. } 2:{ destruct P. } 2:{ now rewrite P. }
  destruct P as (cf' & -> & Hf & Hl). unfold payload_type. fold ts. specialize (Hl (e_descriptor e)). destruct (find _ (rev ts)) as [n|]; [|now rewrite Hl].
  destruct Hl as (i & -> & Hi). destruct (Hf _ _ Hi) as (r & Hr & _). unfold reader_at. rewrite (lock_heap _ _ _ Hr).
  pose proof (payload_right' env fmt custom answers kf rs cf' e t fuel (n_name n) i r ((out ++ s) ++ w) Ha Hf Hi Hr Hh) as L.
  unfold keeps in L. unfold and_then, turns_out_aloud. destruct (payload_aloud env fmt answers kf rs e (n_name n) t) as [s2 [y|y| |]]; cbn [fst snd] in *.
  - destruct L as (a & -> & ->). rewrite !append_assoc3. eauto.
  - rewrite L. rewrite !append_assoc3. eauto.
  - now rewrite L.
  - now rewrite L.
Qed.
