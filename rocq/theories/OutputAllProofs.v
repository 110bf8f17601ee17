(** Proofs for C106: the texts of C107 and C108 where a blob is inspected. *)
From Verif Require Import Base OutputWriter SpecOutputWriter Proton SpecCursor TypeNames Ordering Schema SpecSchema Descriptors SpecDescriptors Factory SpecFactory
  Readers SpecReaders Blob SpecAccept SpecDisplay SpecInstalled SpecReadScript SpecParse SpecFate Output SpecOutput OutputReader SpecOutputReader
  OutputShow SpecOutputShow OutputParse SpecOutputParse OutputMake SpecOutputMake OutputMakeProofs OutputProcess SpecOutputProcess SpecOutputAll.
Import List ListNotations.
Open Scope string_scope.

(** ** Inserting throws no exception *)
Definition calm {A} (r : res A) : Prop := forall e, r <> Exc e.
Lemma calm_bind {A B} (r : res A) (k : A -> res B) : calm r -> (forall a, calm (k a)) -> calm (rbind r k).
Proof. intros H K e. destruct r; cbn [rbind]; try discriminate; [apply K|]. intros _. now apply (H e0). Qed.
Lemma calm_ret {A} (a : A) : calm (Ret a).
Proof. intros e. discriminate. Qed.
Lemma calm_type f : calm (resolvedType f).
Proof. intros e. unfold resolvedType. destruct (f_kind f); try discriminate; destruct (f_requires f); discriminate. Qed.
Lemma calm_resolved n fs : calm (any_resolved n fs).
Proof. induction fs as [|f fs IH]; [apply calm_ret|]. cbn [any_resolved]. apply calm_bind; [apply calm_type|]. intros t. destruct (String.eqb t n); [apply calm_ret|exact IH]. Qed.
Lemma calm_subtype n fs : calm (any_subtype n fs).
Proof.
  induction fs as [|f fs IH]; [apply calm_ret|]. cbn [any_subtype]. destruct (is_restricted_t f).
  - destruct (memb n (f_subTypes f)); [apply calm_ret|exact IH].
  - apply calm_bind; [apply calm_type|]. intros t. destruct (String.eqb t n); [apply calm_ret|exact IH].
Qed.
Lemma calm_score a b : calm (dependsOn a b).
Proof.
  destruct a as [a|a], b as [b|b]; cbn [dependsOn].
  - unfold composite_rhs_composite. apply calm_bind; [apply calm_subtype|]. intros [|]; [apply calm_ret|]. apply calm_bind; [apply calm_resolved|]. intros. apply calm_ret.
  - unfold restricted_rhs_composite. destruct (match r_kind b with list_t | array_t => _ | map_t => _ | enum_t => _ end); [apply calm_ret|]. apply calm_bind; [apply calm_resolved|]. intros. apply calm_ret.
  - unfold composite_rhs_restricted. apply calm_bind; [apply calm_resolved|]. intros [|]; [apply calm_ret|]. apply calm_ret.
  - apply calm_ret.
Qed.
Lemma calm_scan_level p i lvl : forall ip, calm (scan_level notation dependsOn p i lvl ip).
Proof. induction lvl as [|j lvl IH]; intros ip; [apply calm_ret|]. cbn [scan_level]. apply calm_bind; [apply calm_score|]. intros [|[|[|n]]]; auto using calm_ret. Qed.
Lemma calm_scan p levels : forall i ip, calm (scan notation dependsOn p i levels ip).
Proof. induction levels as [|l levels IH]; intros i ip; [apply calm_ret|]. cbn [scan]. apply calm_bind; [apply calm_scan_level|]. intros [ip' [|]]; auto using calm_ret. Qed.
Lemma calm_shuffle rec p members : (forall e l, calm (rec e l)) -> forall pre kept behind, calm (shuffle notation dependsOn rec p members pre kept behind).
Proof.
  intros Hr. induction members as [|e members IH]; intros pre kept behind; [apply calm_ret|]. cbn [shuffle]. apply calm_bind; [apply calm_score|]. intros [|[|[|n]]]; auto. apply calm_bind; auto.
Qed.
Lemma calm_insert f : forall p levels, calm (insert_at notation dependsOn f p levels).
Proof.
  induction f as [|f IH]; intros p levels; [intros e; discriminate|]. cbn [insert_at]. apply calm_bind; [apply calm_scan|]. intros ip. destruct (skipn ip levels); [apply calm_ret|].
  apply calm_bind; [now apply calm_shuffle|]. intros [[? ?] ?]. apply calm_ret.
Qed.

(** ** The same text, unless behaviour is undefined *)
Definition agree {A} (h h' : heard A) : Prop := snd h = snd h' /\ (snd h <> Wild -> fst h = fst h').
Lemma agree_refl {A} (h : heard A) : agree h h.
Proof. now split. Qed.
Lemma agree_then {A B} (h h' : heard A) (k k' : A -> heard B) : agree h h' -> (forall a, agree (k a) (k' a)) -> agree (and_then h k) (and_then h' k').
Proof.
  intros [E T] K. unfold agree, and_then. rewrite <- E. destruct (snd h) as [a|e| |] eqn:Eh; cbn [fst snd]; try (split; [reflexivity|intros _; apply T; discriminate]).
  - destruct (K a) as [E2 T2]. split; [exact E2|]. intros N. rewrite (T ltac:(discriminate)), (T2 N). reflexivity.
  - split; [reflexivity|]. intros N. now destruct N.
Qed.
Lemma agree_in_turn {A B} (f f' : A -> heard B) l : (forall a, agree (f a) (f' a)) -> agree (in_turn f l) (in_turn f' l).
Proof. intros H. induction l as [|a l IH]; [apply agree_refl|]. cbn [in_turn]. apply agree_then; [apply H|]. intros b. apply agree_then; [exact IH|]. intros. apply agree_refl. Qed.
Lemma agree_following {A B} (f f' : A -> B -> heard A) l : (forall a b, agree (f a b) (f' a b)) -> forall a, agree (following f a l) (following f' a l).
Proof. intros H. induction l as [|b l IH]; intros a; [apply agree_refl|]. cbn [following]. apply agree_then; [apply H|exact IH]. Qed.
Lemma agree_there {A} o (f f' : tree -> heard A) : (forall t, agree (f t) (f' t)) -> agree (there o f) (there o f').
Proof. intros H. destruct o; [apply H|apply agree_refl]. Qed.
Lemma agree_pick {A} t (f f' : N -> heard A) (h : heard A) : (forall c, agree (f c) (f' c)) ->
  agree (match t with Node ADescribed (Node (AULong c) _ :: _) => f c | _ => h end) (match t with Node ADescribed (Node (AULong c) _ :: _) => f' c | _ => h end).
Proof. intros H. destruct t as [a cs]. destruct a; try apply agree_refl. destruct cs as [|[b ds] cs]; [apply agree_refl|]. destruct b; try apply agree_refl. apply H. Qed.

Section All.
Context (env : platform) (tn : pn_type -> string) (tnum : pn_type -> Z) (moved : string -> string) (making making' : schema -> factory -> string).
Let code := told_by_code env moved making.
Let full := told_in_full env moved making'.
Ltac go := repeat first [apply agree_refl | apply agree_then; [|intros ?]].
Section Inner.
Context (inner inner' : tree -> heard element) (I : forall t, agree (inner t) (inner' t)).
Lemma agree_property body : agree (property_told env code body) (property_told env full body).
Proof. unfold property_told. go. unfold besides, code, full, told_by_code, told_in_full. cbn [field_text]. rewrite field_lines. apply agree_refl. Qed.
Lemma agree_class body : agree (class_told env inner body) (class_told env inner' body).
Proof. unfold class_told. go; [now apply agree_there|]. apply agree_in_turn. intros t. go. apply I. Qed.
Lemma agree_container body : agree (container_told env tn tnum code inner body) (container_told env tn tnum full inner' body).
Proof.
  unfold container_told. go.
  - now apply agree_there.
  - apply agree_in_turn. intros t. go. apply I.
  - unfold besides, code, full, told_by_code, told_in_full. cbn [container_text]. rewrite container_line. apply agree_refl.
Qed.
Lemma agree_type groups t : agree (type_told env code inner groups t) (type_told env full inner' groups t).
Proof.
  unfold type_told. go; [apply I|]. unfold besides, code, full, told_by_code, told_in_full. cbn [insert_text]. destruct (insert notation dependsOn a0 groups) as [x|e| | |] eqn:E.
  - rewrite (insert_lines env a0 groups x E). apply agree_refl.
  - destruct (calm_insert _ _ _ _ E).
  - split; [reflexivity|]. intros N. now destruct N.
  - split; [reflexivity|]. intros N. now destruct N.
  - split; [reflexivity|]. intros N. now destruct N.
Qed.
Lemma agree_schema body : agree (schema_told env code inner body) (schema_told env full inner' body).
Proof. unfold schema_told. go. apply agree_following. intros groups p. go. apply agree_following. apply agree_type. Qed.
Lemma agree_envelope body : agree (envelope_told env inner body) (envelope_told env inner' body).
Proof. unfold envelope_told. go. now apply agree_there. Qed.
Lemma agree_element c body : agree (element_told env tn tnum code inner c body) (element_told env tn tnum full inner' c body).
Proof.
  unfold element_told. repeat (match goal with |- context [if ?b then _ else _] => destruct b end; [first [apply agree_refl|apply agree_envelope|apply agree_schema|apply agree_property|apply agree_class|apply agree_container]|]).
  apply agree_refl.
Qed.
End Inner.
Lemma agree_parse n : forall t, agree (parse_told env tn tnum code n t) (parse_told env tn tnum full n t).
Proof.
  induction n as [|n IH]; intros t; [apply agree_refl|]. cbn [parse_told].
  apply (agree_pick t (fun c => there (part 1 t) (element_told env tn tnum code (parse_told env tn tnum code n) c)) (fun c => there (part 1 t) (element_told env tn tnum full (parse_told env tn tnum full n) c))).
  intros c. apply agree_there. intros u. now apply agree_element.
Qed.
Lemma agree_envelope_aloud t : agree (envelope_aloud env tn tnum code t) (envelope_aloud env tn tnum full t).
Proof. unfold envelope_aloud. destruct (described_by t); [|apply agree_refl]. apply agree_then; [apply agree_parse|]. intros. apply agree_refl. Qed.
Lemma agree_all double answers mo kf rs cf t : (forall s, making s cf = making' s cf) ->
  agree (inspected_all_aloud env tn tnum code double answers mo kf rs cf t) (inspected_all_aloud env tn tnum full double answers mo kf rs cf t).
Proof.
  intros M. unfold inspected_all_aloud. apply agree_then; [apply agree_envelope_aloud|]. intros e. unfold code, full, told_by_code, told_in_full. cbn [process_text]. rewrite M. apply agree_refl.
Qed.
Lemma agree_turns t before o h h' : agree h h' -> turns_out_aloud t before o h -> turns_out_aloud t before o h'.
Proof.
  intros [E T]. unfold turns_out_aloud. rewrite <- E. destruct (snd h); auto; rewrite (T ltac:(discriminate)); auto.
Qed.
End All.
