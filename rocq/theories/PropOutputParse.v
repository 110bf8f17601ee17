(** Property theorems C106: all that inspecting a blob writes to standard output, from its
    first byte to the last.  Specification: SpecOutputParse.v.  Model: OutputParse.v. *)
From Coq Require Import Lia.
From Verif Require Import Base OutputWriter SpecOutputWriter PropOutputWriter Proton SpecCursor ProtonProofs TypeNames Schema SpecSchema Descriptors SpecDescriptors Factory SpecFactory FactoryProofs
  Readers SpecReaders Blob SpecAccept SpecDisplay SpecInstalled SpecReadScript SpecParse SpecFate FateProofs FateBlobProofs PropFate Output SpecOutput OutputProofs OutputReader SpecOutputReader
  OutputShow SpecOutputShow OutputShowProofs OutputShowBlobProofs OutputShowHideProofs PropOutputShow OutputParse SpecOutputParse OutputParseProofs OutputParseBlobProofs OutputParseShownProofs.
Import List ListNotations.
Open Scope string_scope.

(** Writing to standard output changes nothing else: the text that is returned, or the
    exception or whatever happens, the position and the factory are those of Blob.v; what
    was there is kept. *)
Theorem C106_same_result : forall env type_name type_number also_told double custom custom' map_order entry_order fuel d cf before,
  same_serialisers custom custom' ->
  same_contents (dumpContents_aloud env type_name type_number also_told double custom map_order entry_order fuel (d, cf, before)) before
    (dumpContents double custom' map_order entry_order fuel (d, cf)).
Proof. intros. now apply all_same. Qed.
Print Assumptions C106_same_result.

(** What is written, to the letter, and how it ends, for every blob, given what [also_told]
    says, the texts of functions that are given no more than names and types that have been
    read; they may be any.  For the texts of the library see C106_exactly. *)
Theorem C106_exactly_given : forall env type_name type_number also_told double custom answers map_order entry_order rs cf t fuel before,
  answers_aloud rs custom answers -> run map_order (map Install rs) new_factory cf -> own_names rs t = true -> height t < fuel ->
  turns_out_aloud t before (dumpContents_aloud env type_name type_number also_told double custom map_order entry_order fuel (decoded t, cf, before))
    (inspected_all_aloud env type_name type_number also_told double answers map_order entry_order rs cf t).
Proof.
  intros env tn tnum also double custom answers mo kf rs cf t fuel before Ha R Ho Hf. apply own_names_spec in Ho as [H1 H2]. now apply all_exactly.
Qed.
Print Assumptions C106_exactly_given.

(** As soon as the envelope has been read, and whatever becomes of the payload, the names of
    all types have been listed, in their final order, the fingerprint and the name of every
    type have been written, and the name and the type of every
    property of every class have been written. *)
Theorem C106_schema_shown : forall env type_name type_number also_told double custom answers map_order entry_order rs cf t fuel before e,
  answers_aloud rs custom answers -> run map_order (map Install rs) new_factory cf -> own_names rs t = true -> height t < fuel ->
  envelope_of t = Gives e ->
  forall x s, dumpContents_aloud env type_name type_number also_told double custom map_order entry_order fuel (decoded t, cf, before) = Ok x s \/
              (exists ex, dumpContents_aloud env type_name type_number also_told double custom map_order entry_order fuel (decoded t, cf, before) = Throw ex s) ->
  exists text, snd s = before ++ text /\
    (forall x, In x (List.concat (s_types (e_schema e))) -> within (at_line env "Schema.cxx" 47 ("Schema: " ++ n_descriptor x ++ " " ++ n_name x)) text) /\
    (s_types (e_schema e) <> [] ->
     within (at_line env "SchemaDescriptor.cxx" 55 ("=======" ++ newline ++ listing (s_types (e_schema e)) ++ "======")) text) /\
    forall c f, In (TComposite c) (List.concat (s_types (e_schema e))) -> In f (c_fields c) ->
      within (at_line env "FieldDescriptor.cxx" 42 ("FIELD::name: """ ++ f_name f ++ """")) text /\
      within (at_line env "FieldDescriptor.cxx" 49 ("FIELD::type: """ ++ f_type f ++ """")) text.
Proof.
  intros env tn tnum also double custom answers mo kf rs cf t fuel before e Ha R Ho Hf He x s H.
  pose proof (C106_exactly_given env tn tnum also double custom answers mo kf rs cf t fuel before Ha R Ho Hf) as T.
  assert (W : forall r, within r (fst (envelope_aloud env tn tnum also t)) -> within r (fst (inspected_all_aloud env tn tnum also double answers mo kf rs cf t))).
  { intros r Hr. unfold inspected_all_aloud. unfold and_then at 1. destruct (snd (envelope_aloud env tn tnum also t)); cbn [fst]; auto. now apply within_left. }
  exists (fst (inspected_all_aloud env tn tnum also double answers mo kf rs cf t)). split.
  - unfold turns_out_aloud in T. destruct (snd (inspected_all_aloud env tn tnum also double answers mo kf rs cf t)) as [y|y| |];
      [destruct T as (cf' & T)|destruct T as (cf' & T)| |]; rewrite T in H; destruct H as [H|[ex H]]; try discriminate; injection H as <- <-; reflexivity.
  - pose proof (envelope_end env tn tnum also t) as E. rewrite He in E. destruct (envelope_tells env tn tnum also t e E) as (S1 & S0 & S2). split; [intros y Hy; exact (W _ (S0 y Hy))|]. split.
    + intros N. destruct S1 as [S1|S1]; [contradiction|]. now apply W.
    + intros c f Hc Hf'. destruct (S2 c f Hc Hf'). auto.
Qed.
Print Assumptions C106_schema_shown.

(** Of the payload, texts, long and floating-point numbers, truth values and bytes are not
    given away: if a payload differs from another in nothing else, all that is written is
    the same, and so is how it ends. *)
Theorem C106_hidden : forall env type_name type_number also_told double custom answers map_order entry_order rs cf payload payload' schema after fuel before,
  let t := described 1 (list_of (payload :: schema :: after)) in
  let t' := described 1 (list_of (payload' :: schema :: after)) in
  veiled payload payload' -> discreet answers ->
  answers_aloud rs custom answers -> run map_order (map Install rs) new_factory cf -> own_names rs t = true -> height t < fuel ->
  exists h h', fst h = fst h' /\ same_end (snd h) (snd h') /\
    turns_out_aloud t before (dumpContents_aloud env type_name type_number also_told double custom map_order entry_order fuel (decoded t, cf, before)) h /\
    turns_out_aloud t' before (dumpContents_aloud env type_name type_number also_told double custom map_order entry_order fuel (decoded t', cf, before)) h'.
Proof.
  intros env tn tnum also double custom answers mo kf rs cf payload payload' schema after fuel before t t' V D Ha R Ho Hf.
  exists (inspected_all_aloud env tn tnum also double answers mo kf rs cf t), (inspected_all_aloud env tn tnum also double answers mo kf rs cf t').
  pose proof (all_alike env tn tnum also payload payload' schema after V double answers mo kf rs cf D) as A. apply alike_end in A as [A1 A2]. fold t t' in A1, A2.
  split; [exact A1|]. split; [exact A2|]. split; [now apply C106_exactly_given|]. apply C106_exactly_given; auto.
  - unfold own_names in *. unfold t'. now rewrite (same_envelope payload payload' schema after V).
  - unfold t'. now rewrite (same_height payload payload' schema after V).
Qed.
Print Assumptions C106_hidden.

(** ** Examples *)
Definition quiet : tellings :=
  {| field_text := fun _ _ _ _ _ _ _ => ""; container_text := fun _ _ _ _ _ _ => ""; insert_text := fun _ _ => ""; process_text := fun _ _ => "" |}.
Definition heard_of (payload : tree) : heard string :=
  inspected_all_aloud PropOutputWriter.here (fun _ => "TYPE") (fun _ => 9%Z) quiet (fun _ => "?") (fun _ _ _ => silent Wild) true true [RPublicKey] new_factory (ex_blob payload).
Definition schema_lines : list string :=
  [ "[EnvelopeDescriptor.cxx::106] ENVELOPE"; "[SchemaDescriptor.cxx::35] SCHEMA"; "[SchemaDescriptor.cxx::48]   1/1";
    "[CompositeDescriptor.cxx::42] COMPOSITE"; "[ObjectDescriptor.cxx::32] DESCRIPTOR";
    "[FieldDescriptor.cxx::33] FIELD"; "[FieldDescriptor.cxx::42] FIELD::name: ""x"""; "[FieldDescriptor.cxx::49] FIELD::type: ""int""";
    "[FieldDescriptor.cxx::33] FIELD"; "[FieldDescriptor.cxx::42] FIELD::name: ""s"""; "[FieldDescriptor.cxx::49] FIELD::type: ""string""";
    "[SchemaDescriptor.cxx::55] ======="; "level 1"; "    * net.P"; ""; "======";
    "[CompositeDescriptor.cxx::42] COMPOSITE"; "[ObjectDescriptor.cxx::32] DESCRIPTOR";
    "[FieldDescriptor.cxx::33] FIELD"; "[FieldDescriptor.cxx::42] FIELD::name: ""x"""; "[FieldDescriptor.cxx::49] FIELD::type: ""int""";
    "[SchemaDescriptor.cxx::55] ======="; "level 1"; "    * net.Q"; "    * net.P"; ""; "======";
    "[RestrictedDescriptor.cxx::104] RESTRICTED"; "STRING"; "STRING"; "[RestrictedDescriptor.cxx::112]   name: java.util.List<net.P>, label: """"";
    "STRING"; "[RestrictedDescriptor.cxx::128] source: list"; "[ObjectDescriptor.cxx::32] DESCRIPTOR";
    "[RestrictedDescriptor.cxx::134] choices:  9 TYPE #entries: 0"; "[RestrictedDescriptor.cxx::147]  9 TYPE #entries: 0";
    "[SchemaDescriptor.cxx::55] ======="; "level 1"; "    * net.Q"; "    * net.P"; ""; "level 2"; "    * java.util.List<net.P>"; ""; "======";
    "[CompositeDescriptor.cxx::42] COMPOSITE"; "[ObjectDescriptor.cxx::32] DESCRIPTOR";
    "[FieldDescriptor.cxx::33] FIELD"; "[FieldDescriptor.cxx::42] FIELD::name: ""p"""; "[FieldDescriptor.cxx::49] FIELD::type: ""net.P""";
    "[FieldDescriptor.cxx::33] FIELD"; "[FieldDescriptor.cxx::42] FIELD::name: ""l"""; "[FieldDescriptor.cxx::49] FIELD::type: ""java.util.List<net.P>""";
    "[SchemaDescriptor.cxx::55] ======="; "level 1"; "    * net.Q"; "    * net.P"; ""; "level 2"; "    * java.util.List<net.P>"; ""; "level 3"; "    * net.O"; ""; "======";
    "[Schema.cxx::47] Schema: q net.Q"; "[Schema.cxx::47] Schema: p net.P"; "[Schema.cxx::47] Schema: l java.util.List<net.P>"; "[Schema.cxx::47] Schema: o net.O" ].
Example C106_ex : heard_of (obj "q" [str "17"]) = (PropOutputWriter.lines (schema_lines ++
  [ "[proton_wrapper.cxx::299] YEP! it's a list"; "[CompositeReader.cxx::46] Read Composite: "; "[proton_wrapper.cxx::299] YEP! it's a list";
    "[CompositeReader.cxx::74] x true"; "[IntPropertyReader.cxx::37] IntPropertyReader::dump - x"; "[IntPropertyReader.cxx::39] FUCK 1"; "[IntPropertyReader.cxx::43]     -> 0" ])%list,
  Gives "{ Parsed : { x : 0 } }").
Proof. vm_compute. reflexivity. Qed.
(** The schema is written although the payload is of no known type, or is no list. *)
Example C106_ex_unknown : heard_of (obj "z" []) = (PropOutputWriter.lines schema_lines, Stops).
Proof. vm_compute. reflexivity. Qed.
(** A class with a property that has no name. *)
Example C106_ex_wrong :
  inspected_all_aloud PropOutputWriter.here (fun _ => "TYPE") (fun _ => 9%Z) quiet (fun _ => "?") (fun _ _ _ => silent Wild) true true [] new_factory
    (blob (obj "p" []) [described 5 (list_of [str "net.P"; leaf ANull; list_of []; described 3 (list_of [leaf (ASymbol "p")]); list_of [described 4 (list_of [leaf ANull])]])] []) =
  (PropOutputWriter.lines
    [ "[EnvelopeDescriptor.cxx::106] ENVELOPE"; "[SchemaDescriptor.cxx::35] SCHEMA"; "[SchemaDescriptor.cxx::48]   1/1";
      "[CompositeDescriptor.cxx::42] COMPOSITE"; "[ObjectDescriptor.cxx::32] DESCRIPTOR"; "[FieldDescriptor.cxx::33] FIELD" ], Raises RuntimeError).
Proof. vm_compute. reflexivity. Qed.
(** What a container says of choices and of what it provides, and of elements that are not read. *)
Example C106_ex_container :
  fst (envelope_aloud PropOutputWriter.here (fun _ => "TYPE") (fun _ => 9%Z) quiet
    (blob (obj "e" []) [container_tree {| wr_name := "net.E"; wr_label := Some "l"; wr_provides := ["net.I"]; wr_source := "list"; wr_fingerprint := "e"; wr_choices := ["A"; "B"] |}] [])) =
  PropOutputWriter.lines
    [ "[EnvelopeDescriptor.cxx::106] ENVELOPE"; "[SchemaDescriptor.cxx::35] SCHEMA"; "[SchemaDescriptor.cxx::48]   1/1";
      "[RestrictedDescriptor.cxx::104] RESTRICTED"; "STRING"; "STRING"; "[RestrictedDescriptor.cxx::112]   name: net.E, label: ""l""";
      "[RestrictedDescriptor.cxx::120]   provides: net.I"; "STRING"; "[RestrictedDescriptor.cxx::128] source: list"; "[ObjectDescriptor.cxx::32] DESCRIPTOR";
      "[RestrictedDescriptor.cxx::134] choices:  9 TYPE #entries: 2"; "[RestrictedDescriptor.cxx::143]  choice: A"; "[RestrictedDescriptor.cxx::143]  choice: B";
      "[RestrictedDescriptor.cxx::147]  9 TYPE #entries: 2"; "[SchemaDescriptor.cxx::55] ======="; "level 1"; "    * net.E"; ""; "======";
      "[Schema.cxx::47] Schema: e net.E" ].
Proof. vm_compute. reflexivity. Qed.
(** The conditions of the theorems hold of the first of these, and there are types and
    properties; for payloads that differ in nothing but texts see C105_ex_hidden. *)
Example C106_ex_conditions : own_names [RPublicKey] (ex_blob (obj "q" [str "17"])) = true /\ height (ex_blob (obj "q" [str "17"])) < 20 /\
  (exists cf, run true (map Install [RPublicKey]) new_factory cf) /\
  exists e c f, envelope_of (ex_blob (obj "q" [str "17"])) = Gives e /\ In (TComposite c) (List.concat (s_types (e_schema e))) /\ In f (c_fields c).
Proof.
  split; [vm_compute; reflexivity|]. split; [vm_compute; lia|]. split.
  - eexists. eapply run_cons; [split; [exact I|reflexivity]|left; reflexivity|]. apply run_nil.
  - do 3 eexists. split; [vm_compute; reflexivity|]. split; [left; reflexivity|left; reflexivity].
Qed.
