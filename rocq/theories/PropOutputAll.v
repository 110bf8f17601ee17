(** Property theorem C106 without parameters for text: with what is known from C107 and C108,
    all that inspecting a blob writes to standard output.  Specification: SpecOutputParse.v,
    SpecOutputMake.v, SpecOutputProcess.v and SpecOutputAll.v.  Model: OutputParse.v,
    OutputMake.v and OutputProcess.v. *)
From Verif Require Import Base OutputWriter SpecOutputWriter Proton SpecCursor ProtonProofs TypeNames Schema SpecSchema Descriptors SpecDescriptors Factory SpecFactory FactoryProofs
  Readers SpecReaders Blob SpecAccept SpecDisplay SpecInstalled SpecReadScript SpecParse SpecFate FateProofs FateBlobProofs PropFate Output SpecOutput OutputProofs OutputReader SpecOutputReader
  OutputShow SpecOutputShow OutputShowProofs OutputShowBlobProofs PropOutputShow OutputParse SpecOutputParse PropOutputParse OutputMake SpecOutputMake OutputProcess SpecOutputProcess SpecOutputAll
  OutputProcessBlobProofs OutputAllProofs.
Import List ListNotations.
Open Scope string_scope.

(** What inspecting a blob writes, to the letter from beginning to end, and how it ends, for
    every blob and all serialisers that have been installed: a function of the decoded tree,
    and of what the serialisers that have been installed are called and do. *)
Theorem C106_exactly : forall env type_name type_number moved called double custom answers map_order entry_order rs cf t fuel before,
  answers_aloud rs custom answers -> run map_order (map Install rs) new_factory cf -> own_names rs t = true -> height t < fuel ->
  turns_out_aloud t before
    (dumpContents_aloud env type_name type_number (told_by_code env moved (process_written env called map_order)) double custom map_order entry_order fuel (decoded t, cf, before))
    (inspected_all_aloud env type_name type_number (told_in_full env moved (fun s _ => fst (making_aloud env map_order (installed_book called rs) s))) double answers map_order entry_order rs cf t).
Proof.
  intros env tn tnum moved called double custom answers mo kf rs cf t fuel before Ha R Ho Hf.
  pose proof (C106_exactly_given env tn tnum (told_by_code env moved (process_written env called mo)) double custom answers mo kf rs cf t fuel before Ha R Ho Hf) as H.
  apply own_names_spec in Ho as [H1 H2]. eapply agree_turns; [|eapply filled_in; eauto]. now apply agree_all.
Qed.
Print Assumptions C106_exactly.

(** ** A case that meets the hypotheses *)
Definition small : tree :=
  blob (obj "p" [str "17"])
    [described 5 (list_of [str "net.P"; leaf ANull; list_of []; described 3 (list_of [leaf (ASymbol "p")]);
       list_of [described 4 (list_of [str "s"; str "string"; list_of []; leaf ANull; leaf ANull; leaf (ABool true); leaf (ABool false)])]])] [leaf ANull].
Definition in_full (t : tree) : heard string :=
  inspected_all_aloud PropOutputWriter.here (fun _ => "TYPE") (fun _ => 9%Z)
    (told_in_full PropOutputWriter.here (fun _ => "") (fun s _ => fst (making_aloud PropOutputWriter.here true (installed_book (fun _ => "") [RPublicKey]) s)))
    (fun _ => "?") (fun _ _ _ => silent Wild) true true [RPublicKey] new_factory t.
Example C106_ex_full : in_full small = (PropOutputWriter.lines
  [ "[EnvelopeDescriptor.cxx::106] ENVELOPE"; "[SchemaDescriptor.cxx::35] SCHEMA"; "[SchemaDescriptor.cxx::48]   1/1";
    "[CompositeDescriptor.cxx::42] COMPOSITE"; "[ObjectDescriptor.cxx::32] DESCRIPTOR";
    "[FieldDescriptor.cxx::33] FIELD"; "[FieldDescriptor.cxx::42] FIELD::name: ""s"""; "[FieldDescriptor.cxx::49] FIELD::type: ""string""";
    "[Field.cxx::141] typeIsPrimitive - string"; "[Field.cxx::48] -> primitive"; "[Field.cxx::133] FIELD::FIELD - name: s, type: ";
    "[OrderedTypeNotations.h::154] Insert: net.P"; "[SchemaDescriptor.cxx::55] ======="; "level 1"; "    * net.P"; ""; "======";
    "[Schema.cxx::47] Schema: p net.P";
    "[CompositeFactoryInternal.cxx::91] process schema"; "[CompositeFactoryInternal.cxx::108] process::net.P";
    "[CompositeFactoryInternal.cxx::50] ComputeIfAbsent ""net.P"" - missing"; "[CompositeFactoryInternal.cxx::132] processComposite - net.P";
    "[CompositeFactoryInternal.cxx::148]   Field: s: ""string"" {s} primitive"; "[CompositeFactoryInternal.cxx::154]     Field s[string] is primitive";
    "[CompositeFactoryInternal.cxx::50] ComputeIfAbsent ""string"" - missing";
    "[CompositeFactoryInternal.cxx::53]                 ""string"" - RTN: String Serialiser : string"; "[CompositeFactoryInternal.cxx::56] string =?= string";
    "[CompositeFactoryInternal.cxx::53]                 ""net.P"" - RTN: Composite Serialiser : net.P"; "[CompositeFactoryInternal.cxx::56] net.P =?= net.P";
    "[proton_wrapper.cxx::299] YEP! it's a list"; "[CompositeReader.cxx::46] Read Composite: "; "[proton_wrapper.cxx::299] YEP! it's a list";
    "[CompositeReader.cxx::74] s true"; "[StringPropertyReader.cxx::36] StringPropertyReader::dump - s"; "STRING" ],
  Gives "{ Parsed : { s : ""17"" } }") /\
  own_names [RPublicKey] small = true /\ height small < 20 /\ exists cf, run true (map Install [RPublicKey]) new_factory cf.
Proof.
  split; [vm_compute; reflexivity|]. split; [vm_compute; reflexivity|]. split; [vm_compute; repeat constructor|].
  eexists. eapply run_cons; [split; [exact I|reflexivity]|left; reflexivity|]. apply run_nil.
Qed.
