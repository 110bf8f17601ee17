(** Property theorems C63 - C65: the command-line tools blob-inspector,
    schema-dumper and data-dumper, and saving blobs.  Specification: SpecTools.v
    (how a run ends), SpecFile.v (the file format), and those of the library
    calls.  [fs] gives the files, [decode] and [encode] are proton's; an argument
    list starts with the name of the program. *)
From Coq Require Import Permutation.
From Verif Require Import Base Proton ProtonProofs CordaFile SpecFile CordaFileProofs Schema SpecSchema SpecDescriptors Factory SpecFactory
  Readers SpecReaders Blob ReadersProofs Writer SpecWriter WriterProofs SpecWriteRead WriteReadProofs ManyProofs SchemaDump SpecSchemaDump
  Deserialise SpecHistory HistoryProofs Tools SpecTools ToolsProofs.
Import List ListNotations.
Open Scope string_scope.

(** C63.  A wrong number of arguments, a file that does not exist, or an unknown
    mode: the tools report failure. *)
Theorem C63_usage : forall decode fmt custom mo kf double float tn fuel fs,
  let inspector := blob_inspector decode fmt custom mo kf fuel fs in
  let sdumper := schema_dumper decode tn fuel fs in
  let ddumper := data_dumper decode double float fuel fs in
  (forall argv, (length argv <> 2 -> fails (inspector argv) /\ complains (ddumper argv)) /\
                (length argv <> 3 -> complains (sdumper argv))) /\
  (forall prog name mode, fs name = NoFile -> fails (inspector [prog; name]) /\ fails (ddumper [prog; name]) /\ fails (sdumper [prog; name; mode])) /\
  (forall prog name mode, mode <> "avro" -> mode <> "raw" -> fails (sdumper [prog; name; mode])).
Proof.
  intros decode fmt custom mo kf double float tn fuel fs. split; [|split].
  - apply usage.
  - apply no_file.
  - apply bad_mode.
Qed.
Print Assumptions C63_usage.

(** The two dumpers complain about what is not a Corda file with plain data: one
    that cannot be read, or has at least eight bytes and does not start with the
    magic bytes and a zero.  (Shorter ones: C03.) *)
Theorem C63_foreign_file_partial : forall decode double float tn fuel fs prog name mode, In mode ["avro"; "raw"] ->
  (exists size, fs name = Unreadable size) \/
  (exists bytes, fs name = File bytes /\ fits bytes /\ 8 <= String.length bytes /\ forall body, bytes <> magic ++ String "000" body) ->
  complains (data_dumper decode double float fuel fs [prog; name]) /\
  complains (schema_dumper decode tn fuel fs [prog; name; mode]).
Proof. intros decode double float tn fuel fs. apply foreign. Qed.
Print Assumptions C63_foreign_file_partial.

(** Success is truthful: a tool that reports it was given a Corda file (the
    inspector: any seven bytes will do for the magic) whose body decodes, and
    printed what the library call returned. *)
Theorem C63_success_means : forall decode fmt custom mo kf double float tn fuel fs,
  (forall name, match fs name with File b => fits b | _ => True end) ->
  (forall argv out said, data_dumper decode double float fuel fs argv = Exit 0 out said ->
     exists prog name body t text d, argv = [prog; name] /\ fs name = File (magic ++ String "000" body) /\ decode body = Some t /\
       dumpData double float fuel (decoded t) = Ok text d /\ out = text ++ newline) /\
  (forall argv out said, schema_dumper decode tn fuel fs argv = Exit 0 out said ->
     exists prog name mode body t text d, argv = [prog; name; mode] /\ In mode ["avro"; "raw"] /\
       fs name = File (magic ++ String "000" body) /\ decode body = Some t /\
       dumpSchema tn fuel (if String.eqb mode "avro" then ToAvro else ToRaw) (decoded t) = Ok text d /\ out = text ++ newline) /\
  (forall argv out said, blob_inspector decode fmt custom mo kf fuel fs argv = Exit 0 out said ->
     exists prog name h body t text cf cf' d, argv = [prog; name] /\ fs name = File (h ++ String "000" body) /\ String.length h = 7 /\
       decode body = Some t /\ installCustomSerialiser RPublicKey new_factory = Ok tt cf /\
       dumpContents fmt custom mo kf fuel (decoded t, cf) = Ok text (d, cf') /\ out = text ++ newline).
Proof.
  intros decode fmt custom mo kf double float tn fuel fs HF. split; [|split].
  - now apply success_ddumper.
  - now apply success_sdumper.
  - intros argv out said H. apply success_inspector in H; [|assumption].
    destruct H as (prog & name & h & body & t & text & [d cf'] & H1 & H2 & H3 & H4 & H5 & H6).
    destruct (install_key mo) as (cf & E & _). unfold inspector_dump, bind, on_factory in H5. rewrite E in H5.
    exists prog, name, h, body, t, text, cf, cf', d. repeat split; assumption.
Qed.
Print Assumptions C63_success_means.

(** No exception escapes from the data-dumper, or from the schema-dumper unless
    in Avro mode. *)
Theorem C63_exceptions_reported_partial : forall decode double float tn fuel fs,
  (forall name, match fs name with File b => fits b | _ => True end) ->
  forall argv,
  data_dumper decode double float fuel fs argv <> Terminated /\
  (forall mode, nth_error argv 2 = Some mode -> mode <> "avro" -> schema_dumper decode tn fuel fs argv <> Terminated).
Proof. exact never_terminated. Qed.
Print Assumptions C63_exceptions_reported_partial.

(** It does in Avro mode, for a property of a class with a type name that
    cannot be taken apart. *)
Definition of_type (ty : string) : tree :=
  envelope_tree (payload_tree "f:a" []) [[wclass "net.A" "f:a" [wfield "p" ty [] false]]] [leaf ANull].
Theorem C63_avro_exception_refuted : forall tn decode body fs prog name,
  fs name = File (magic ++ String "000" body) -> fits (magic ++ String "000" body) -> decode body = Some (of_type "java.util.Map") ->
  schema_dumper decode tn 10 fs [prog; name; "avro"] = Terminated.
Proof.
  intros tn decode body fs prog name E Hf Hd.
  destruct (good_file decode (fun _ => "") (fun _ _ _ => UB) true true (fun _ => "") (fun _ => "") tn 10 fs prog name "avro" _ _ (or_introl eq_refl) E Hf Hd) as (_ & _ & ->).
  vm_compute. reflexivity.
Qed.
Print Assumptions C63_avro_exception_refuted.

(** A body that does not decode ends all three in a failed assertion, *)
Theorem C63_bad_body_refuted : forall decode fmt custom mo kf double float tn fuel fs prog name mode body, In mode ["avro"; "raw"] ->
  fs name = File (magic ++ String "000" body) -> fits (magic ++ String "000" body) -> decode body = None ->
  blob_inspector decode fmt custom mo kf fuel fs [prog; name] = Aborted /\
  data_dumper decode double float fuel fs [prog; name] = Aborted /\
  schema_dumper decode tn fuel fs [prog; name; mode] = Aborted.
Proof. exact bad_body. Qed.
Print Assumptions C63_bad_body_refuted.

(** ... and the inspector has undefined behaviour for files it cannot read or
    that are too short, and lets an exception escape if the byte after the magic
    is unknown.  (It does complain about the other two known ones.) *)
Theorem C63_inspector_refuted : forall decode fmt custom mo kf fuel fs prog name,
  let result := blob_inspector decode fmt custom mo kf fuel fs [prog; name] in
  ((exists size, fs name = Unreadable size) \/ (exists bytes, fs name = File bytes /\ String.length bytes < 8) -> result = Undefined) /\
  (forall h x body, fs name = File (h ++ String x body) -> fits (h ++ String x body) -> String.length h = 7 ->
     (x = "001"%char \/ x = "002"%char -> complains result) /\
     (x <> "000"%char -> x <> "001"%char -> x <> "002"%char -> result = Terminated)).
Proof. intros decode fmt custom mo kf fuel fs prog name. apply inspector_bad. Qed.
Print Assumptions C63_inspector_refuted.

(** Two files: one that is plain text, one whose body is the single letter T,
    which stands for the number 5. *)
Definition some_files (name : string) : file :=
  if String.eqb name "text" then File "just a text" else if String.eqb name "data" then File (magic ++ String "000" "T") else NoFile.
Example C63_ex : forall decode tn,
  fails (schema_dumper decode tn 9 some_files ["sd"; "other"; "raw"]) /\
  (exists bytes, some_files "text" = File bytes /\ fits bytes /\ 8 <= String.length bytes /\ forall body, bytes <> magic ++ String "000" body) /\
  complains (schema_dumper decode tn 9 some_files ["sd"; "text"; "raw"]) /\
  schema_dumper (fun _ => None) tn 9 some_files ["sd"; "data"; "raw"] = Aborted /\
  complains (schema_dumper (fun _ => Some (leaf (AInt 5))) tn 9 some_files ["sd"; "data"; "raw"]) /\
  (exists out, schema_dumper (fun _ => Some (of_type "int")) tn 9 some_files ["sd"; "data"; "avro"] = Exit 0 out false) /\
  schema_dumper (fun _ => Some (of_type "java.util.Map")) tn 10 some_files ["sd"; "data"; "avro"] = Terminated.
Proof.
  intros decode tn. repeat split; try (eexists; reflexivity).
  eexists. repeat split; [cbn; repeat constructor|]. intros body. discriminate.
Qed.

(** C64.  From an object to the screen.  [saved encode blob] is the file that
    holds the blob; proton decodes what it encoded ([decodes]).  The data-dumper
    prints the object, *)
Theorem C64_data_dumper_partial : forall decode encode fs root blob w double float fuel prog name,
  well_formed root -> is_target root = true -> no_clash root -> without_maps root ->
  serialise_blob root new_writer = Ok blob w -> decodes decode encode blob ->
  fs name = saved encode blob -> fits (magic ++ String "000" (encode (forest blob))) -> height (wire root) <= fuel ->
  shows (data_dumper decode double float fuel fs [prog; name]) (raw_text double float dec (as_raw root)).
Proof. exact data_dumped. Qed.
Print Assumptions C64_data_dumper_partial.

(** the schema-dumper its schema, *)
Theorem C64_schema_dumper : forall decode encode fs root blob w tn fuel prog name,
  well_formed root -> is_target root = true -> no_clash root ->
  serialise_blob root new_writer = Ok blob w -> decodes decode encode blob ->
  fs name = saved encode blob -> fits (magic ++ String "000" (encode (forest blob))) -> 3 <= fuel ->
  exists ws, schema_for root ws /\
    shows (schema_dumper decode tn fuel fs [prog; name; "raw"]) (lay (envelope_lines (tn TNull) (fingerprint root) [ws] 1)).
Proof. exact schema_dumped. Qed.
Print Assumptions C64_schema_dumper.

(** and the blob-inspector nothing but the object; *)
Theorem C64_inspector_right : forall decode encode fs root blob w fmt custom mo kf fuel prog name out said,
  can_inspect root -> kf = true \/ map_free (shown root) -> ~ In (reader_type RPublicKey) (names_in root) ->
  serialise_blob root new_writer = Ok blob w -> decodes decode encode blob ->
  fs name = saved encode blob -> fits (magic ++ String "000" (encode (forest blob))) -> heights (forest blob) < fuel ->
  blob_inspector decode fmt custom mo kf fuel fs [prog; name] = Exit 0 out said ->
  out = ("{ Parsed : " ++ printed fmt dec (shown root) ++ " }") ++ newline.
Proof. exact inspected_right. Qed.
Print Assumptions C64_inspector_right.

(** it does print the object if its types come in a good order (C49). *)
Theorem C64_inspector_partial : forall decode encode fs root blob w fmt custom mo kf fuel prog name,
  can_inspect root -> elements_known root -> kf = true \/ map_free (shown root) -> ~ In (reader_type RPublicKey) (names_in root) ->
  serialise_blob root new_writer = Ok blob w -> decodes decode encode blob ->
  fs name = saved encode blob -> fits (magic ++ String "000" (encode (forest blob))) -> heights (forest blob) < fuel ->
  exists ws ts, schema_for root ws /\ Forall2 type_means ws ts /\
    ((forall t, In t ts -> ~ uses t t) -> listed ts ->
     shows (blob_inspector decode fmt custom mo kf fuel fs [prog; name]) ("{ Parsed : " ++ printed fmt dec (shown root) ++ " }")).
Proof. exact inspected. Qed.
Print Assumptions C64_inspector_partial.

(** The owner of some pets, with a stand-in for proton. *)
Definition owner_tree : tree := envelope_tree (wire owner) [ws_owner] [leaf ANull].
Definition owner_encode (ts : list tree) : string := "owner".
Definition owner_decode (s : string) : option tree := if String.eqb s "owner" then Some owner_tree else None.
Definition owner_files (name : string) : file := if String.eqb name "o" then saved owner_encode (decoded owner_tree) else NoFile.
Example C64_ex : can_inspect owner /\ elements_known owner /\ map_free (shown owner) /\ without_maps owner /\
  ~ In (reader_type RPublicKey) (names_in owner) /\
  (exists w, serialise_blob owner new_writer = Ok (decoded owner_tree) w) /\ decodes owner_decode owner_encode (decoded owner_tree) /\
  fits (magic ++ String "000" (owner_encode (forest (decoded owner_tree)))) /\ heights (forest (decoded owner_tree)) < 20.
Proof.
  split; [apply owner_inspectable|]. split; [apply owner_known|]. split; [cbn; tauto|]. split; [cbn; tauto|]. split.
  { cbn. intros H. in_cases H; discriminate. }
  split; [apply owner_blob|]. split; [exists owner_tree; split; reflexivity|]. split; [reflexivity|]. vm_compute. repeat constructor.
Qed.
Example C64_ex_text : forall fmt custom mo double float,
  shows (blob_inspector owner_decode fmt custom mo true 20 owner_files ["blob-inspector"; "o"])
    "{ Parsed : { age : 40, best : { name : ""Rex"" }, pets : [ { name : ""Rex"" }, { name : ""Tom"" } ], spare : <<NULL>> } }" /\
  shows (data_dumper owner_decode double float 9 owner_files ["data-dumper"; "o"])
    "f:owner : [ 40, f:pet : [ Rex ], f:pets : [ f:pet : [ Rex ], f:pet : [ Tom ] ], null ]".
Proof. intros fmt custom [|] double float; vm_compute; split; reflexivity. Qed.

(** C65.  Whatever has been read from a blob before: saving it and opening the
    file gives the blob as it was at first. *)
Theorem C65_save_after_reading : forall decode encode fmt custom mo kf double float tn,
  (forall which name, stays_put (custom which name)) ->
  forall ops fuel t cf d' cf', height t <= fuel ->
  perform fmt custom mo kf double float tn fuel ops (decoded t, cf) = Ok tt (d', cf') ->
  decode (encode [t]) = Some t -> fits (magic ++ String "000" (encode [t])) ->
  forall c, good_config c -> exists cb, open_ (saved encode d') c = Ret cb /\ decodable cb = true /\ AMQPBlob_ decode cb = Ret (decoded t).
Proof. exact save_after_reading. Qed.
Print Assumptions C65_save_after_reading.

Example C65_ex : forall fmt custom kf double float tn, exists d cf,
  perform fmt custom true kf double float tn 12 [DumpRaw; DumpSchema ToRaw; Inspect; DumpSchema ToAvro] (decoded owner_tree, new_factory) = Ok tt (d, cf) /\
  owner_decode (owner_encode [owner_tree]) = Some owner_tree /\ height owner_tree <= 12 /\ good_config default_config.
Proof.
  intros fmt custom kf double float tn. eexists _, _. split; [destruct kf; vm_compute; reflexivity|]. split; [reflexivity|]. split; [vm_compute; repeat constructor|].
  apply default_good.
Qed.
