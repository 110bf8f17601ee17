(** C97: what schema-dumper writes to standard output, debug lines and all.
    Specification: SpecSchemaOutput.v (the lines), SpecSchemaFate.v (how it ends),
    SpecJson.v. *)
From Coq Require Import Lia.
From Verif Require Import Base Proton ProtonProofs CordaFile SpecFile CordaFileProofs TypeNames Schema SpecSchema Descriptors SpecDescriptors Factory Readers Blob SchemaDump SpecSchemaDump
  SpecJson JsonProofs Tools SpecTools ToolsProofs SpecAccept SpecDisplay SpecReadScript SpecParse ParseProofs SpecFate FateProofs SpecOutput Output OutputProofs OutputSchema SpecSchemaFate SchemaFateProofs
  SpecSchemaOutput SchemaOutputProofs PropSchemaFate.
Import List ListNotations.
Open Scope string_scope.

(** Dumping the schema of any blob: how it ends, and what has been written by then. *)
Theorem C97_exactly : forall file type_name fuel t out, height t <= fuel ->
  outputs t out (dumpSchema_said file type_name fuel ToRaw (decoded t, out)) (raw_lines file t, raw_dump type_name t) /\
  outputs t out (dumpSchema_said file type_name fuel ToAvro (decoded t, out)) (avro_lines file t, avro_dump t).
Proof.
  intros file tn fuel t out Hf.
  assert (X : forall target (h : heard unit) r, keeps (decoded t) anything out (dumpSchema_said file tn fuel target (decoded t, out)) h -> leaves (decoded t) eq (dumpSchema tn fuel target (decoded t)) r ->
    outputs t out (dumpSchema_said file tn fuel target (decoded t, out)) (fst h, r)).
  { intros target h r K L. pose proof (erases_dumpSchema file tn fuel target (decoded t) out) as E. unfold keeps, leaves, outputs in *. cbn [fst snd].
    assert (L' : match r with Gives x => dumpSchema tn fuel target (decoded t) = Ok x (decoded t) | Raises e => dumpSchema tn fuel target (decoded t) = Throw e (decoded t)
      | Stops => dumpSchema tn fuel target (decoded t) = Abort | Wild => dumpSchema tn fuel target (decoded t) = UB end)
      by (destruct r as [x|e| |]; auto; now destruct L as (a & -> & ->)).
    destruct (snd h) as [b|e| |]; [destruct K as (a & K & _)|..]; rewrite K in E |- *; destruct r as [x|e'| |]; rewrite L' in E; try contradiction; try reflexivity; now destruct E as (-> & _). }
  split.
  - apply (X ToRaw (raw_noise file t)); [now apply (dump_keeps file tn fuel ToRaw [] t [] [])|now apply raw_exactly].
  - apply (X ToAvro (avro_noise file t)); [now apply (dump_keeps file tn fuel ToAvro [] t [] [])|now apply avro_exactly].
Qed.
Print Assumptions C97_exactly.

(** It is [dumpSchema] (C57, C58, C60, C95) with something written on the way: from any
    state of the cursor it ends in the same way, with the cursor at the same place. *)
Theorem C97_same_result : forall file type_name fuel target d out,
  same_but_for_output (dumpSchema_said file type_name fuel target (d, out)) out (dumpSchema type_name fuel target d).
Proof. intros. apply erases_dumpSchema. Qed.
Print Assumptions C97_same_result.

(** The tool, given a file with plain data that decodes. *)
Theorem C97_tool : forall file type_name decode fuel fs prog name body t,
  fs name = File (magic ++ String "000" body) -> SpecFile.fits (magic ++ String "000" body) -> decode body = Some t -> height t <= fuel ->
  let ends (lines : string) (how : fate string) := match how with
    | Gives x => Exit 0 (lines ++ x ++ newline) false
    | Raises RuntimeError => Exit 1 lines true
    | Raises _ => Terminated
    | Stops => Aborted
    | Wild => Tools.Undefined
    end in
  schema_dumper_said file type_name decode fuel fs [prog; name; "raw"] = ends (raw_lines file t) (raw_dump type_name t) /\
  schema_dumper_said file type_name decode fuel fs [prog; name; "avro"] = ends (avro_lines file t) (avro_dump t).
Proof.
  intros file tn decode fuel fs prog name body t Hn Hf Hd Hfu ends. unfold schema_dumper_said. rewrite Hn.
  destruct (C97_exactly file tn fuel t "" Hfu) as (E1 & E2). cbn [String.eqb Ascii.eqb Bool.eqb].
  split; rewrite (with_blob_fine decode _ _ body t) by (auto using lenient_good, default_good); unfold outputs in *; cbn [fst snd] in *.
  - destruct (raw_dump tn t) as [x|[]| |]; rewrite E1; reflexivity.
  - destruct (avro_dump t) as [x|[]| |]; rewrite E2; reflexivity.
Qed.
Print Assumptions C97_tool.

(** Otherwise it is the tool of Tools.v: on any arguments and files it ends in the same
    way, with the result at the end of the output. *)
Theorem C97_result_at_the_end : forall file type_name decode fuel fs argv,
  match schema_dumper_said file type_name decode fuel fs argv, schema_dumper decode type_name fuel fs argv with
  | Exit code out said, Exit code' out' said' => code = code' /\ said = said' /\ ends out out'
  | Terminated, Terminated | Aborted, Aborted | Tools.Undefined, Tools.Undefined | Unended, Unended => True
  | _, _ => False
  end.
Proof.
  intros file tn decode fuel fs argv.
  assert (R : forall (c : nat) s (said : bool), c = c /\ said = said /\ ends s s) by (intros; repeat split; now exists "").
  assert (F : forall target d, match finish_said (dumpSchema_said file tn fuel target (d, "")), finish caught (dumpSchema tn fuel target d) with
    | Exit code out said, Exit code' out' said' => code = code' /\ said = said' /\ ends out out'
    | Terminated, Terminated | Aborted, Aborted | Tools.Undefined, Tools.Undefined | Unended, Unended => True
    | _, _ => False end).
  { intros target d. pose proof (C97_same_result file tn fuel target d "") as S. unfold same_but_for_output in S.
    destruct (dumpSchema_said file tn fuel target (d, "")) as [x [d1 o1]|e [d1 o1]| | |], (dumpSchema tn fuel target d) as [x' d1'|e' d1'| | |]; try contradiction; cbn; auto.
    - destruct S as (-> & _ & _). repeat split. now exists o1.
    - destruct S as (-> & _ & _). destruct e'; cbn; auto. repeat split. exists o1. now rewrite append_nil. }
  assert (W : forall f target, match with_blob decode caught f default_config (fun d => finish_said (dumpSchema_said file tn fuel target (d, ""))),
       with_blob decode caught f default_config (fun d => finish caught (dumpSchema tn fuel target d)) with
    | Exit code out said, Exit code' out' said' => code = code' /\ said = said' /\ ends out out'
    | Terminated, Terminated | Aborted, Aborted | Tools.Undefined, Tools.Undefined | Unended, Unended => True
    | _, _ => False end).
  { intros f target. unfold with_blob; destruct (open_ _ _) as [cb|e| | |]; cbn; auto; [|destruct e; cbn; auto];
     destruct (decodable cb); cbn; auto; destruct (AMQPBlob_ decode cb) as [d|e| | |]; cbn; auto; [apply F|destruct e; cbn; auto]. }
  unfold schema_dumper_said, schema_dumper. destruct argv as [|a0 [|name [|mode [|]]]]; try apply R.
  destruct (fs name) as [|size|bytes]; [apply R| |]; (destruct (String.eqb mode "avro"); [apply W|]; destruct (String.eqb mode "raw"); [apply W|apply R]).
Qed.
Print Assumptions C97_result_at_the_end.

(** What comes before the result is whole lines, *)
Theorem C97_result_on_its_own_line : forall file t,
  (raw_lines file t = "" \/ ends (raw_lines file t) newline) /\ (avro_lines file t = "" \/ ends (avro_lines file t) newline).
Proof.
  intros file t. split; [apply raw_whole_lines|apply avro_whole_lines].
Qed.
Print Assumptions C97_result_on_its_own_line.

(** in the Avro form always at least this one, *)
Theorem C97_avro_alone_refuted : forall file t x, avro_dump t = Gives x ->
  begins (avro_lines file t) ("[" ++ file "AMQPDescriptor.cxx" ++ "::136] readAvro::Descriptor" ++ newline).
Proof.
  intros file t x E. apply avro_begins. unfold avro_dump in E. destruct t as [[] cs]; try discriminate E. reflexivity.
Qed.
Print Assumptions C97_avro_alone_refuted.

(** so what the tool writes is not JSON, whatever the schema (if there are no quotation
    marks in the path of the source file): *)
Theorem C97_avro_json_refuted : forall file type_name decode fuel fs prog name body t out said j,
  fs name = File (magic ++ String "000" body) -> SpecFile.fits (magic ++ String "000" body) -> decode body = Some t -> height t <= fuel ->
  ~ In "034"%char (list_ascii_of_string (file "AMQPDescriptor.cxx")) ->
  schema_dumper_said file type_name decode fuel fs [prog; name; "avro"] = Exit 0 out said -> ~ json_text j out.
Proof.
  intros file tn decode fuel fs prog name body t out said j Hn Hf Hd Hh Hq E.
  destruct (C97_tool file tn decode fuel fs prog name body t Hn Hf Hd Hh) as (_ & T). rewrite E in T. clear E.
  destruct (avro_dump t) as [x|[]| |] eqn:Ea; try discriminate T. injection T as -> ->.
  destruct (C97_avro_alone_refuted file t x Ea) as [r ->].
  intros J. apply json_scans in J. revert J. rewrite !append_assoc3. cbn [append].
  rewrite (scan_cons (Out 0) "[" _ (Out 1) eq_refl), scan_app.
  destruct (scan_unquoted _ Hq 1) as [->|(k & ->)]; [discriminate|]. destruct k; cbn; discriminate.
Qed.
Print Assumptions C97_avro_json_refuted.

(** and in the raw form unless the whole is described by a symbol, which no envelope
    is. *)
Theorem C97_raw_alone_refuted : forall file type_name t x, raw_dump type_name t = Gives x ->
  (exists s cs, part 0 t = Some (Node (ASymbol s) cs)) /\ raw_lines file t = "" \/
  (exists key cs, part 0 t = Some (Node (AULong key) cs)) /\ begins (raw_lines file t) ("[" ++ file "proton_wrapper.cxx" ++ "::299] YEP! it's a list" ++ newline).
Proof.
  intros file tn t x E. unfold raw_dump in E. destruct t as [[] cs]; try discriminate E. cbn [described_tree onward] in E. set (t := Node ADescribed cs) in *.
  unfold raw_lines. cbn [described_tree t]. fold t. rewrite silent_then. cbn [raw raw_said] in *. unfold raw_element, opened, raw_element_said, opened_said in *.
  destruct (part 0 t) as [[[] ?]|]; try discriminate E.
  - right. split; [eauto|]. destruct (part 1 t) as [[[] bcs]|]; try discriminate E. clear.
    unfold list_said. cbn [a_list]. rewrite silent_then, then_then. eapply begins_trans; [apply line_then; reflexivity|]. exists "". rewrite append_nil. unfold list_line, from, line. cbn [fst]. now rewrite !append_assoc3.
  - left. split; [eauto|reflexivity].
Qed.
Print Assumptions C97_raw_alone_refuted.

(** ** Examples: a schema with one class, and one that is not complete. *)
Definition said_lines (l : list string) : string := fold_right (fun x s => x ++ newline ++ s) "" l.
Definition ex_blob : tree := ok_blob (a_property "int" []).
Definition ex_cut : tree := a_blob [list_of [a_class (leaf (AInt 1)) []]].
Definition ex_fs (name : string) : CordaFile.file := if String.eqb name "f" then File (magic ++ String "000" "good") else if String.eqb name "n" then File (magic ++ String "000" "cut") else NoFile.
Definition ex_dec (s : string) : option tree := if String.eqb s "good" then Some ex_blob else if String.eqb s "cut" then Some ex_cut else None.
Definition yep : string := "[proton_wrapper.cxx::299] YEP! it's a list".
Definition described_line : string := "[AMQPDescriptor.cxx::136] readAvro::Descriptor".
Example C97_ex :
  let run name mode := schema_dumper_said (fun f => f) tn ex_dec 12 ex_fs ["schema-dumper"; name; mode] in
  height ex_blob <= 12 /\ SpecFile.fits (magic ++ String "000" "good") /\ SpecFile.fits (magic ++ String "000" "cut") /\
  (exists x, raw_dump tn ex_blob = Gives x /\ run "f" "raw" = Exit 0 (said_lines [yep; yep; yep; yep; yep; yep; yep; "STRING"; "STRING"; yep; yep; yep; yep; yep] ++ x ++ newline) false) /\
  (exists x, avro_dump ex_blob = Gives x /\ run "f" "avro" = Exit 0 (said_lines
    [ described_line; yep; "[EnvelopeDescriptor.cxx::76] readAvro::Envelope"; yep; described_line; yep; "[SchemaDescriptor.cxx::108] readAvro::Schema"; yep;
      described_line; yep; "[CompositeDescriptor.cxx::165] readAvro::Composite"; yep; "STRING"; yep;
      described_line; yep; "[ObjectDescriptor.cxx::77] readAvro::Object"; yep; described_line; yep; yep ] ++ x ++ newline) false) /\
  run "n" "raw" = Exit 1 (said_lines [yep; yep; yep; yep; yep; yep; yep; "STRING"]) true.
Proof.
  intros run. split; [apply Nat.leb_le; vm_compute; reflexivity|]. split; [reflexivity|]. split; [reflexivity|]. split; [|split].
  - exists (match raw_dump tn ex_blob with Gives x => x | _ => "" end). split; vm_compute; reflexivity.
  - exists (match avro_dump ex_blob with Gives x => x | _ => "" end). split; vm_compute; reflexivity.
  - vm_compute. reflexivity.
Qed.
