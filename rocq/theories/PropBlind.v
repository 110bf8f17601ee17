(** Property theorem C67: what is in binary values does not show in what the
    library prints.  Specification: SpecBlind.v. *)
From Verif Require Import Base Proton CordaFile SpecFile Schema SpecDescriptors Factory Readers SpecReaders Blob ReadersProofs InspectProofs
  SchemaDump Tools SpecTools SpecBlind BlindProofs.
Import List ListNotations.
Open Scope string_scope.

(** C67, for inspection.  The serialisers the user installs must be discreet
    too. *)
Theorem C67_inspection_blind : forall fmt custom mo kf fuel d d' f,
  (forall which name, blind zeroed (custom which name)) -> same_but_binary d d' ->
  answer_of (dumpContents fmt custom mo kf fuel (d, f)) = answer_of (dumpContents fmt custom mo kf fuel (d', f)).
Proof. exact inspection_blind. Qed.
Print Assumptions C67_inspection_blind.

(** For the dumps, which do not even show the lengths. *)
Theorem C67_dump_blind : forall double float fuel d d', same_but_binaries d d' ->
  answer_of (dumpData double float fuel d) = answer_of (dumpData double float fuel d').
Proof. exact dump_blind. Qed.
Print Assumptions C67_dump_blind.
Theorem C67_schema_dump_blind : forall tn fuel target d d', same_but_binaries d d' ->
  answer_of (dumpSchema tn fuel target d) = answer_of (dumpSchema tn fuel target d').
Proof. exact schema_dump_blind. Qed.
Print Assumptions C67_schema_dump_blind.

(** For the command-line tools: all of what they print on standard output, and
    how they end. *)
Theorem C67_tools_blind : forall decode fmt custom mo kf double float tn fuel fs fs' prog name mode body body' t t', In mode ["avro"; "raw"] ->
  (forall which name, blind zeroed (custom which name)) ->
  fs name = File (magic ++ String "000" body) -> fits (magic ++ String "000" body) -> decode body = Some t ->
  fs' name = File (magic ++ String "000" body') -> fits (magic ++ String "000" body') -> decode body' = Some t' ->
  change zeroed t = change zeroed t' ->
  blob_inspector decode fmt custom mo kf fuel fs [prog; name] = blob_inspector decode fmt custom mo kf fuel fs' [prog; name] /\
  data_dumper decode double float fuel fs [prog; name] = data_dumper decode double float fuel fs' [prog; name] /\
  schema_dumper decode tn fuel fs [prog; name; mode] = schema_dumper decode tn fuel fs' [prog; name; mode].
Proof. exact tools_blind. Qed.
Print Assumptions C67_tools_blind.

(** Two secrets of the same length, in blobs that can be inspected. *)
Example C67_ex : let blob s := decoded (blob_with "binary" (leaf (ABinary s))) in
  same_but_binary (blob "secret") (blob "hidden") /\ blob "secret" <> blob "hidden" /\
  forall fmt custom mo kf, exists f,
    dumpContents fmt custom mo kf 12 (blob "secret", new_factory) = Ok (text_with "<<<binary: 6 bytes>>>") (blob "secret", f).
Proof.
  split; [vm_compute; reflexivity|]. split; [vm_compute; discriminate|]. intros fmt custom mo kf.
  apply (sample_binary fmt custom mo kf 12 (ABinary "secret") []). repeat constructor.
Qed.
(** The built-in serialiser for public keys is discreet. *)
Example C67_ex_key : forall name, blind zeroed (dump_public_key name).
Proof. intros name. apply b_public_key; auto using zeroed_binary, zeroed_other. Qed.

(** The length does show in what inspection prints. *)
Theorem C67_length_refuted : forall fmt custom mo kf, exists d d', same_but_binaries d d' /\
  answer_of (dumpContents fmt custom mo kf 12 (d, new_factory)) <> answer_of (dumpContents fmt custom mo kf 12 (d', new_factory)).
Proof.
  intros fmt custom mo kf. exists (decoded (blob_with "binary" (Node (ABinary "ab") []))), (decoded (blob_with "binary" (Node (ABinary "abc") []))).
  split; [vm_compute; reflexivity|].
  destruct (sample_binary fmt custom mo kf 12 (ABinary "ab") []) as (f & ->); [repeat constructor|].
  destruct (sample_binary fmt custom mo kf 12 (ABinary "abc") []) as (f' & ->); [repeat constructor|].
  vm_compute. discriminate.
Qed.
Print Assumptions C67_length_refuted.
