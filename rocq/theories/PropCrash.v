(** C86: saves that were interrupted. *)
From Verif Require Import Base Proton ProtonProofs CordaFile SpecFile Schema SpecDescriptors Factory Readers Blob SchemaDump Writer Tools SpecTools SpecCrash CrashProofs.
Import List ListNotations.
Open Scope string_scope.

(** Once the eight bytes at the start have been written, the tools never take the
    beginning of a saved blob for a blob: they print nothing and do not report
    success.  (They ought to report failure: what they do is fail an assertion.) *)
Theorem C86_nothing_shown_partial : forall decode encode fmt custom mo kf double float tn fuel fs blob prog name mode p,
  In mode ["avro"; "raw"] ->
  self_delimiting decode encode blob -> fits (magic ++ String nul (encode (forest blob))) ->
  interrupted (saved encode blob) (fs name) -> fs name = File p -> 8 <= String.length p ->
  blob_inspector decode fmt custom mo kf fuel fs [prog; name] = Aborted /\
  data_dumper decode double float fuel fs [prog; name] = Aborted /\
  schema_dumper decode tn fuel fs [prog; name; mode] = Aborted.
Proof. exact interrupted_late. Qed.
Print Assumptions C86_nothing_shown_partial.

(** Before the sixth byte the two dumpers report what is wrong. *)
Theorem C86_reported_partial : forall decode encode double float tn fuel fs blob prog name mode p,
  In mode ["avro"; "raw"] ->
  interrupted (saved encode blob) (fs name) -> fs name = File p -> String.length p < 6 ->
  complains (data_dumper decode double float fuel fs [prog; name]) /\
  complains (schema_dumper decode tn fuel fs [prog; name; mode]).
Proof. exact interrupted_early. Qed.
Print Assumptions C86_reported_partial.

(** With six or seven bytes their behaviour is undefined; that of the inspector
    always is when one of the first eight is missing. *)
Theorem C86_reported_refuted : forall decode encode fmt custom mo kf double float tn fuel fs blob prog name mode p,
  In mode ["avro"; "raw"] ->
  interrupted (saved encode blob) (fs name) -> fs name = File p -> String.length p < 8 ->
  blob_inspector decode fmt custom mo kf fuel fs [prog; name] = Undefined /\
  (6 <= String.length p ->
   data_dumper decode double float fuel fs [prog; name] = Undefined /\
   schema_dumper decode tn fuel fs [prog; name; mode] = Undefined).
Proof. exact interrupted_header. Qed.
Print Assumptions C86_reported_refuted.

(** A value whose encoding is "Txyz", cut at each of the three places. *)
Definition a_blob : data := decoded (leaf (AInt 5)).
Definition an_encoder (ts : list tree) : string := "Txyz".
Definition a_decoder (s : string) : option tree := if String.eqb s "Txyz" then Some (leaf (AInt 5)) else None.
Definition three_files (name : string) : file :=
  if String.eqb name "late" then File (magic ++ String nul "Txy")
  else if String.eqb name "early" then File "cor"
  else File magic.
Example C86_ex :
  self_delimiting a_decoder an_encoder a_blob /\ decodes a_decoder an_encoder a_blob /\
  fits (magic ++ String nul (an_encoder (forest a_blob))) /\
  interrupted (saved an_encoder a_blob) (three_files "late") /\
  interrupted (saved an_encoder a_blob) (three_files "early") /\
  interrupted (saved an_encoder a_blob) (three_files "other").
Proof.
  repeat split.
  - intros p r Hr E. unfold an_encoder in E. unfold a_decoder. destruct (String.eqb_spec p "Txyz") as [->|]; [|reflexivity].
    destruct r; [congruence|discriminate].
  - exists (leaf (AInt 5)). split; reflexivity.
  - exists (magic ++ String nul "Txy"), "z". repeat split. discriminate.
  - exists "cor", ("da" ++ String "001" (String nul (String nul "Txyz"))). repeat split. discriminate.
  - exists magic, (String nul "Txyz"). repeat split. discriminate.
Qed.
