(** Property theorem C54: sequences of operations on a blob.
    Specification: SpecHistory.v.  [custom] are the custom readers, [double],
    [float], [fmt] and [tn] the renderings that come from the libraries. *)
From Verif Require Import Base Proton ProtonProofs SpecDescriptors Readers SpecReaders Blob Factory
  Writer SpecWriter WriterProofs Deserialise SpecDeserialise DeserialiseProofs SchemaDump SpecHistory HistoryProofs.
Import List ListNotations.
Open Scope string_scope.

(** C54, for any sequence of operations on any data; each comes to an end. *)
Theorem C54_data_unchanged : forall fmt custom mo kf double float tn, (forall which name, stays_put (custom which name)) ->
  forall ops fuel d cf, heights (forest d) <= fuel ->
  match perform fmt custom mo kf double float tn fuel ops (d, cf) with
  | Ok _ (d', _) => forest d' = forest d
  | Fuel => False
  | _ => True
  end.
Proof. exact reads_keep. Qed.
Print Assumptions C54_data_unchanged.

(** Inspecting, reading, failing to read a second time: the data is the same,
    the position is not. *)
Definition pet_blob : data := decoded (envelope_tree (wire pet) [[
  wclass "net.Pet" "f:pet" [wfield "name" "string" [] false; wfield "sort" "char" [] false]]] [leaf ANull]).
Example C54_ex : forall fmt custom mo kf double float tn, exists d cf,
  perform fmt custom mo kf double float tn 11
    [DumpRaw; DumpSchema ToRaw; Deserialise sample_classes (RClass "net.Pet" false); Deserialise sample_classes (RClass "net.Pet" false)] (pet_blob, new_factory) = Ok tt (d, cf) /\
  d <> pet_blob /\ forest d = forest pet_blob /\ heights (forest pet_blob) <= 11.
Proof.
  intros. eexists _, _. split; [vm_compute; reflexivity|]. split; [intros E; apply (f_equal ups) in E; discriminate E|]. split; [vm_compute; reflexivity|]. vm_compute. repeat constructor.
Qed.
