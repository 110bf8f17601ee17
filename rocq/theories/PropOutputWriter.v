(** Property theorems C101: what serialising an object writes to standard output.
    Specification: SpecOutputWriter.v.  Model: OutputWriter.v. *)
From Verif Require Import SpecTypes Base Proton TypeNames SpecDescriptors Writer SpecWriter WriterProofs SpecIdentity IdentityProofs
  SpecPrograms WriterTests WriterTestsProofs ProgramChecks OutputWriter SpecOutputWriter OutputWriterProofs Programs ProgramsProofs.
Import List ListNotations.
Open Scope string_scope.

(** Writing to standard output changes nothing else: the blob, or the exception or
    whatever happens, is that of Writer.v, also with a writer that has been used. *)
Theorem C101_same_result : forall P env t root w before, of_type P t root -> is_target root = true ->
  forget (serialise_blob_said P env t root (w, before)) = serialise_blob root w.
Proof. exact output_beside. Qed.
Print Assumptions C101_same_result.

(** What is written, to the letter. *)
Theorem C101_exactly : forall P env t root before, of_type P t root -> well_formed root -> is_target root = true -> no_clash root ->
  exists blob w ts,
    serialise_blob root new_writer = Ok blob w /\ blob = decoded (envelope_tree (wire root) [ts] [leaf ANull]) /\ schema_for root ts /\
    serialise_blob_said P env t root (new_writer, before) = Ok blob (w, whole_output P env before t root ts).
Proof. exact output_exact. Qed.
Print Assumptions C101_exactly.

(** C101 fails for every object: something is written, and in it is every primitive value that the
    object holds, at any depth, in order. *)
Theorem C101_silent_refuted : forall P env t root before, of_type P t root -> well_formed root -> is_target root = true -> no_clash root ->
  exists blob w x, serialise_blob root new_writer = Ok blob w /\
    serialise_blob_said P env t root (new_writer, before) = Ok blob (w, before ++ x) /\ x <> "" /\ in_lines env (values_held root) x.
Proof. exact output_shows. Qed.
Print Assumptions C101_silent_refuted.

(** But no primitive value that it only points to: objects that differ in nothing else give the
    same output, if the values are at the same addresses. *)
Theorem C101_pointers_partial : forall P env t a b before,
  (forall x, x = a \/ x = b -> of_type P t x /\ well_formed x /\ is_target x = true /\ one_kind x) -> masked a = masked b ->
  exists blob_a w_a blob_b w_b out,
    serialise_blob_said P env t a (new_writer, before) = Ok blob_a (w_a, out) /\
    serialise_blob_said P env t b (new_writer, before) = Ok blob_b (w_b, out).
Proof. exact output_hides. Qed.
Print Assumptions C101_pointers_partial.

(** A platform (compare for example debug.h:18). *)
Definition here : platform := {|
  file := fun f => f; span := fun a b => b; type_id := fun _ => "T"; allocator_id := fun _ => "A";
  null := "0"; show_double := fun _ => "d"; show_float := fun _ => "f"; address := fun _ => "0x1"; left_first := false |}.

(** writer-test-01: an int and a pointer to an int, which is not shown. *)
Definition pointing (v : Z) : item := object program1 "DeSerialiseMe" [int 7; IPrimPtr CInt (Some (OfInt v))].
Definition lines (l : list string) : string := String.concat newline l ++ newline.
Example C101_ex_pointer : forall v,
  of_type program1 (class "DeSerialiseMe") (pointing v) /\ well_formed (pointing v) /\ is_target (pointing v) = true /\ one_kind (pointing v) /\
  (forall v', masked (pointing v) = masked (pointing v')) /\ values_held (pointing v) = [OfInt 7] /\
  exists blob w, serialise_blob_said program1 here (class "DeSerialiseMe") (pointing v) (new_writer, "") = Ok blob (w, lines
   [ "[ModifiableAMQPBlobImpl.cxx::68] startComposite - DeSerialiseMe - DSM123";
     "[ModifiableAMQPBlobImpl.cxx::39]   startSerializable: DSM123";
     "[ModifiableAMQPBlobImpl.h::207] writePrimitive::m_val::7";
     "[FieldDescriptor.cxx::284] makeProton - m_val";
     "[ModifiableAMQPBlobImpl.h::228] WRITE IT";
     "[ModifiableAMQPBlobImpl.h::207] writePrimitive::m_val2::0x1";
     "[FieldDescriptor.cxx::284] makeProton - m_val2";
     "[ModifiableAMQPBlobImpl.h::228] WRITE IT";
     "[ModifiableAMQPBlobImpl.cxx::121] endComposite - DeSerialiseMe";
     "[ModifiableAMQPBlobImpl.cxx::237] toBlob:: m_schemas.size() = 1";
     "[ModifiableAMQPBlobImpl.cxx::248]     * DeSerialiseMe: 2";
     "[ModifiableAMQPBlobImpl.h::66] make";
     "[CompositeDescriptor.cxx::239] makeProton - DeSerialiseMe fields: #2" ]).
Proof.
  intros v. split; [cbn; tauto|]. split; [cbn; intuition discriminate|]. split; [reflexivity|]. split.
  { intros k a b. cbn. intuition congruence. }
  split; [reflexivity|]. split; [reflexivity|]. eexists _, _. vm_compute. reflexivity.
Qed.

(** writer-test-12: a map of lists of objects with lists.  The names of the types are written in
    the middle of the lines that they are for. *)
Definition nested : item := object12 [(5%Z, [("abc", [-3]%Z)])].
Example C101_ex_nested : of_type program12 (class "DeSerialiseMe") nested /\ well_formed nested /\ is_target nested = true /\ one_kind nested /\
  values_held nested = [OfInt 5; OfString "abc"; OfInt (-3)] /\
  exists blob w, serialise_blob_said program12 here (class "DeSerialiseMe") nested (new_writer, "> ") = Ok blob (w, lines
   [ "> [ModifiableAMQPBlobImpl.cxx::68] startComposite - DeSerialiseMe - FP-DSM";
     "[ModifiableAMQPBlobImpl.cxx::39]   startSerializable: FP-DSM";
     "[types.h::125] javaTypeName = Inner";
     "[types.h::138] javaTypeName RTN = Inner";
     "[types.h::125] javaTypeName = int";
     "[types.h::138] javaTypeName RTN = int";
     "[ModifiableAMQPBlobImpl.cxx::211] writeRestricted::DeSerialiseMe";
     "[FieldDescriptor.cxx::284] makeProton - m_map";
     "[SerializableMap.h::41] _serialise::FP-PANTS";
     "[ModifiableAMQPBlobImpl.cxx::93] startRestricted - java.util.Map<int,java.util.List<Inner>> - FP-PANTS";
     "[ModifiableAMQPBlobImpl.cxx::39]   startSerializable: FP-PANTS";
     "[SerializableMap.h::45]   * [types.h::125] javaTypeName = int";
     "[types.h::138] javaTypeName RTN = int";
     "int";
     "[SerializableMap.h::46]   * [types.h::125] javaTypeName = Inner";
     "[types.h::138] javaTypeName RTN = Inner";
     "java.util.List<Inner>";
     "[types.h::125] javaTypeName = int";
     "[types.h::138] javaTypeName RTN = int";
     "[SerialiserFactoryWriters.h::44]   SingleWriter::int - primitive";
     "[ModifiableAMQPBlobImpl.h::241] writePrimitiveSingle::5";
     "[SerialiserFactoryWriters.h::60]   SingleWriter::[types.h::125] javaTypeName = Inner";
     "[types.h::138] javaTypeName RTN = Inner";
     "java.util.List<Inner> - serialise";
     "[SerializableVector.h::43] _serialise::java.util.List<Inner>";
     "[ModifiableAMQPBlobImpl.cxx::93] startRestricted - java.util.List<Inner> - FP-InnerVector";
     "[ModifiableAMQPBlobImpl.cxx::39]   startSerializable: FP-InnerVector";
     "[SerialiserFactoryWriters.h::60]   SingleWriter::[types.h::125] javaTypeName = Inner";
     "[types.h::138] javaTypeName RTN = Inner";
     "Inner - serialise";
     "[Serializable.cxx::80] serialise::Inner";
     "[ModifiableAMQPBlobImpl.cxx::68] startComposite - Inner - FP-Inner";
     "[ModifiableAMQPBlobImpl.cxx::39]   startSerializable: FP-Inner";
     "[ModifiableAMQPBlobImpl.h::207] writePrimitive::m_a::abc";
     "[FieldDescriptor.cxx::284] makeProton - m_a";
     "[ModifiableAMQPBlobImpl.h::228] WRITE IT";
     "[types.h::125] javaTypeName = int";
     "[types.h::138] javaTypeName RTN = int";
     "[SerialiserFactoryWriters.h::112] write::VECTOR<T, A>";
     "[ModifiableAMQPBlobImpl.cxx::211] writeRestricted::Inner";
     "[FieldDescriptor.cxx::284] makeProton - m_b";
     "[SerializableVector.h::43] _serialise::java.util.List<int>";
     "[ModifiableAMQPBlobImpl.cxx::93] startRestricted - java.util.List<int> - FP-IntVector";
     "[ModifiableAMQPBlobImpl.cxx::39]   startSerializable: FP-IntVector";
     "[types.h::125] javaTypeName = int";
     "[types.h::138] javaTypeName RTN = int";
     "[SerialiserFactoryWriters.h::44]   SingleWriter::int - primitive";
     "[ModifiableAMQPBlobImpl.h::241] writePrimitiveSingle::-3";
     "[ModifiableAMQPBlobImpl.cxx::170] endRestricted - java.util.List<int>";
     "[ModifiableAMQPBlobImpl.cxx::121] endComposite - Inner";
     "[ModifiableAMQPBlobImpl.cxx::170] endRestricted - java.util.List<Inner>";
     "[ModifiableAMQPBlobImpl.cxx::170] endRestricted - java.util.Map<int,java.util.List<Inner>>";
     "[ModifiableAMQPBlobImpl.cxx::121] endComposite - DeSerialiseMe";
     "[ModifiableAMQPBlobImpl.cxx::237] toBlob:: m_schemas.size() = 5";
     "[ModifiableAMQPBlobImpl.cxx::248]     * DeSerialiseMe: 1";
     "[ModifiableAMQPBlobImpl.h::66] make";
     "[CompositeDescriptor.cxx::239] makeProton - DeSerialiseMe fields: #1";
     "[ModifiableAMQPBlobImpl.cxx::248]     * Inner: 2";
     "[ModifiableAMQPBlobImpl.h::66] make";
     "[CompositeDescriptor.cxx::239] makeProton - Inner fields: #2";
     "[ModifiableAMQPBlobImpl.cxx::248]     * java.util.List<Inner>: 0";
     "[ModifiableAMQPBlobImpl.h::89] make";
     "[ModifiableAMQPBlobImpl.cxx::248]     * java.util.List<int>: 0";
     "[ModifiableAMQPBlobImpl.h::89] make";
     "[ModifiableAMQPBlobImpl.cxx::248]     * java.util.Map<int,java.util.List<Inner>>: 0";
     "[ModifiableAMQPBlobImpl.h::89] make" ]).
Proof.
  assert (O : in_order program12) by (apply orderlyb_ok; reflexivity).
  assert (I : In (class "DeSerialiseMe") (types_of program12)) by (cbn; tauto).
  assert (T : of_type program12 (class "DeSerialiseMe") nested) by apply type12.
  split; [exact T|]. split; [cbn; tauto|]. split; [reflexivity|]. split; [exact (typed_one_kind _ _ nested O I T)|]. split; [reflexivity|].
  eexists _, _. vm_compute. reflexivity.
Qed.
