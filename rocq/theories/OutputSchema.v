(** What is written to standard output on the way: dumping the schema of a blob, and
    bin/schema-dumper, with the debug lines of the library.  Each function here is the
    one of the same name without [_said] (SchemaDump.v, Tools.v), with its output. *)
From Verif Require Import Base Proton TypeNames Schema Descriptors Readers CordaFile Blob SchemaDump Tools Output.
Import List ListNotations.
Open Scope string_scope.

(** [proton::auto_next] as an argument or a temporary: moves on at the end of the full
    expression, and writes nothing (proton_wrapper.cxx:423-437). *)
Definition auto_next_said {A} (m : OM A) : OM A := finally m (moving pn_next).
(** [while (pn_data_next (data_)) ..], as [while_loop] in Descriptors.v: for example
    CompositeDescriptor.cxx:62 and 79. *)
Fixpoint while_loop_said {A} (n : nat) (body : A -> OM A) (acc : A) : OM A :=
  fun s =>
    if pn_next_ok (fst s) then
      match n with
      | 0 => Fuel
      | S n' => (let! acc' := body acc in while_loop_said n' body acc') (moving pn_next s)
      end
    else Ok acc s.
Definition while_next_said {A} (body : A -> OM A) (acc : A) : OM A :=
  fun s => while_loop_said (List.length (siblings (here (fst s)))) body acc s.

Section Said.
(** [__FILE__] in each of the source files, by the name of the file: the path given to
    the compiler. *)
Context (file : string -> string).
Context (type_name : pn_type -> string).
Notation attest_is_list_said := (attest_is_list_said (file "proton_wrapper.cxx")).

(** As [by_type] in SchemaDump.v; AMQPDescriptorRegistory.cxx:23-95. *)
Definition by_type_said (rec : string -> OM string) (ai : string) : OM string :=
  fun s => match pn_dtype (fst s) with TDescribed => rec ai s | _ => UB end.

(** ** The raw dump *)
Section Raw.
Context (rec : string -> OM string).

(** EnvelopeDescriptor.cxx:42-65 *)
Definition raw_envelope_said (ai_ : string) : OM string :=
  let ai := deeper ai_ in
  attest_is_list_said ;;
  auto_enter_said false (
    let! a := auto_next_said (by_type_said rec (deeper ai)) in
    let! b := auto_next_said (by_type_said rec (deeper ai)) in
    ret (ai ++ "1]" ++ nl ++ a ++ ai ++ "2]" ++ nl ++ b)).

(** SchemaDescriptor.cxx:65-97 *)
Definition raw_schema_said (ai_ : string) : OM string :=
  let ai := deeper ai_ in
  let ai2 := deeper ai in
  attest_is_list_said ;;
  auto_list_enter_said false (fun n =>
    let! (_, text) := while_next_said (fun '(i, acc) =>
      attest_is_list_said ;;
      let! group := auto_list_enter_said false (fun m =>
        let! (_, text) := while_next_said (fun '(j, acc) =>
          let! t := by_type_said rec (deeper ai2) in
          ret (S j, acc ++ ai2 ++ num i ++ ":" ++ num j ++ "/" ++ num m ++ "] " ++ nl ++ t)) (1, "") in
        ret (" list: entries: " ++ num m ++ nl ++ text)) in
      ret (S i, acc ++ ai ++ num i ++ "/" ++ num n ++ "]" ++ group)) (1, "") in
    ret text).

(** CompositeDescriptor.cxx:95-154 *)
Definition raw_composite_said (ai_ : string) : OM string :=
  let ai := deeper ai_ in
  let ai2 := deeper ai in
  attest_is_list_said ;;
  auto_enter_said false (
    silently (attest_is_string false) ;;
    let! name := readAndNext_string_said false in
    silently (attest_is_string false) ;;
    let! label := readAndNext_string_said true in
    attest_is_list_said ;;
    let! provides := silently (auto_list_enter false (fun _ => while_next (fun acc =>
        let! s := get_string false in ret (acc ++ ai ++ s ++ " ")) "")) in
    silently next_ ;;
    silently attest_is_described ;;
    let! descriptor := auto_next_said (by_type_said rec (deeper ai)) in
    let! (_, fields) := auto_list_enter_said false (fun n => while_next_said (fun '(i, acc) =>
        let! t := by_type_said rec (deeper ai2) in
        ret (S i, acc ++ ai2 ++ num i ++ "/" ++ num n ++ "]" ++ nl ++ t)) (1, "")) in
    ret (ai ++ "1] String: ClassName: " ++ name ++ nl ++
         ai ++ "2] String: Label: " ++ quote ++ label ++ quote ++ nl ++
         ai ++ "3] List: Provides: [ " ++ provides ++ "]" ++ nl ++
         ai ++ "4] Descriptor:" ++ nl ++ descriptor ++
         ai ++ "5] List: Fields: " ++ nl ++ fields)).

(** FieldDescriptor.cxx:89-137: line 94 checks and says so, the rest reads with
    functions that write nothing.  ([raw_field] checks once more, in vain.) *)
Definition raw_field_said (ai_ : string) : OM string :=
  attest_is_list_said ;; silently (raw_field ai_).

(** ObjectDescriptor.cxx:45-66, likewise. *)
Definition raw_object_said (ai_ : string) : OM string :=
  attest_is_list_said ;; silently (raw_object type_name ai_).

(** RestrictedDescriptor.cxx:160-196 *)
Definition raw_restricted_said (ai_ : string) : OM string :=
  let ai := deeper ai_ in
  attest_is_list_said ;;
  auto_enter_said false (
    let! name := readAndNext_string_said false in
    let! label := readAndNext_string_said true in
    let! provides := silently (auto_list_enter false (fun _ => while_next (fun acc =>
        let! s := get_string false in ret (acc ++ s ++ " ")) "")) in
    silently next_ ;;
    let! source := readAndNext_string_said false in
    let! descriptor := auto_next_said (by_type_said rec (deeper ai)) in
    ret (ai ++ "1] String: Name: " ++ name ++ nl ++
         ai ++ "2] String: Label: " ++ label ++ nl ++
         ai ++ "3] List: Provides: [ " ++ provides ++ "]" ++ nl ++
         ai ++ "4] String: Source: " ++ source ++ nl ++
         ai ++ "5] Descriptor:" ++ nl ++ descriptor)).

(** The virtual call [AMQPDescriptorRegistory[key]->readRaw (..)],
    AMQPDescriptor.cxx:96. *)
Definition raw_of_said (k : descriptor_kind) : string -> OM string :=
  match k with
  | KEnvelope => raw_envelope_said
  | KSchema => raw_schema_said
  | KObject => raw_object_said
  | KField => raw_field_said
  | KComposite => raw_composite_said
  | KRestricted => raw_restricted_said
  | _ => rec
  end.

(** AMQPDescriptor.cxx:68-111 *)
Definition raw_described_said (ai_ : string) : OM string :=
  let ai := deeper ai_ in
  let! text := auto_enter_said false (fun s =>
    match pn_dtype (fst s) with
    | TULong =>
        (let! key := silently readAndNext_ulong in
         attest_is_list_said ;;
         fun s =>
           match registered key with
           | None => UB
           | Some desc =>
               (let! t := raw_of_said (d_kind desc) ai in
                ret (ai ++ "key  : " ++ dec (Z.of_N key) ++ " :: " ++ dec (Z.of_N (stripCorda key)) ++
                     " -> " ++ describedToString key ++ nl ++
                     ai ++ "list : entries: " ++ num (pn_get_list (fst s)) ++ nl ++ t)) s
           end) s
    | TSymbol => Ok (ai ++ "blob: bytes: " ++ num (symbol_size (fst s)) ++ nl) s
    | _ => Throw RuntimeError s
    end) in
  ret (ai_ ++ "DESCRIBED: " ++ nl ++ text).
End Raw.

(** AMQPDescriptor.cxx:68-111; [fuel] bounds the nesting. *)
Fixpoint readRaw_said (fuel : nat) (ai : string) : OM string :=
  match fuel with
  | 0 => fun _ => Fuel
  | S fuel' => raw_described_said (readRaw_said fuel') ai
  end.

(** ** The Avro dump *)

(** FieldDescriptor.cxx:235-258; inferType (156-230) writes nothing. *)
Definition avro_field_said (ai_ : string) : OM string :=
  attest_is_list_said ;; silently (avro_field ai_).

(** ObjectDescriptor.cxx:70-89 *)
Definition avro_object_said (ai_ : string) : OM string :=
  DBG (file "ObjectDescriptor.cxx") 77 "readAvro::Object" ;;
  attest_is_list_said ;; silently (avro_object ai_).

Section Avro.
Context (rec : string -> OM string).

(** EnvelopeDescriptor.cxx:69-89 *)
Definition avro_envelope_said (ai_ : string) : OM string :=
  DBG (file "EnvelopeDescriptor.cxx") 76 "readAvro::Envelope" ;;
  attest_is_list_said ;;
  auto_enter_said true (auto_next_said (by_type_said rec ai_)).

(** SchemaDescriptor.cxx:101-146 *)
Definition avro_schema_said (ai_ : string) : OM string :=
  DBG (file "SchemaDescriptor.cxx") 108 "readAvro::Schema" ;;
  attest_is_list_said ;;
  auto_list_enter_said true (fun n =>
    (fun s => if Nat.eqb n 1 then Ok tt s else Abort) ;;
    auto_list_enter_said false (fun m =>
      let! (_, text) := while_next_said (fun '(j, acc) =>
        let! t := by_type_said rec ai_ in
        ret (S j, acc ++ t ++ (if String.eqb t "" then ""
                               else (if Nat.ltb j m then "," else "") ++ nl))) (1, "") in
      ret text)).

(** CompositeDescriptor.cxx:158-219 *)
Definition avro_composite_said (ai_ : string) : OM string :=
  let ai := deeper ai_ in
  let ai2 := deeper ai in
  DBG (file "CompositeDescriptor.cxx") 165 "readAvro::Composite" ;;
  attest_is_list_said ;;
  auto_enter_said false (
    silently (attest_is_string false) ;;
    let! name := readAndNext_string_said false in
    let! (short, ns) := silently (lift
      match find_last "." name with
      | Some found =>
          let? a := substr name (found + 1) (String.length name) in
          let? b := substr name 0 found in Ret (a, b)
      | None => Ret (name, name)
      end) in
    silently (attest_is_string true) ;;
    silently next_ ;;
    attest_is_list_said ;;
    silently next_ ;;
    silently attest_is_described ;;
    let! alias := auto_next_said (by_type_said rec ai) in
    let! (_, fields) := auto_list_enter_said false (fun n => while_next_said (fun '(i, acc) =>
        let! t := by_type_said rec ai2 in
        ret (S i, acc ++ t ++ (if Nat.ltb i n then "," ++ nl else nl))) (1, "")) in
    ret ("{" ++ nl ++
         ai ++ quote ++ "type" ++ quote ++ " : " ++ quote ++ "record" ++ quote ++ "," ++ nl ++
         ai ++ quote ++ "name" ++ quote ++ " : " ++ quote ++ short ++ quote ++ "," ++ nl ++
         ai ++ quote ++ "namespace" ++ quote ++ " : " ++ quote ++ ns ++ quote ++ "," ++ nl ++
         alias ++
         ai ++ quote ++ "fields" ++ quote ++ " : [" ++ nl ++
         fields ++
         ai ++ "]" ++ nl ++
         "}")).

Definition avro_of_said (k : descriptor_kind) : string -> OM string :=
  match k with
  | KEnvelope => avro_envelope_said
  | KSchema => avro_schema_said
  | KObject => avro_object_said
  | KField => avro_field_said
  | KComposite => avro_composite_said
  | KRestricted => fun ai_ => silently (avro_restricted ai_)
  | _ => rec
  end.

(** AMQPDescriptor.cxx:127-159 *)
Definition avro_described_said (ai_ : string) : OM string :=
  auto_enter_said false (
    DBG (file "AMQPDescriptor.cxx") 136 "readAvro::Descriptor" ;;
    fun s =>
    match pn_dtype (fst s) with
    | TULong =>
        (let! key := silently readAndNext_ulong in
         attest_is_list_said ;;
         match registered key with
         | None => ub
         | Some desc => avro_of_said (d_kind desc) ai_
         end) s
    | TSymbol => Ok (ai_ ++ "blob: bytes: " ++ num (symbol_size (fst s)) ++ nl) s
    | _ => Throw RuntimeError s
    end).
End Avro.

(** AMQPDescriptor.cxx:127-159; [fuel] bounds the nesting. *)
Fixpoint readAvro_said (fuel : nat) (ai : string) : OM string :=
  match fuel with
  | 0 => fun _ => Fuel
  | S fuel' => avro_described_said (readAvro_said fuel') ai
  end.

(** ** dumpSchema, AMQPBlob.cxx:52-65 with AMQPDescriptor.cxx:42-64 *)
Definition dumpSchema_said (fuel : nat) (target : dump_target) : OM string :=
  fun s =>
    if is_described (fst s) then
      match target with
      | ToRaw => readRaw_said (S fuel) "" s
      | ToAmqp => Ok "" s
      | ToAvro => readAvro_said (S fuel) "" s
      end
    else Throw RuntimeError s.

(** bin/schema-dumper/main.cxx:18-60.  Opening the file writes nothing (SRC_DEBUG,
    CordaBytes.cxx:39-43, is not defined). *)
Definition schema_dumper_said (decode : string -> option tree) (fuel : nat) (fs : string -> CordaFile.file) (argv : list string) : result :=
  match argv with
  | [_; name; mode] =>
      match fs name with
      | NoFile => Exit EXIT_FAILURE "" false
      | f =>
          let run target := with_blob decode caught f default_config (fun d => finish_said (dumpSchema_said fuel target (d, ""))) in
          if String.eqb mode "avro" then run ToAvro
          else if String.eqb mode "raw" then run ToRaw
          else Exit EXIT_FAILURE "" true
      end
  | _ => Exit EXIT_FAILURE "" true
  end.
End Said.
