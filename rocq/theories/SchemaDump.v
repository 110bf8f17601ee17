(** Printing the schema section of a blob: AMQPBlob::dumpSchema and the readRaw
    and readAvro functions of libs/amqp/src/schema/descriptors.

    The functions append to a std::stringstream that dumpSchema creates; here
    each returns the text it appends.  (When one throws, the stream is lost.)
    Debug output (to standard output) is in OutputSchema.v. *)
From Verif Require Import Base Proton TypeNames Schema Descriptors Readers.
Open Scope string_scope.

(** std::endl, e.g. EnvelopeDescriptor.cxx:56 *)
Definition nl : string := String "010" "".
Definition quote : string := String "034" "".

(** AutoIndent, AMQPDescriptor.h:29-44: the copy constructor adds two blanks. *)
Definition deeper (ai : string) : string := ai ++ "  ".

(** An unsigned number written to a stream, e.g. AMQPDescriptor.cxx:93. *)
Definition num (n : nat) : string := dec (Z.of_nat n).

(** The numbers of pn_type_t (proton's types.h), which are the keys used at
    AMQPDescriptorRegistory.cxx:26 and EnvelopeDescriptor.cxx:57. *)
Definition type_number (t : pn_type) : Z :=
  match t with
  | TNull => 1 | TBool => 2 | TUByte => 3 | TByte => 4 | TUShort => 5 | TShort => 6 | TUInt => 7
  | TInt => 8 | TChar => 9 | TULong => 10 | TLong => 11 | TTimestamp => 12 | TFloat => 13
  | TDouble => 14 | TDecimal32 => 15 | TDecimal64 => 16 | TDecimal128 => 17 | TUuid => 18
  | TBinary => 19 | TString => 20 | TSymbol => 21 | TDescribed => 22 | TArray => 23
  | TList => 24 | TMap => 25 | TInvalid => -1
  end%Z.

(** [std::setw (2) << n] *)
Definition setw2 (n : Z) : string :=
  let s := dec n in if Nat.ltb (String.length s) 2 then " " ++ s else s.

Section SchemaDump.
(** pn_type_name is proton's. *)
Context (type_name : pn_type -> string).

(** [operator << (std::ostream &, pn_data_t * )], proton_wrapper.cxx:63-112 *)
Definition show_node (d : data) : string :=
  let t := pn_dtype d in
  setw2 (type_number t) ++ " " ++ type_name t ++
  match t with
  | TULong => " " ++ dec (Z.of_N (pn_get_ulong d))
  | TList => " #entries: " ++ num (pn_get_list d)
  | TString => " " ++ match pn_get_string d with Some s => s | None => "" end
  | TInt => " " ++ dec (pn_get_int d)
  | TBool => " " ++ (if pn_get_bool d then "true" else "false")
  | TSymbol =>
      let v := match pn_get_symbol d with Some s => s | None => "" end in
      " " ++ num (String.length v) ++ nl ++ "   -> " ++
      concat_all (map (fun c => String c " ") (chars v))
  | _ => ""
  end.

(** pn_data_get_symbol (data_).size, AMQPDescriptor.cxx:101 and 150. *)
Definition symbol_size (d : data) : nat :=
  match pn_get_symbol d with Some s => String.length s | None => 0 end.

(** [AMQPDescriptorRegistory[pn_data_type (data_)]->read.. (data_, ss_, ai)]:
    the registry has an entry for PN_DESCRIBED only (AMQPDescriptorRegistory.cxx:
    23-95); for the other types it yields a null pointer. *)
Definition by_type (rec : string -> PM string) (ai : string) : PM string :=
  fun d => match pn_dtype d with TDescribed => rec ai d | _ => UB end.

(** ** The raw dump *)

Section Raw.
(** AMQPDescriptor::readRaw for what is nested. *)
Context (rec : string -> PM string).

(** EnvelopeDescriptor.cxx:42-65 *)
Definition raw_envelope (ai_ : string) : PM string :=
  let ai := deeper ai_ in
  attest_is_list ;;
  auto_enter false (
    let! a := auto_next (by_type rec (deeper ai)) in
    let! b := auto_next (by_type rec (deeper ai)) in
    ret (ai ++ "1]" ++ nl ++ a ++ ai ++ "2]" ++ nl ++ b)).

(** SchemaDescriptor.cxx:65-97 *)
Definition raw_schema (ai_ : string) : PM string :=
  let ai := deeper ai_ in
  let ai2 := deeper ai in
  attest_is_list ;;
  auto_list_enter false (fun n =>
    let! (_, text) := while_next (fun '(i, acc) =>
      attest_is_list ;;
      let! group := auto_list_enter false (fun m =>
        let! (_, text) := while_next (fun '(j, acc) =>
          let! t := by_type rec (deeper ai2) in
          ret (S j, acc ++ ai2 ++ num i ++ ":" ++ num j ++ "/" ++ num m ++ "] " ++ nl ++ t)) (1, "") in
        ret (" list: entries: " ++ num m ++ nl ++ text)) in
      ret (S i, acc ++ ai ++ num i ++ "/" ++ num n ++ "]" ++ group)) (1, "") in
    ret text).

(** CompositeDescriptor.cxx:95-154 *)
Definition raw_composite (ai_ : string) : PM string :=
  let ai := deeper ai_ in
  let ai2 := deeper ai in
  attest_is_list ;;
  auto_enter false (
    attest_is_string false ;;
    let! name := readAndNext_string false in
    attest_is_string false ;;
    let! label := readAndNext_string true in
    attest_is_list ;;
    let! provides := auto_list_enter false (fun _ => while_next (fun acc =>
        let! s := get_string false in ret (acc ++ ai ++ s ++ " ")) "") in
    next_ ;;
    attest_is_described ;;
    let! descriptor := auto_next (by_type rec (deeper ai)) in
    let! (_, fields) := auto_list_enter false (fun n => while_next (fun '(i, acc) =>
        let! t := by_type rec (deeper ai2) in
        ret (S i, acc ++ ai2 ++ num i ++ "/" ++ num n ++ "]" ++ nl ++ t)) (1, "")) in
    ret (ai ++ "1] String: ClassName: " ++ name ++ nl ++
         ai ++ "2] String: Label: " ++ quote ++ label ++ quote ++ nl ++
         ai ++ "3] List: Provides: [ " ++ provides ++ "]" ++ nl ++
         ai ++ "4] Descriptor:" ++ nl ++ descriptor ++
         ai ++ "5] List: Fields: " ++ nl ++ fields)).

(** FieldDescriptor.cxx:89-137 *)
Definition raw_field (ai_ : string) : PM string :=
  let ai := deeper ai_ in
  attest_is_list ;;
  auto_list_enter true (fun _ =>
    let! name := auto_next (get_string false) in
    let! type := auto_next (get_string false) in
    let! requires := auto_list_enter false (fun n =>
        let! text := while_next (fun acc =>
          let! s := get_string false in ret (acc ++ deeper ai ++ s ++ nl)) "" in
        ret (ai ++ "3/7] List: Requires: elements " ++ num n ++ nl ++ text)) in
    next_ ;;
    attest_is_string true ;;
    let! def := auto_next (get_string true) in
    let! label := auto_next (get_string true) in
    let! mandatory := auto_next get_boolean in
    let! multiple := auto_next get_boolean in
    ret (ai ++ "1/7] String: Name: " ++ name ++ nl ++
         ai ++ "2/7] String: Type: " ++ type ++ nl ++
         requires ++
         ai ++ "4/7] String: Default: " ++ def ++ nl ++
         ai ++ "5/7] String: Label: " ++ label ++ nl ++
         ai ++ "6/7] Boolean: Mandatory: " ++ bit mandatory ++ nl ++
         ai ++ "7/7] Boolean: Multiple: " ++ bit multiple ++ nl)).

(** ObjectDescriptor.cxx:45-66 *)
Definition raw_object (ai_ : string) : PM string :=
  let ai := deeper ai_ in
  attest_is_list ;;
  auto_list_enter false (fun _ =>
    next_ ;;
    let! s := auto_next get_symbol in
    fun d => Ok (ai ++ "1/2] " ++ s ++ nl ++ ai ++ "2/2] " ++ show_node d ++ nl) d).

(** RestrictedDescriptor.cxx:160-196 *)
Definition raw_restricted (ai_ : string) : PM string :=
  let ai := deeper ai_ in
  attest_is_list ;;
  auto_enter false (
    let! name := readAndNext_string false in
    let! label := readAndNext_string true in
    let! provides := auto_list_enter false (fun _ => while_next (fun acc =>
        let! s := get_string false in ret (acc ++ s ++ " ")) "") in
    next_ ;;
    let! source := readAndNext_string false in
    let! descriptor := auto_next (by_type rec (deeper ai)) in
    ret (ai ++ "1] String: Name: " ++ name ++ nl ++
         ai ++ "2] String: Label: " ++ label ++ nl ++
         ai ++ "3] List: Provides: [ " ++ provides ++ "]" ++ nl ++
         ai ++ "4] String: Source: " ++ source ++ nl ++
         ai ++ "5] Descriptor:" ++ nl ++ descriptor)).

(** The virtual call [AMQPDescriptorRegistory[key]->readRaw (..)],
    AMQPDescriptor.cxx:96.  The other
    descriptors do not override the function of the base class. *)
Definition raw_of (k : descriptor_kind) : string -> PM string :=
  match k with
  | KEnvelope => raw_envelope
  | KSchema => raw_schema
  | KObject => raw_object
  | KField => raw_field
  | KComposite => raw_composite
  | KRestricted => raw_restricted
  | _ => rec
  end.

(** AMQPDescriptor.cxx:68-111 *)
Definition raw_described (ai_ : string) : PM string :=
  let ai := deeper ai_ in
  let! text := auto_enter false (fun d =>
    match pn_dtype d with
    | TULong =>
        (let! key := readAndNext_ulong in
         attest_is_list ;;
         fun d =>
           match registered key with
           | None => UB
           | Some desc =>
               (let! t := raw_of (d_kind desc) ai in
                ret (ai ++ "key  : " ++ dec (Z.of_N key) ++ " :: " ++ dec (Z.of_N (stripCorda key)) ++
                     " -> " ++ describedToString key ++ nl ++
                     ai ++ "list : entries: " ++ num (pn_get_list d) ++ nl ++ t)) d
           end) d
    | TSymbol => Ok (ai ++ "blob: bytes: " ++ num (symbol_size d) ++ nl) d
    | _ => Throw RuntimeError d
    end) in
  ret (ai_ ++ "DESCRIBED: " ++ nl ++ text).
End Raw.

(** AMQPDescriptor::readRaw, AMQPDescriptor.cxx:68-111; [fuel] bounds the
    nesting, the height of the tree suffices (proved). *)
Fixpoint readRaw (fuel : nat) (ai : string) : PM string :=
  match fuel with
  | 0 => fun _ => Fuel
  | S fuel' => raw_described (readRaw fuel') ai
  end.

(** ** The Avro dump *)

(** [find_last_of (c)], CompositeDescriptor.cxx:180 and FieldDescriptor.cxx:171;
    [None] is [npos]. *)
Fixpoint find_last (c : ascii) (s : string) : option nat :=
  match s with
  | EmptyString => None
  | String d s' => match find_last c s' with
                   | Some n => Some (S n)
                   | None => if Ascii.eqb c d then Some 0 else None
                   end
  end.

(** FieldDescriptor.cxx:156-213.  Recursive calls are on shorter names; [fuel]
    bounds the recursion. *)
Fixpoint infer (fuel : nat) (type_ requires_ ai : string) : res string :=
  match fuel with
  | 0 => NoFuel
  | S fuel' =>
      let type_ := if String.eqb type_ "*" then requires_ else type_ in
      let array := ai ++ quote ++ "type" ++ quote ++ " : " ++ quote ++ "array" ++ quote ++ "," ++ nl in
      let items := ai ++ quote ++ "items" ++ quote ++ " : " in
      let? arr := isArray type_ in
      if arr then
        let? type := match find_last "[" type_ with
                     | Some pos => substr type_ 0 pos
                     | None => Ret type_
                     end in
        let? c := isContainer type in
        if c then
          let? inner := infer fuel' type requires_ (deeper ai) in
          Ret (array ++ items ++ "{ " ++ nl ++ inner ++ ai ++ "}" ++ nl)
        else Ret (array ++ items ++ type ++ nl)
      else if isList type_ then
        let? (_, type) := listType type_ in
        let? c := isContainer type in
        if c then
          let? inner := infer fuel' type requires_ (deeper ai) in
          Ret (array ++ items ++ "{" ++ inner ++ ai ++ "}")
        else Ret (array ++ items ++ type ++ nl)
      else if isMap type_ then
        let map_ := ai ++ quote ++ "type" ++ quote ++ " : " ++ quote ++ "map," ++ nl in
        let? (_, _, type) := mapType type_ in
        let? c := isContainer type in
        if c then
          let? inner := infer fuel' type requires_ (deeper ai) in
          Ret (map_ ++ ai ++ quote ++ "values" ++ quote ++ " : {" ++ inner ++ ai ++ "}")
        else Ret (map_ ++ ai ++ quote ++ "values: " ++ type ++ nl)
      else Ret (ai ++ quote ++ "type" ++ quote ++ " : " ++ quote ++ type_ ++ quote ++ nl)
  end.
Definition inferType (type_ requires_ ai : string) : res string :=
  infer (S (String.length type_ + String.length requires_)) type_ requires_ ai.

(** FieldDescriptor.cxx:215-230 *)
Definition avro_type (ai : string) : PM string :=
  let! type := auto_next (get_string false) in
  auto_list_enter true (fun n =>
    if Nat.ltb 0 n then
      let! requires := get_string false in
      lift (inferType type requires ai)
    else lift (inferType type "" ai)).

(** FieldDescriptor.cxx:235-258 *)
Definition avro_field (ai_ : string) : PM string :=
  let ai := deeper ai_ in
  attest_is_list ;;
  auto_list_enter true (fun _ =>
    let! name := auto_next (get_string false) in
    let! type := avro_type ai in
    ret (ai_ ++ "{" ++ nl ++
         ai ++ quote ++ "name" ++ quote ++ " : " ++ quote ++ name ++ quote ++ ", " ++ nl ++
         type ++
         ai_ ++ "}")).

(** ObjectDescriptor.cxx:70-89 *)
Definition avro_object (ai_ : string) : PM string :=
  attest_is_list ;;
  auto_list_enter false (fun _ =>
    next_ ;;
    let! s := auto_next get_symbol in
    ret (ai_ ++ quote ++ "aliases" ++ quote ++ " : [ " ++ quote ++ s ++ quote ++ " ]," ++ nl)).

(** RestrictedDescriptor.cxx:200-211 *)
Definition avro_restricted (ai_ : string) : PM string := ret "".

Section Avro.
(** AMQPDescriptor::readAvro for what is nested. *)
Context (rec : string -> PM string).

(** EnvelopeDescriptor.cxx:69-89 *)
Definition avro_envelope (ai_ : string) : PM string :=
  attest_is_list ;;
  auto_enter true (auto_next (by_type rec ai_)).

(** SchemaDescriptor.cxx:101-146; the stream has grown (line 137) exactly when
    the text added is not empty. *)
Definition avro_schema (ai_ : string) : PM string :=
  attest_is_list ;;
  auto_list_enter true (fun n =>
    (fun d => if Nat.eqb n 1 then Ok tt d else Abort) ;;
    auto_list_enter false (fun m =>
      let! (_, text) := while_next (fun '(j, acc) =>
        let! t := by_type rec ai_ in
        ret (S j, acc ++ t ++ (if String.eqb t "" then ""
                               else (if Nat.ltb j m then "," else "") ++ nl))) (1, "") in
      ret text)).

(** CompositeDescriptor.cxx:158-219 *)
Definition avro_composite (ai_ : string) : PM string :=
  let ai := deeper ai_ in
  let ai2 := deeper ai in
  attest_is_list ;;
  auto_enter false (
    attest_is_string false ;;
    let! name := readAndNext_string false in
    let! (short, ns) := lift
      match find_last "." name with
      | Some found =>
          let? a := substr name (found + 1) (String.length name) in
          let? b := substr name 0 found in Ret (a, b)
      | None => Ret (name, name)
      end in
    attest_is_string true ;;
    next_ ;;
    attest_is_list ;;
    next_ ;;
    attest_is_described ;;
    let! alias := auto_next (by_type rec ai) in
    let! (_, fields) := auto_list_enter false (fun n => while_next (fun '(i, acc) =>
        let! t := by_type rec ai2 in
        ret (S i, acc ++ t ++ (if Nat.ltb i n then "," ++ nl else nl))) (1, "")) in
    ret ("{" ++ nl ++
         ai ++ quote ++ "type" ++ quote ++ " : " ++ quote ++ "record" ++ quote ++ "," ++ nl ++
         ai ++ quote ++ "name" ++ quote ++ " : " ++ quote ++ short ++ quote ++ "," ++ nl ++
         ai ++ quote ++ "namespace" ++ quote ++ " : " ++ quote ++ ns ++ quote ++ "," ++ nl ++
         alias ++
         ai ++ quote ++ "fields" ++ quote ++ " : [" ++ nl ++
         fields ++
         ai ++ "]" ++ nl ++
         "}")).

(** The virtual call [AMQPDescriptorRegistory[key]->readAvro (..)],
    AMQPDescriptor.cxx:145. *)
Definition avro_of (k : descriptor_kind) : string -> PM string :=
  match k with
  | KEnvelope => avro_envelope
  | KSchema => avro_schema
  | KObject => avro_object
  | KField => avro_field
  | KComposite => avro_composite
  | KRestricted => avro_restricted
  | _ => rec
  end.

(** AMQPDescriptor.cxx:127-159 *)
Definition avro_described (ai_ : string) : PM string :=
  auto_enter false (fun d =>
    match pn_dtype d with
    | TULong =>
        (let! key := readAndNext_ulong in
         attest_is_list ;;
         match registered key with
         | None => ub
         | Some desc => avro_of (d_kind desc) ai_
         end) d
    | TSymbol => Ok (ai_ ++ "blob: bytes: " ++ num (symbol_size d) ++ nl) d
    | _ => Throw RuntimeError d
    end).
End Avro.

(** AMQPDescriptor::readAvro, AMQPDescriptor.cxx:127-159. *)
Fixpoint readAvro (fuel : nat) (ai : string) : PM string :=
  match fuel with
  | 0 => fun _ => Fuel
  | S fuel' => avro_described (readAvro fuel') ai
  end.

(** ** dumpSchema *)

(** schema/SchemaDumpTargets.h:7-11 *)
Inductive dump_target : Type := ToRaw | ToAmqp | ToAvro.

(** AMQPBlob.cxx:52-65 with AMQPDescriptor.cxx:42-64; readAMQP (115-123) does
    nothing.  [fuel] bounds the nesting. *)
Definition dumpSchema (fuel : nat) (target : dump_target) : PM string :=
  fun d =>
    if is_described d then
      match target with
      | ToRaw => readRaw (S fuel) "" d
      | ToAmqp => Ok "" d
      | ToAvro => readAvro (S fuel) "" d
      end
    else Throw RuntimeError d.
End SchemaDump.
