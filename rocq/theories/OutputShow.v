(** What showing the payload of a blob writes to standard output on the way: the readers
    of Readers.v, and the end of dumpContents (Blob.v), once more with the debug lines of
    the library.  Not modelled: what parsing the schema and making the readers write
    before that. *)
From Verif Require Import Base Proton TypeNames Schema Descriptors Factory Readers Blob OutputWriter Output OutputReader.
Import List ListNotations.
Open Scope string_scope.

(** proton::auto_next, proton_wrapper.cxx:423-437, writes nothing. *)
Definition auto_next_said {A} (m : OM A) : OM A := finally m (moving pn_next).
Definition text_dumped (name : option string) (v : string) : OM ivalue := ret (IText name v).

Section Said.
(** The platform: where the source files are, and which line a macro call over several
    lines is at (OutputWriter.v); how doubles are written; what serialisers installed by
    the user do and write; and the order of evaluation at MapReader.cxx:58-61. *)
Context (env : platform) (fmt_double : N -> string) (custom : nat -> option string -> OM ivalue) (key_first : bool).
Context (f : factory) (s : schema).

(** The dump functions in property-readers: IntPropertyReader.cxx:30-67 (AMQP_DEBUG is 1,
    debug.h:5) and StringPropertyReader.cxx:29-53 have debug lines, the others none. *)
Definition dump_property_said (p : prim) (name : option string) : OM ivalue :=
  match p, name with
  | PInt, Some n =>
      trace env "IntPropertyReader.cxx" 37 ("IntPropertyReader::dump - " ++ n) ;;
      trace env "IntPropertyReader.cxx" 39 "FUCK 1" ;;
      let! z := silently readAndNext_int in
      trace env "IntPropertyReader.cxx" 43 ("    -> " ++ dec z) ;;
      text_dumped name (dec z)
  | PInt, None =>
      trace env "IntPropertyReader.cxx" 63 "IntPropertyReader::dump - no-name" ;;
      let! z := silently readAndNext_int in
      text_dumped name (dec z)
  | PString, _ =>
      match name with
      | Some n => trace env "StringPropertyReader.cxx" 36 ("StringPropertyReader::dump - " ++ n)
      | None => trace env "StringPropertyReader.cxx" 50 "StringPropertyReader::dump - no-name"
      end ;;
      let! v := readAndNext_string_said false in
      text_dumped name (quoted v)
  | _, _ => silently (dump_property fmt_double p name)
  end.

(** EnumReader.cxx:12-48 *)
Definition enum_value_said : OM string :=
  silently attest_is_described ;;
  auto_enter_said false (
    silently (fun d => if is_type TULong d && N.eqb (stripCorda (pn_get_ulong d)) REFERENCED_OBJECT
                       then Throw RuntimeError d else Ok tt d) ;;
    let! _ := readAndNext_string_said false in
    auto_list_enter_said true (fun _ => readAndNext_string_said false)).
(** EnumReader.cxx:53-80 *)
Definition dump_enum_said (name : option string) : OM ivalue :=
  auto_next_said (
    silently attest_is_described ;;
    let! v := enum_value_said in
    text_dumped name v).

Section Nested.
Context (rec : reader -> option string -> OM ivalue).

(** The loop at CompositeReader.cxx:71-82. *)
Fixpoint dump_fields_said (fields : list field) (ks : list nat) : OM (list ivalue) :=
  match fields, ks with
  | fd :: fields', k :: ks' =>
      match lock f k with
      | Some r =>
          trace env "CompositeReader.cxx" (span env 73 74) (f_name fd ++ " true") ;;
          let! v := rec r (Some (f_name fd)) in
          let! vs := dump_fields_said fields' ks' in
          ret (v :: vs)
      | None => throw RuntimeError
      end
  | _, _ => ret []
  end.
(** CompositeReader.cxx:40-86 *)
Definition composite_dump_said_ (ks : list nat) : OM (list ivalue) :=
  trace env "CompositeReader.cxx" 46 "Read Composite: " ;;
  silently attest_is_described ;;
  auto_enter_said false (
    let! sym := silently get_symbol in
    let! t := silently (lift (fromDescriptor s sym)) in
    match t with
    | TRestricted _ => throw BadCast
    | TComposite c =>
        if Nat.eqb (List.length (c_fields c)) (List.length ks) then
          silently next_ ;;
          list_attested env ;;
          auto_enter_said false (dump_fields_said (c_fields c) ks)
        else abort
    end).
(** CompositeReader.cxx:90-127 *)
Definition dump_composite_said (ks : list nat) (name : option string) : OM ivalue :=
  auto_next_said (fun st =>
    if is_null (fst st) then Ok (INull name) st
    else (let! vs := composite_dump_said_ ks in ret (IBraces name vs)) st).

(** ListReader.cxx:75-78 and ArrayReader.cxx:75-77 *)
Fixpoint dump_elements_said (n : nat) (r : option reader) : OM (list ivalue) :=
  match n with
  | 0 => ret []
  | S n' =>
      match r with
      | None => ub
      | Some r' =>
          let! v := rec r' None in
          let! vs := dump_elements_said n' r in
          ret (v :: vs)
      end
  end.
(** ListReader.cxx:52-83 and ArrayReader.cxx:52-82 *)
Definition list_dump_said_ (k : nat) : OM (list ivalue) :=
  silently attest_is_described ;;
  auto_enter_said false (
    let! fp := readAndNext_string_said false in
    let! _ := silently (lift (fromDescriptor s fp)) in
    auto_list_enter_said true (fun n => dump_elements_said n (lock f k))).
(** ListReader.cxx:22-48 and ArrayReader.cxx:22-48 *)
Definition dump_list_said (k : nat) (name : option string) : OM ivalue :=
  auto_next_said (let! vs := list_dump_said_ k in ret (IBrackets name vs)).

(** MapReader.cxx:59-60 *)
Definition dump_through_said (r : option reader) : OM ivalue :=
  match r with Some r' => rec r' None | None => ub end.
(** One round of the loop at MapReader.cxx:56-63. *)
Definition dump_entry_said (k v : option reader) : OM ivalue :=
  if key_first then
    let! a := dump_through_said k in let! b := dump_through_said v in ret (IEntry a b)
  else
    let! b := dump_through_said v in let! a := dump_through_said k in ret (IEntry a b).
(** The loop, MapReader.cxx:56. *)
Fixpoint dump_entries_said (n : nat) (k v : option reader) : OM (list ivalue) :=
  match n with
  | 0 => ret []
  | S n' =>
      let! e := dump_entry_said k v in
      let! es := dump_entries_said (pred n') k v in
      ret (e :: es)
  end.
(** MapReader.cxx:22-67 *)
Definition map_dump_said_ (k v : nat) : OM (list ivalue) :=
  silently attest_is_described ;;
  auto_enter_said false (
    let! fp := readAndNext_string_said false in
    let! _ := silently (lift (fromDescriptor s fp)) in
    auto_map_enter_said true (fun n =>
      trace env "MapReader.cxx" 44 ("  " ++ dec (Z.of_nat n)) ;;
      dump_entries_said n (lock f k) (lock f v))).
(** MapReader.cxx:71-100 *)
Definition dump_map_said (k v : nat) (name : option string) : OM ivalue :=
  match name with
  | Some n => trace env "MapReader.cxx" 78 ("MapReader::dump " ++ n)
  | None => trace env "MapReader.cxx" 94 "MapReader::dump no-name"
  end ;;
  auto_next_said (let! vs := map_dump_said_ k v in ret (IBraces name vs)).
End Nested.

(** PublicKeySerialiser.cxx:57-93: without a name nothing is written. *)
Definition dump_public_key_said (name : option string) : OM ivalue :=
  match name with
  | Some _ => trace env "PublicKeySerialiser.cxx" 64 "dump"
  | None => ret tt
  end ;;
  silently (dump_public_key name).

(** The virtual function ISerialiser::dump, ISerialiser.h:41-48; [fuel] as in Readers.v. *)
Fixpoint dump_said (fuel : nat) (r : reader) (name : option string) : OM ivalue :=
  match fuel with
  | 0 => fun _ => Fuel
  | S fuel' =>
      match r with
      | RProperty p => dump_property_said p name
      | RComposite _ ks => dump_composite_said (dump_said fuel') ks name
      | REnum _ _ => dump_enum_said name
      | RList _ k | RArray _ k => dump_list_said (dump_said fuel') k name
      | RMap _ k v => dump_map_said (dump_said fuel') k v name
      | RPublicKey => dump_public_key_said name
      | RCustom _ which => custom which name
      end
  end.

(** AMQPBlob.cxx:293-313 *)
Definition dump_payload_said (fuel : nat) (r : reader) : OM string :=
  auto_enter_said true (
    list_attested env ;;
    (fun st => if Nat.eqb (pn_get_list (fst st)) 3 then Ok tt st else Abort) ;;
    auto_enter_said false (
      let! v := dump_said fuel r (Some "{ Parsed") in
      ret (show v ++ " }"))).
End Said.

(** A blob's m_data, the factory, and what has been written to std::cout: AMQPBlob.cxx:273-275. *)
Definition CM (A : Type) : Type := data * factory * string -> outcome (data * factory * string) A.
Section Contents.
Context (env : platform) (fmt_double : N -> string) (custom : nat -> option string -> OM ivalue) (map_order entry_order : bool).
(** What AMQPBlob.cxx:276-288, reading the envelope and making the readers, writes; this is
    not modelled and may be anything. *)
Context (preface : data -> factory -> string).

(** AMQPBlob.cxx:273-314 *)
Definition dumpContents_said (fuel : nat) : CM string := fun '(d, cf, out) =>
  let out := out ++ preface d cf in
  match (let! e := on_data (read_envelope fuel) in on_factory (process map_order (e_schema e)) ;; ret e) (d, cf) with
  | Ok e (d', cf') =>
      match byDescriptor cf' (e_descriptor e) with
      | None => Abort                                            (* line 291 *)
      | Some i =>
          match reader_at i cf' with
          | None => UB
          | Some r =>
              match dump_payload_said env fmt_double custom entry_order cf' (e_schema e) fuel r (d', out) with
              | Ok x (d'', out') => Ok x (d'', cf', out')
              | Throw e (d'', out') => Throw e (d'', cf', out')
              | Abort => Abort | UB => UB | Fuel => Fuel
              end
          end
      end
  | Throw e (d', cf') => Throw e (d', cf', out)
  | Abort => Abort | UB => UB | Fuel => Fuel
  end.
End Contents.
