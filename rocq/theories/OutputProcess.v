(** What is written to standard output while the readers for a schema are made:
    CompositeFactoryInternal.cxx.  The functions are those of Factory.v, with the lines they
    write. *)
From Verif Require Import Base TypeNames Schema Factory OutputWriter.
Import List ListNotations.
Open Scope string_scope.

(** name() of a serialiser: CompositeSerialiser.h:55-58, RestrictedSerialiser.h:35-38,
    property-serialisers/IntPropertySerialiserBase.cxx:5-9 and the like, PublicKeySerialiser.cxx:13-16.
    What other installed serialisers call themselves is a parameter. *)
Definition property_reader_name (p : prim) : string :=
  match p with
  | PInt => "Integer Serialiser" | PLong => "Long Serialiser" | PDouble => "Double Serialiser" | PBoolean => "Boolean Serialiser"
  | PString => "String Serialiser" | PFloat => "Float Serialiser" | PBinary => "Binary Serialiser"
  end.

Section Said.
Context (env : platform) (called : nat -> string).
Definition reader_name (r : reader) : string :=
  match r with
  | RProperty p => property_reader_name p
  | RComposite _ _ => "Composite Serialiser"
  | REnum _ _ | RList _ _ | RArray _ _ | RMap _ _ _ => "Restricted Serialiser"
  | RPublicKey => "Public Key serialiser"
  | RCustom _ which => called which
  end.

Definition LM (A : Type) := factory * string -> outcome (factory * string) A.
Definition unheard {A} (m : FM A) : LM A := fun '(f, out) =>
  match m f with
  | Ok a f' => Ok a (f', out)
  | Throw e f' => Throw e (f', out)
  | Abort => Abort | UB => UB | Fuel => Fuel
  end.
(** debug.h:18, in CompositeFactoryInternal.cxx *)
Definition log_in (source : string) (number : Z) (text : string) : LM unit := fun '(f, out) => Ok tt (f, out ++ DBG env source number text).
Definition log := log_in "CompositeFactoryInternal.cxx".

(** CompositeFactoryInternal.cxx:40-68 *)
Definition computeIfAbsent_said (k : string) (make_ : LM nat) : LM nat := fun s =>
  match assoc k (types (fst s)) with
  | None =>
      (log 50 ("ComputeIfAbsent """ ++ k ++ """ - missing") ;;
       let! i := make_ in
       unheard (fun f => Ok tt (set_types (put k (Some i) (types f)) f)) ;;
       fun s =>
         match nth_error (heap (fst s)) i with
         | Some r =>
             (log (span env 52 53) ("                """ ++ k ++ """ - RTN: " ++ reader_name r ++ " : " ++ reader_type r) ;;
              log 56 (k ++ " =?= " ++ reader_type r) ;;
              if String.eqb k (reader_type r) then ret i else abort) s
         | None => UB
         end) s
  | Some (Some i) =>
      (log 61 ("ComputeIfAbsent """ ++ k ++ """ - found it") ;;
       log 62 ("                """ ++ k ++ """ - RTN: " ++ match nth_error (heap (fst s)) i with Some r => reader_name r | None => "" end) ;;
       ret i) s
  | Some None => UB
  end.

(** The first character, or a zero: CompositeFactoryInternal.cxx:147. *)
Definition first_character (s : string) : string := match s with String c _ => String c "" | EmptyString => String "000" "" end.
(** fieldType(): PrimitiveField.cxx:5-8, CompositeField.cxx:9-12, RestrictedField.cxx:7-10,
    CustomField.cxx:5-8, ArrayField.cxx:8-12 *)
Definition field_type (k : field_kind) : string :=
  match k with
  | PrimitiveField => "primitive" | CompositeField => "composite" | RestrictedField => "restricted" | CustomField => "custom" | ArrayField => "array"
  end.

(** CompositeFactoryInternal.cxx:145-194 *)
Fixpoint property_readers_said (self : nat) (name : string) (fields : list field) : LM (list nat) :=
  match fields with
  | [] => ret []
  | fd :: fields' =>
      let! t := lift (resolvedType fd) in
      log (span env 146 148) ("  Field: " ++ f_name fd ++ ": """ ++ f_type fd ++ """ {" ++ first_character t ++ "} " ++ field_type (f_kind fd)) ;;
      let! p :=
        match f_kind fd with
        | PrimitiveField =>
            log 154 ("    Field " ++ f_name fd ++ "[" ++ f_type fd ++ "] is primitive") ;;
            let! i := computeIfAbsent_said t (unheard (make_property (f_type fd))) in ret (Some i)
        | CustomField => unheard (types_at t)
        | _ => if String.eqb t name then log 172 "IT ME!!!!" ;; ret (Some self) else unheard (types_at t)
        end in
      match p with
      | None => throw RuntimeError
      | Some i => let! is := property_readers_said self name fields' in ret (i :: is)
      end
  end.

(** CompositeFactoryInternal.cxx:127-198 *)
Definition processComposite_said (c : composite) : LM nat :=
  log 132 ("processComposite - " ++ c_name c) ;;
  let! self := unheard (make (RComposite (c_name c) [])) in
  let! readers := property_readers_said self (c_name c) (c_fields c) in
  unheard (install_kids self readers) ;;
  ret self.

(** CompositeFactoryInternal.cxx:218-247, with the line of typeIsPrimitive, Field.cxx:141 *)
Definition fetchReaderForRestricted_said (type : string) : LM nat :=
  log 223 ("fetchReaderForRestricted - " ++ type) ;;
  log_in "Field.cxx" 141 ("typeIsPrimitive - " ++ type) ;;
  if typeIsPrimitive type then
    log 226 "It's primitive" ;;
    computeIfAbsent_said type (unheard (make_property type))
  else let! p := unheard (types_at type) in
       match p with
       | Some i => ret i
       | None => throw RuntimeError
       end.

(** CompositeFactoryInternal.cxx:251-268 *)
Definition processMap_said (key_first : bool) (r : restricted) : LM nat :=
  log (span env 256 258) ("Processing Map - " ++ of0 r ++ " " ++ of1 r) ;;
  let! (k, v) :=
    if key_first then
      let! k := fetchReaderForRestricted_said (of0 r) in
      let! v := fetchReaderForRestricted_said (of1 r) in ret (k, v)
    else
      let! v := fetchReaderForRestricted_said (of1 r) in
      let! k := fetchReaderForRestricted_said (of0 r) in ret (k, v) in
  unheard (make (RMap (r_name r) k v)).

(** CompositeFactoryInternal.cxx:304-335 with processList (272-284), processEnum (202-214)
    and processArray (288-300). *)
Definition processRestricted_said (key_first : bool) (r : restricted) : LM nat :=
  log 309 ("processRestricted - " ++ r_name r) ;;
  match r_kind r with
  | list_t =>
      log 277 ("Processing List - " ++ of0 r) ;;
      let! e := fetchReaderForRestricted_said (of0 r) in unheard (make (RList (r_name r) e))
  | enum_t =>
      log 207 ("Processing Enum - " ++ r_name r) ;;
      unheard (make (REnum (r_name r) (r_choices r)))
  | map_t => processMap_said key_first r
  | array_t =>
      log 327 "  array_t" ;;
      log 293 ("Processing Array - " ++ r_name r ++ " " ++ of0 r) ;;
      let! e := fetchReaderForRestricted_said (of0 r) in unheard (make (RArray (r_name r) e))
  end.

(** CompositeFactoryInternal.cxx:103-123 *)
Definition process_type_said (key_first : bool) (t : notation) : LM nat :=
  log 108 ("process::" ++ n_name t) ;;
  computeIfAbsent_said (n_name t)
    match t with
    | TComposite c => processComposite_said c
    | TRestricted r => processRestricted_said key_first r
    end.

(** The body of the loop at CompositeFactoryInternal.cxx:94-97, and the loops. *)
Definition process_entry_said (key_first : bool) (t : notation) : LM unit :=
  process_type_said key_first t ;;
  unheard (let! p := types_at (n_name t) in
           fun f => Ok tt (set_descriptors (put (n_descriptor t) p (descriptors f)) f)).
Fixpoint process_entries_said (key_first : bool) (ts : list notation) : LM unit :=
  match ts with
  | [] => ret tt
  | t :: ts' => process_entry_said key_first t ;; process_entries_said key_first ts'
  end.

(** CompositeFactoryInternal.cxx:88-99 *)
Definition process_said (key_first : bool) (s : schema) : LM unit :=
  log 91 "process schema" ;;
  process_entries_said key_first (List.concat (s_types s)).

(** CompositeFactoryInternal.cxx:359-366 *)
Definition installCustomSerialiser_said (r : reader) : LM unit :=
  log 364 ("installCustomSerialiser::" ++ reader_name r ++ "::" ++ reader_type r) ;;
  unheard (installCustomSerialiser r).

(** What [process_said] has written, unless it ends in undefined behaviour. *)
Definition process_written (key_first : bool) (s : schema) (f : factory) : string :=
  match process_said key_first s (f, "") with Ok _ (_, text) | Throw _ (_, text) => text | _ => "" end.
End Said.
