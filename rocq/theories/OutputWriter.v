(** What serialising writes to standard output on the way: the functions of
    Writer.v once more with the debug lines of the library, for values of C++
    types (Programs.v), whose names are among what is written.  As there, a
    pointer to a string counts as a string.  Simplified: the program's own code
    (serialiseImpl, copy constructors) writes nothing itself. *)
From Verif Require Readers.
From Verif Require Import Base Proton Descriptors TypeNames SpecTypes Writer SpecWriter Programs.
Import List ListNotations.
Open Scope string_scope.

(** The writer (ModifiableAMQPBlobImpl.h:103-112) and what has been written to
    std::cout (debug.h:18) so far. *)
Definition SM (A : Type) : Type := writer * string -> outcome (writer * string) A.
(** Code that writes nothing, e.g. PrimToSerializer.h:43-174. *)
Definition quietly {A} (m : WM A) : SM A :=
  fun '(w, out) => match m w with
                   | Ok a w' => Ok a (w', out)
                   | Throw e w' => Throw e (w', out)
                   | Abort => Abort | UB => UB | Fuel => Fuel
                   end.
(** [std::cout << text], as in debug.h:18; the stream does not fail. *)
Definition say (text : string) : SM unit := fun '(w, out) => Ok tt (w, out ++ text).
(** std::cout << n, as for __LINE__ in debug.h:18: numbers in decimal. *)
Notation dec := Readers.dec.
(** std::endl, debug.h:18. *)
Definition endl : string := String "010" "".

(** What the sources leave to the compiler and the standard library: [__FILE__]
    (debug.h:18) in each of the source files, by the name of the file; [__LINE__] in a
    macro call that starts in one line and ends in another; typeid (T).name() and
    typeid (std::allocator<T>).name() (SerialiserFactoryWriters.h:112); how std::cout shows
    a null pointer, doubles and floats, and any other pointer, given what has been written
    so far (ModifiableAMQPBlobImpl.h:207, 241); and whether the left operand of a + is
    evaluated first (types.h:104). *)
Record platform : Type := Platform {
  file : string -> string;
  span : Z -> Z -> Z;
  type_id : cpp -> string;
  allocator_id : cpp -> string;
  null : string;
  show_double : N -> string;
  show_float : N -> string;
  address : string -> string;
  left_first : bool
}.

Section Said.
(** The program, whose [declared] says what types the properties have, and the platform. *)
Context (P : program) (env : platform).

(** libs/corda-utils/include/debug.h:18, with std::endl at the end as at all sites. *)
Definition DBG (name : string) (line : Z) (text : string) : string :=
  "[" ++ file env name ++ "::" ++ dec line ++ "] " ++ text ++ endl.
(** The same, debug.h:18, with a value at the end of the text, shown by [shown]. *)
Definition DBG_value (name : string) (line : Z) (text : string) (shown : string -> string) : SM unit :=
  say ("[" ++ file env name ++ "::" ++ dec line ++ "] " ++ text) ;;
  (fun s => say (shown (snd s)) s) ;;
  say endl.

(** What javaTypeName writes: types.h:85-90, 101-106, 110-141 (lines 125 and 138),
    SerializableVector.h:153-158 and SerializableMap.h:102-107; nothing for a string
    (corda-utils/src/types.cxx:7-11). *)
Fixpoint type_said (t : ctype) : string :=
  match t with
  | TypeNames.CString => ""
  | CVector e => type_said e
  | CMap k v => if left_first env then type_said k ++ type_said v else type_said v ++ type_said k
  | CNamed s => DBG "types.h" 125 ("javaTypeName = " ++ s) ++ DBG "types.h" 138 ("javaTypeName RTN = " ++ javaName s)
  end.
(** What a call javaTypeName<T> () writes, types.h:85-141. *)
Definition java_said (t : cpp) : string := type_said (demangled (cxx_of t)).

(** [std::cout << value], in ModifiableAMQPBlobImpl.h:207 and 241; booleans are shown as numbers, a char as itself. *)
Definition prim_text (v : prim_value) : string :=
  match v with
  | OfInt z | OfLong z => dec z
  | OfDouble b => show_double env b
  | OfFloat b => show_float env b
  | OfBool b => if b then "1" else "0"
  | OfString s => s
  | OfChar z => String (Ascii.ascii_of_N (Z.to_N (z mod 256))) ""
  end.
(** [std::cout << pointer], in ModifiableAMQPBlobImpl.h:207 and 241; a pointer to a char is shown as a C string, and the only one
    for which that is defined is empty ([log_pointer] in Writer.v). *)
Definition pointer_text (t : prim_type) (v : option prim_value) (out : string) : string :=
  match t, v with
  | CChar, _ => ""
  | _, None => null env
  | _, Some _ => address env out
  end.

(** ModifiableAMQPBlobImpl.cxx:34-47 *)
Definition startSerializable_said (fp : string) : SM unit :=
  say (DBG "ModifiableAMQPBlobImpl.cxx" 39 ("  startSerializable: " ++ fp)) ;;
  quietly (startSerializable fp).

(** ModifiableAMQPBlobImpl.cxx:58-79 *)
Definition startComposite_said (id : key) : SM unit :=
  say (DBG "ModifiableAMQPBlobImpl.cxx" (span env 63 68) ("startComposite - " ++ fst id ++ " - " ++ snd id)) ;;
  quietly (schema_if_absent id (CompositeBlob [])) ;;
  startSerializable_said (snd id) ;;
  quietly (on_payload (fun d => pn_enter (pn_put AList d))).

(** ModifiableAMQPBlobImpl.cxx:83-112 *)
Definition startRestricted_said (id : key) (javaType : string) : SM unit :=
  say (DBG "ModifiableAMQPBlobImpl.cxx" (span env 88 93) ("startRestricted - " ++ fst id ++ " - " ++ snd id)) ;;
  quietly (schema_if_absent id (ListBlob javaType)) ;;
  startSerializable_said (snd id) ;;
  quietly ((if String.eqb javaType "map" then put AMap
            else if String.eqb javaType "list" then put AList
            else throw RuntimeError) ;;
           on_payload pn_enter).

(** ModifiableAMQPBlobImpl.cxx:116-124 *)
Definition endComposite_said (name : string) : writer * string -> writer * string :=
  fun '(w, out) => (ended w, out ++ DBG "ModifiableAMQPBlobImpl.cxx" 121 ("endComposite - " ++ name)).
(** ModifiableAMQPBlobImpl.cxx:165-173 *)
Definition endRestricted_said (name : string) : writer * string -> writer * string :=
  fun '(w, out) => (ended w, out ++ DBG "ModifiableAMQPBlobImpl.cxx" 170 ("endRestricted - " ++ name)).

(** FieldDescriptor::makeProton, FieldDescriptor.cxx:273-317 (line 284). *)
Definition makeProton_said (name : string) : string := DBG "FieldDescriptor.cxx" 284 ("makeProton - " ++ name).

(** As [add_field] in Writer.v (ModifiableAMQPBlobImpl.cxx:140-156, 187-199, 213-226 and
    ModifiableAMQPBlobImpl.h:209-226); [news] is written if the property is not there. *)
Definition add_field_said (parent : key) (name : string) (f : data) (news : string) : SM unit :=
  fun '(w, out) => match m_find kcmp parent (m_schemas w) with
           | None => Abort
           | Some (ListBlob _) => Throw BadCast (w, out)
           | Some (CompositeBlob fields) =>
               match m_find scmp name fields with
               | Some _ => Ok tt (w, out)
               | None => Ok tt (Writer (m_payload w)
                           (m_set kcmp parent (CompositeBlob (m_set scmp name f fields)) (m_schemas w)), out ++ news)
               end
           end.

(** ModifiableAMQPBlobImpl.cxx:128-161; the macro NULL is shown as a number. *)
Definition writeNull_said (name type : string) (parent : key) : SM unit :=
  say (DBG "ModifiableAMQPBlobImpl.cxx" (span env 135 138) ("writeNull::" ++ name ++ "::0 PARENT: " ++ fst parent)) ;;
  add_field_said parent name (field_makeProton name type [] "" "" true false) (name ++ " missing :(" ++ endl ++ makeProton_said name) ;;
  say (DBG "ModifiableAMQPBlobImpl.cxx" 158 "WRITE IT") ;;
  quietly (put ANull).
(** ModifiableAMQPBlobImpl.cxx:177-200 *)
Definition writeComposite_said (name type : string) (parent : key) : SM unit :=
  say (DBG "ModifiableAMQPBlobImpl.cxx" (span env 184 185) ("writeComposite::" ++ fst parent)) ;;
  add_field_said parent name (field_makeProton name type [] "" "" false false) (makeProton_said name).
(** ModifiableAMQPBlobImpl.cxx:204-227 *)
Definition writeRestricted_said (name type : string) (parent : key) : SM unit :=
  say (DBG "ModifiableAMQPBlobImpl.cxx" 211 ("writeRestricted::" ++ fst parent)) ;;
  add_field_said parent name (field_makeProton name "*" [type] "" "" false false) (makeProton_said name).
(** ModifiableAMQPBlobImpl.h:199-231 *)
Definition writePrimitive_said (shown : string -> string) (a : atom) (t : prim_type) (pointer : bool) (name : string) (parent : key) : SM unit :=
  DBG_value "ModifiableAMQPBlobImpl.h" 207 ("writePrimitive::" ++ name ++ "::") shown ;;
  add_field_said parent name (field_makeProton name (m_type t) [] "" "" pointer false) (makeProton_said name) ;;
  say (DBG "ModifiableAMQPBlobImpl.h" 228 "WRITE IT") ;;
  quietly (put a).
(** SingleWriter for a primitive, SerialiserFactoryWriters.h:36-49, with
    writePrimitiveSingle, ModifiableAMQPBlobImpl.h:235-244. *)
Definition single_said (t : cpp) (shown : string -> string) (a : atom) : SM unit :=
  say (java_said t) ;;
  say (DBG "SerialiserFactoryWriters.h" 44 ("  SingleWriter::" ++ java_of t ++ " - primitive")) ;;
  DBG_value "ModifiableAMQPBlobImpl.h" 241 "writePrimitiveSingle::" shown ;;
  quietly (writePrimitiveSingle a).

(** A call [o.serialise (sf_, blob_)]: for a class Serializable.cxx:74-85 (line 80), for a
    vector SerializableVector.h:39-50 (line 43), for a map SerializableMap.h:37-51
    (line 41). *)
Definition called (i : item) : string :=
  match i with
  | IObject n _ _ => DBG "Serializable.cxx" 80 ("serialise::" ++ n)
  | IVector n _ _ => DBG "SerializableVector.h" 43 ("_serialise::" ++ n)
  | IMap _ fp _ => DBG "SerializableMap.h" 41 ("_serialise::" ++ fp)
  | _ => ""
  end.
(** SingleWriter for anything else, SerialiserFactoryWriters.h:56-63.  javaTypeName is
    called while the line is being written, and the operands of << are evaluated from
    left to right. *)
Definition element_said (t : cpp) (i : item) : string :=
  match i with
  | IObject _ _ _ | IVector _ _ _ | IMap _ _ _ =>
      DBG "SerialiserFactoryWriters.h" 60 ("  SingleWriter::" ++ java_said t ++ java_of t ++ " - serialise") ++ called i
  | _ => ""
  end.
(** NonPrimWriter for a vector, SerialiserFactoryWriters.h:104-115. *)
Definition vector_said (e : cpp) : string :=
  DBG "SerialiserFactoryWriters.h" 112 ("write::VECTOR<" ++ type_id env e ++ ", " ++ allocator_id env e ++ ">").
(** SerializableMap.h:45-46 *)
Definition entry_said (k v : cpp) : string :=
  DBG "SerializableMap.h" 45 ("  * " ++ java_said k ++ java_of k) ++
  DBG "SerializableMap.h" 46 ("  * " ++ java_said v ++ java_of v).

(** As [serialise] in Writer.v, SerialiserFactoryWriters.h:36-179, Serializable.cxx:74-85,
    SerializableVector.h:39-50 and SerializableMap.h:37-51; the first line of
    [i.serialise (..)] is written by the caller ([called]).  Objects that are not of the
    type do not occur; [ub] stands for them. *)
Fixpoint serialise_said (t : cpp) (i : item) {struct i} : SM unit :=
  match i, t with
  | IPrim v, Prim _ => single_said t (fun _ => prim_text v) (prim_atom v)
  | IPrimPtr p v, PrimPtr _ =>
      quietly (log_pointer p v) ;; single_said t (pointer_text p v) (prim_ptr_atom v)
  | IObject name fp props, Obj c =>
      let id := (name, fp) in
      startComposite_said id ;;
      finally
        ((fix properties (l : list (string * (string * item))) (ds : list (string * cpp)) {struct l} : SM unit :=
            match l, ds with
            | [], [] => ret tt
            | (pn, (ty, v)) :: l', (_, d) :: ds' =>
                match v, d with
                | IPrim p, Prim _ => writePrimitive_said (fun _ => prim_text p) (prim_atom p) (type_of p) false pn id
                | IPrimPtr q p, PrimPtr _ =>
                    quietly (log_pointer q p) ;; writePrimitive_said (pointer_text q p) (prim_ptr_atom p) q true pn id
                | IObject _ _ _, Obj _ =>
                    say (java_said d) ;; writeComposite_said pn ty id ;; say (called v) ;; serialise_said d v
                | IVector _ _ _, Vector e =>
                    say (java_said d) ;; say (vector_said e) ;; writeRestricted_said pn ty id ;; say (called v) ;; serialise_said d v
                | IMap _ _ _, Map _ _ =>
                    say (java_said d) ;; writeRestricted_said pn ty id ;; say (called v) ;; serialise_said d v
                | IPointer (Some o), Pointer d' =>
                    say (java_said d') ;; writeComposite_said pn ty id ;; say (called o) ;; serialise_said d' o
                | IPointer None, Pointer d' =>
                    say (java_said d') ;; writeComposite_said pn ty id ;; writeNull_said pn ty id
                | _, _ => ub
                end ;;
                properties l' ds'
            | _, _ => ub
            end) props (declared P c)) (endComposite_said name)
  | IVector name fp elements, Vector e =>
      startRestricted_said (name, fp) "list" ;;
      finally
        ((fix each (l : list item) : SM unit :=
            match l with
            | [] => ret tt
            | x :: l' => say (element_said e x) ;; serialise_said e x ;; each l'
            end) elements) (endRestricted_said name)
  | IMap name fp entries, Map k v =>
      startRestricted_said (name, fp) "map" ;;
      finally
        ((fix each (l : list (item * item)) : SM unit :=
            match l with
            | [] => ret tt
            | (x, y) :: l' =>
                say (entry_said k v) ;;
                say (element_said k x) ;; serialise_said k x ;;
                say (element_said v y) ;; serialise_said v y ;; each l'
            end) entries) (endRestricted_said name)
  | _, _ => ub
  end.

(** One entry of the schema: ModifiableAMQPBlobImpl.cxx:243-252, with make,
    ModifiableAMQPBlobImpl.h:62-69 and 85-94, size, 58-60 and 77-79, and
    CompositeDescriptor::makeProton, CompositeDescriptor.cxx:230-289 (line 239). *)
Definition made_said (e : key * schema_blob) : string :=
  match e with
  | ((name, _), CompositeBlob fields) =>
      DBG "ModifiableAMQPBlobImpl.cxx" (span env 244 248) ("    * " ++ name ++ ": " ++ dec (Z.of_nat (List.length fields))) ++
      DBG "ModifiableAMQPBlobImpl.h" 66 "make" ++
      DBG "CompositeDescriptor.cxx" 239 ("makeProton - " ++ name ++ " fields: #" ++ dec (Z.of_nat (List.length fields)))
  | ((name, _), ListBlob _) =>
      DBG "ModifiableAMQPBlobImpl.cxx" (span env 244 248) ("    * " ++ name ++ ": 0") ++
      DBG "ModifiableAMQPBlobImpl.h" 89 "make"
  end.
(** ModifiableAMQPBlobImpl.cxx:231-261 *)
Definition toBlob_said : SM data :=
  (fun '(w, out) =>
    Ok tt (w, out ++ DBG "ModifiableAMQPBlobImpl.cxx" (span env 234 237) ("toBlob:: m_schemas.size() = " ++ dec (Z.of_nat (List.length (m_schemas w)))) ++
              fold_right (fun e s => made_said e ++ s) "" (m_schemas w))) ;;
  quietly toBlob.

(** [o.serialise (sf)]: Serializable.cxx:42-53, which does not write the first line,
    SerializableVector.h:94-101, SerializableMap.h:85-92. *)
Definition serialise_blob_said (t : cpp) (o : item) : SM data :=
  say (match o with IObject _ _ _ => "" | _ => called o end) ;; serialise_said t o ;; toBlob_said.
End Said.
