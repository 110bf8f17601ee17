(** Serialising C++ objects: libs/amqp/src/ModifiableAMQPBlobImpl.{h,cxx},
    libs/amqp/include/assembler/SerialiserFactoryWriters.h,
    libs/amqp/include/serializable and libs/amqp/src/serializable.

    Debug output (DBG, which is on in libs/corda-utils/include/debug.h) goes to
    standard output and is modelled only where evaluating it can be undefined. *)
From Coq Require Import OrdersEx.
From Verif Require Import Base Proton Descriptors.
Open Scope string_scope.

(** ** The objects that are serialised *)

(** The primitive C++ types that PrimToSerialiser is specialised for,
    libs/amqp/src/serialiser/PrimToSerializer.h:43-174. *)
Inductive prim_type : Type := CInt | CLong | CDouble | CBool | CString | CFloat | CChar.
(** Their values, the arguments at PrimToSerializer.h:47-172.  (int and long are
    not bounded here; float and double are bit patterns; char is signed.) *)
Inductive prim_value : Type :=
| OfInt (z : Z) | OfLong (z : Z) | OfDouble (bits : N) | OfBool (b : bool)
| OfString (s : string) | OfFloat (bits : N) | OfChar (z : Z).
Definition type_of (v : prim_value) : prim_type :=
  match v with
  | OfInt _ => CInt | OfLong _ => CLong | OfDouble _ => CDouble | OfBool _ => CBool
  | OfString _ => CString | OfFloat _ => CFloat | OfChar _ => CChar
  end.

(** What a serialiseImpl written by the user makes the library write: the
    values it passes to SerialiserFactory::write and writeSingle
    (SerialiserFactory.h:69-86), in order.  A
    property comes with its name and with javaTypeName of its C++ type (not used
    for primitives).  [IPointer] is a pointer to a class, vector or map. *)
Inductive item : Type :=
| IPrim (v : prim_value)
| IPrimPtr (t : prim_type) (v : option prim_value)
| IObject (name fingerprint : string) (properties : list (string * (string * item)))
| IVector (name fingerprint : string) (elements : list item)
| IMap (name fingerprint : string) (entries : list (item * item))
| IPointer (target : option item).

(** ** std::map *)

(** Kept as a list sorted by key. *)
Section Map.
Context {K V : Type} (cmp : K -> K -> comparison).
Fixpoint m_find (k : K) (m : list (K * V)) : option V :=
  match m with
  | [] => None
  | (k', v) :: m' => match cmp k k' with Eq => Some v | Lt => None | Gt => m_find k m' end
  end.
(** [m[k] = v], e.g. ModifiableAMQPBlobImpl.cxx:72 and 97. *)
Fixpoint m_set (k : K) (v : V) (m : list (K * V)) : list (K * V) :=
  match m with
  | [] => [(k, v)]
  | (k', v') :: m' =>
      match cmp k k' with
      | Eq => (k, v) :: m'
      | Lt => (k, v) :: m
      | Gt => (k', v') :: m_set k v m'
      end
  end.
End Map.

(** operator< of std::string and of std::pair<std::string, std::string>, the keys
    of the maps at ModifiableAMQPBlobImpl.h:52 and 110-112. *)
Definition scmp : string -> string -> comparison := String_as_OT.compare.
Definition key : Type := (string * string)%type.
Definition kcmp (a b : key) : comparison :=
  match scmp (fst a) (fst b) with Eq => scmp (snd a) (snd b) | c => c end.

(** ** The writer *)

(** CompositeBlob, ModifiableAMQPBlobImpl.h:51-70, and ListBlob, 72-95. *)
Inductive schema_blob : Type :=
| CompositeBlob (fields : list (string * data))
| ListBlob (source : string).

(** The members of ModifiableAMQPBlobImpl, ModifiableAMQPBlobImpl.h:103-112. *)
Record writer : Type := Writer { m_payload : data; m_schemas : list (key * schema_blob) }.

(** ModifiableAMQPBlobImpl.cxx:16-21 *)
Definition new_writer : writer := Writer pn_data [].

Definition WM (A : Type) := writer -> outcome writer A.

Definition on_payload (f : data -> data) : WM unit :=
  fun w => Ok tt (Writer (f (m_payload w)) (m_schemas w)).
Definition put (a : atom) : WM unit := on_payload (pn_put a).

(** PrimToSerialiser<T>::put for a value, PrimToSerializer.h:43-174.  (A char is
    converted to proton's 32-bit unsigned character.) *)
Definition prim_atom (v : prim_value) : atom :=
  match v with
  | OfInt z => AInt z
  | OfLong z => ALong z
  | OfDouble b => ADouble b
  | OfBool b => ABool b
  | OfString s => AString s
  | OfFloat b => AFloat b
  | OfChar z => AChar (Z.to_N (z mod 2 ^ 32))
  end.
(** ... and for a pointer: null when the pointer is (lines 48-52 and the like). *)
Definition prim_ptr_atom (v : option prim_value) : atom :=
  match v with Some v => prim_atom v | None => ANull end.

(** m_type of the serialisers: property-serialisers/IntPropertySerialiserBase.cxx:13-17
    and the like. *)
Definition m_type (t : prim_type) : string :=
  match t with
  | CInt => "int" | CLong => "long" | CDouble => "double" | CBool => "boolean"
  | CString => "string" | CFloat => "float" | CChar => "char"
  end.

(** ModifiableAMQPBlobImpl.cxx:34-47 *)
Definition startSerializable (fingerprint : string) : WM unit :=
  on_payload (fun d => pn_put (ASymbol fingerprint) (pn_enter (pn_put ADescribed d))).

(** [if (m_schemas.find (id) == m_schemas.end()) m_schemas[id] = ..]:
    ModifiableAMQPBlobImpl.cxx:71-73 and 96-98. *)
Definition schema_if_absent (id : key) (b : schema_blob) : WM unit :=
  fun w => match m_find kcmp id (m_schemas w) with
           | Some _ => Ok tt w
           | None => Ok tt (Writer (m_payload w) (m_set kcmp id b (m_schemas w)))
           end.

(** ModifiableAMQPBlobImpl.cxx:58-79 *)
Definition startComposite (id : key) : WM unit :=
  schema_if_absent id (CompositeBlob []) ;;
  startSerializable (snd id) ;;
  on_payload (fun d => pn_enter (pn_put AList d)).

(** ModifiableAMQPBlobImpl.cxx:83-112 *)
Definition startRestricted (id : key) (javaType : string) : WM unit :=
  schema_if_absent id (ListBlob javaType) ;;
  startSerializable (snd id) ;;
  (if String.eqb javaType "map" then put AMap
   else if String.eqb javaType "list" then put AList
   else throw RuntimeError) ;;
  on_payload pn_enter.

(** ModifiableAMQPBlobImpl.cxx:116-124 and 165-173 (endRestricted), which run
    when the AutoComposite or AutoRestrictedWrite scope is left. *)
Definition ended (w : writer) : writer := Writer (pn_exit (pn_exit (m_payload w))) (m_schemas w).

(** The part shared by writeNull (139-157), writeComposite (185-199),
    writeRestricted (212-226) and writePrimitive (ModifiableAMQPBlobImpl.h:
    208-226): assert that the class has an entry, cast it, and add the property
    if it is not there. *)
Definition add_field (parent : key) (name : string) (f : data) : WM unit :=
  fun w => match m_find kcmp parent (m_schemas w) with
           | None => Abort
           | Some (ListBlob _) => Throw BadCast w
           | Some (CompositeBlob fields) =>
               match m_find scmp name fields with
               | Some _ => Ok tt w
               | None => Ok tt (Writer (m_payload w)
                           (m_set kcmp parent (CompositeBlob (m_set scmp name f fields)) (m_schemas w)))
               end
           end.

(** ModifiableAMQPBlobImpl.cxx:128-161 *)
Definition writeNull (name type : string) (parent : key) : WM unit :=
  add_field parent name (field_makeProton name type [] "" "" true false) ;;
  put ANull.
(** ModifiableAMQPBlobImpl.cxx:177-200 *)
Definition writeComposite (name type : string) (parent : key) : WM unit :=
  add_field parent name (field_makeProton name type [] "" "" false false).
(** ModifiableAMQPBlobImpl.cxx:204-227 *)
Definition writeRestricted (name type : string) (parent : key) : WM unit :=
  add_field parent name (field_makeProton name "*" [type] "" "" false false).
(** ModifiableAMQPBlobImpl.h:199-231; [pointer] is std::is_pointer_v<T>. *)
Definition writePrimitive (a : atom) (t : prim_type) (pointer : bool) (name : string) (parent : key) : WM unit :=
  add_field parent name (field_makeProton name (m_type t) [] "" "" pointer false) ;;
  put a.
(** ModifiableAMQPBlobImpl.h:235-244 *)
Definition writePrimitiveSingle (a : atom) : WM unit := put a.

(** The debug lines at the start of both (ModifiableAMQPBlobImpl.h:207, 241)
    print the value.  A pointer to char is printed as a C string: a null pointer
    is undefined, and otherwise memory is read up to a zero, which is counted as
    undefined unless the char pointed to is the zero.  Other pointers are printed
    as addresses. *)
Definition log_pointer (t : prim_type) (v : option prim_value) : WM unit :=
  match t, v with
  | CChar, Some (OfChar 0) => ret tt
  | CChar, _ => ub
  | _, _ => ret tt
  end.

(** ** Walking an object *)

(** [serialise i]: i.serialise (sf, blob) for a class (Serializable.cxx:74-85), a
    vector (SerializableVector.h:39-50) or a map (SerializableMap.h:37-51), and
    SingleWriter::write (SerialiserFactoryWriters.h:36-63) for an element.

    The property loop is SerialiserFactory::write, which picks a PropertyWriter
    and a NonPrimWriter by type: SerialiserFactoryWriters.h:70-86 (primitives),
    136-152 with 90-129 (classes, vectors and maps by value), 159-179 (pointers,
    which always use the generic NonPrimWriter).  The library offers no way to
    write a pointer to an object as an element; [ub] stands for that. *)
Fixpoint serialise (i : item) : WM unit :=
  match i with
  | IPrim v => writePrimitiveSingle (prim_atom v)
  | IPrimPtr t v => log_pointer t v ;; writePrimitiveSingle (prim_ptr_atom v)
  | IObject name fp props =>
      let id := (name, fp) in
      startComposite id ;;
      finally
        ((fix properties (l : list (string * (string * item))) : WM unit :=
            match l with
            | [] => ret tt
            | (pn, (ty, v)) :: l' =>
                match v with
                | IPrim p => writePrimitive (prim_atom p) (type_of p) false pn id
                | IPrimPtr t p => log_pointer t p ;; writePrimitive (prim_ptr_atom p) t true pn id
                | IObject _ _ _ => writeComposite pn ty id ;; serialise v
                | IVector _ _ _ | IMap _ _ _ => writeRestricted pn ty id ;; serialise v
                | IPointer (Some o) => writeComposite pn ty id ;; serialise o
                | IPointer None => writeComposite pn ty id ;; writeNull pn ty id
                end ;;
                properties l'
            end) props) ended
  | IVector name fp elements =>
      startRestricted (name, fp) "list" ;;
      finally
        ((fix each (l : list item) : WM unit :=
            match l with
            | [] => ret tt
            | e :: l' => serialise e ;; each l'
            end) elements) ended
  | IMap name fp entries =>
      startRestricted (name, fp) "map" ;;
      finally
        ((fix each (l : list (item * item)) : WM unit :=
            match l with
            | [] => ret tt
            | (k, v) :: l' => serialise k ;; serialise v ;; each l'
            end) entries) ended
  | IPointer _ => ub
  end.

(** CompositeBlob::make and ListBlob::make, ModifiableAMQPBlobImpl.h:62-69, 86-94. *)
Definition make (e : key * schema_blob) : data :=
  let '((name, fp), b) := e in
  match b with
  | CompositeBlob fields => composite_makeProton name [] fp (map snd fields) ""
  | ListBlob source => restricted_makeProton name source fp
  end.

(** ModifiableAMQPBlobImpl.cxx:231-261; the result is the blob's data. *)
Definition toBlob : WM data :=
  fun w => Ok (envelope_makeProton (m_payload w) (schema_makeProton (map make (m_schemas w)))) w.

(** [o.serialise (sf)]: Serializable.cxx:42-53, SerializableVector.h:94-101,
    SerializableMap.h:85-92. *)
Definition serialise_blob (o : item) : WM data := serialise o ;; toBlob.
