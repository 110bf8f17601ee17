(** Programs that serialise: which objects (Writer.v) values of C++ types are.

    A class derives from amqp::serializable::Serializable and passes
    javaTypeName<decltype(this)>() as its name, declares a Fingerprint, and its
    serialiseImpl writes its properties one after the other; see for example
    bin/writer-tests/writer-test-04/SerialiseMe.{h,cxx}. *)
From Verif Require Import Base TypeNames SpecTypes Writer SpecWriter.
Import List ListNotations.
Open Scope string_scope.

(** The C++ types that can be properties: those that SerialiserFactoryWriters.h:
    36-179 picks writers for.  A class is given by the namespaces it is in and its
    name. *)
Inductive cpp : Type :=
| Prim (t : prim_type)
| PrimPtr (t : prim_type)
| Obj (c : list (option string) * string)
| Vector (e : cpp)
| Map (k v : cpp)
| Pointer (t : cpp).

(** What the compiler knows of them.  SerializableVector and SerializableMap
    count as std::vector and std::map (SerializableVector.h:153-158,
    SerializableMap.h:102-107), and pointers as what they point to (types.h:
    52-64, SerialiserFactoryWriters.h:145, 168).  Simplified: a pointer to a
    string is not, but its type name is never used. *)
Fixpoint cxx_of (t : cpp) : cxx_type :=
  match t with
  | Prim CInt | PrimPtr CInt => XClass [] "int"
  | Prim CLong | PrimPtr CLong => XClass [] "long"
  | Prim CDouble | PrimPtr CDouble => XClass [] "double"
  | Prim CBool | PrimPtr CBool => XClass [] "bool"
  | Prim CFloat | PrimPtr CFloat => XClass [] "float"
  | Prim CChar | PrimPtr CChar => XClass [] "char"
  | Prim CString | PrimPtr CString => XString
  | Obj (path, cls) => XClass path cls
  | Vector e => XVector (cxx_of e)
  | Map k v => XMap (cxx_of k) (cxx_of v)
  | Pointer t => cxx_of t
  end.

(** The name of a type in a schema: SerializableVector.h:66, 72, 78, 84,
    SerializableMap.h:63, 69, 75, SerialiserFactoryWriters.h:145, 168, and
    bin/writer-tests/writer-test-04/SerialiseMe.h:33, 58. *)
Definition java_of (t : cpp) : string := javaTypeName (demangled (cxx_of t)).

(** A program: its classes, vectors and maps, the properties that each class
    writes (name and type), and the fingerprints,
    libs/amqp/include/serializable/Serializable.h:34-48. *)
Record program : Type := Program {
  types_of : list cpp;
  declared : list (option string) * string -> list (string * cpp);
  fingerprint : cpp -> string
}.

(** [i] is a value of type [t].  The type name of a primitive property is not
    used (Writer.v). *)
Section OfType.
Context (P : program).
Fixpoint of_type (t : cpp) (i : item) {struct i} : Prop :=
  match i, t with
  | IPrim v, Prim p => type_of v = p /\ prim_ok v
  | IPrimPtr p v, PrimPtr q => p = q /\ match v with Some v => type_of v = p /\ prim_ok v | None => True end
  | IObject n fp ps, Obj c =>
      n = java_of t /\ fp = fingerprint P t /\
      (fix properties (ps : list (string * (string * item))) (ds : list (string * cpp)) {struct ps} : Prop :=
         match ps, ds with
         | [], [] => True
         | (pn, (ty, v)) :: ps', (dn, d) :: ds' =>
             (pn = dn /\ (is_primitive v = false -> ty = java_of d) /\ of_type d v) /\ properties ps' ds'
         | _, _ => False
         end) ps (declared P c)
  | IVector n fp es, Vector e =>
      n = java_of t /\ fp = fingerprint P t /\ fold_right (fun x Q => of_type e x /\ Q) True es
  | IMap n fp kvs, Map k v =>
      n = java_of t /\ fp = fingerprint P t /\
      fold_right (fun kv Q => (of_type k (fst kv) /\ of_type v (snd kv)) /\ Q) True kvs
  | IPointer None, Pointer _ => True
  | IPointer (Some o), Pointer t' => of_type t' o
  | _, _ => False
  end.
End OfType.
