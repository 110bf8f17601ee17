(** Specification for reading single values through the serialisers of a
    factory. *)
From Verif Require Import Base Proton Factory SpecFactory Writer Readers Serialisers.
Import List ListNotations.
Open Scope string_scope.

(** The user has installed no serialiser of their own for the type. *)
Definition ours (h : list op) (ty : string) : Prop := forall r, In (Install r) h -> reader_type r <> ty.

(** The value as a std::any, and as std::to_string (or a string) gives it. *)
Definition any_of (v : prim_value) : any :=
  match v with
  | OfInt z => AnyInt z | OfLong z => AnyLong z | OfDouble b => AnyDouble b | OfBool b => AnyBool b
  | OfString s => AnyString s | OfFloat b => AnyFloat b | OfChar z => AnyChar z
  end.
Definition text_of (double float : N -> string) (v : prim_value) : string :=
  match v with
  | OfInt z | OfLong z | OfChar z => dec z
  | OfDouble b => double b
  | OfFloat b => float b
  | OfBool b => if b then "1" else "0"
  | OfString s => s
  end.
(** Zero, false. *)
Definition zero (t : prim_type) : any :=
  match t with
  | CInt => AnyInt 0 | CLong => AnyLong 0 | CDouble => AnyDouble 0 | CBool => AnyBool false
  | CFloat => AnyFloat 0 | CChar => AnyChar 0 | CString => AnyString ""
  end.

(** A value of type [t] is stored there. *)
Definition stored (v : prim_value) (t : tree) : Prop :=
  match v, tree_atom t with
  | OfInt z, AInt z' | OfLong z, ALong z' => z = z'
  | OfDouble b, ADouble b' | OfFloat b, AFloat b' => b = b'
  | OfBool b, ABool b' => b = b'
  | OfString s, AString s' => s = s'
  | OfChar z, AChar n => Z.to_N (z mod 2 ^ 32) = n
  | _, _ => False
  end.
Definition none_stored (ty : prim_type) (o : option tree) : Prop :=
  forall t v, o = Some t -> type_of v = ty -> ~ stored v t.
