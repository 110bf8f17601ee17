(** Specification of type names, independent of the model's parsers. *)
From Coq Require Import List String Ascii Arith.
From Verif Require Import TypeNames.   (* only for the data type [ctype] *)
Import ListNotations.
Open Scope string_scope.

(** A Java type expression: a plain name, a list of, or a map from .. to. *)
Inductive texp : Type :=
| TName (n : string)
| TListOf (t : texp)
| TMapOf (k v : texp).

(** How Corda writes type expressions; [gap] is what follows the comma between
    the two arguments of a map ("" here, a blank on the JVM). *)
Fixpoint print (gap : string) (t : texp) : string :=
  match t with
  | TName n => n
  | TListOf e => "java.util.List<" ++ print gap e ++ ">"
  | TMapOf k v => "java.util.Map<" ++ print gap k ++ "," ++ gap ++ print gap v ++ ">"
  end.

(** The eight boxed primitive names of Java and the primitive they stand for. *)
Definition boxed_table : list (string * string) :=
  [ ("java.lang.Integer", "int"); ("java.lang.Boolean", "bool");
    ("java.lang.Byte", "char"); ("java.lang.Short", "short");
    ("java.lang.Character", "char"); ("java.lang.Float", "float");
    ("java.lang.Long", "long"); ("java.lang.Double", "double") ].

Definition unboxed_name (n : string) : string :=
  match find (fun p => String.eqb (fst p) n) boxed_table with
  | Some (_, u) => u
  | None => n
  end.

(** Replace the names in a type expression. *)
Fixpoint map_names (f : string -> string) (t : texp) : texp :=
  match t with
  | TName n => TName (f n)
  | TListOf e => TListOf (map_names f e)
  | TMapOf k v => TMapOf (map_names f k) (map_names f v)
  end.

Fixpoint names (t : texp) : list string :=
  match t with
  | TName n => [n]
  | TListOf e => names e
  | TMapOf k v => (names k ++ names v)%list
  end.

(** The components of a type expression, outermost first. *)
Fixpoint components (t : texp) : list texp :=
  t :: match t with
       | TName _ => []
       | TListOf e => components e
       | TMapOf k v => (components k ++ components v)%list
       end.

(** A boxed primitive in component position stands for the primitive. *)
Definition unbox_if_name (t : texp) : texp :=
  match t with
  | TName n => TName (unboxed_name n)
  | _ => t
  end.

Definition blanks (s : string) : Prop := Forall (eq " "%char) (list_ascii_of_string s).

(** Contains the character. *)
Definition has (c : ascii) (s : string) : Prop := In c (list_ascii_of_string s).

(** Brackets of a text match up; [comma] tells whether a comma may occur
    outside all brackets. *)
Inductive bracketed : bool -> string -> Prop :=
| br_nil c : bracketed c ""
| br_char c x s : x <> "<"%char -> x <> ">"%char -> x <> ","%char ->
    bracketed c s -> bracketed c (String x s)
| br_comma s : bracketed true s -> bracketed true (String "," s)
| br_group c i s : bracketed true i -> bracketed c s ->
    bracketed c ("<" ++ i ++ ">" ++ s).

Definition begins_with (p s : string) : Prop := exists r, s = p ++ r.
Definition finishes_with (p s : string) : Prop := exists l, s = l ++ p.
Definition occurs_in (p s : string) : Prop := exists l r, s = l ++ p ++ r.

(** A plain name: no brackets or comma, no leading blank, not itself a
    container name. *)
Definition plain (n : string) : Prop :=
  ~ has "<" n /\ ~ has ">" n /\ ~ has "," n /\ ~ begins_with " " n /\
  ~ begins_with "java.util.List" n /\ ~ begins_with "java.util.Map" n.

(** [m] is [b] up to arbitrary characters where [b] has a dot. *)
Fixpoint looks_like (b m : string) : Prop :=
  match b, m with
  | EmptyString, EmptyString => True
  | String x b', String y m' => (x = y \/ x = "."%char) /\ looks_like b' m'
  | _, _ => False
  end.

Definition boxed (n : string) : Prop := In n (map fst boxed_table).

(** A class name in which nothing resembles a boxed primitive, and which does
    not end in a word that could be the start of one. *)
Definition unrelated (n : string) : Prop :=
  (forall b l m r, boxed b -> n = l ++ m ++ r -> ~ looks_like b m) /\
  ~ finishes_with "java" n /\ ~ finishes_with "lang" n.

(** A C++ class name: the enclosing namespaces ([None] for an anonymous one),
    outermost first, and the class.  [cxx_name] is how the compiler's demangler
    prints it, [java_name] the dotted form. *)
Definition cxx_name (path : list (option string)) (cls : string) : string :=
  fold_right (fun o s => match o with
                         | None => "(anonymous namespace)::" ++ s
                         | Some n => n ++ "::" ++ s
                         end) cls path.
Definition java_name (path : list (option string)) (cls : string) : string :=
  fold_right (fun o s => match o with
                         | None => s
                         | Some n => n ++ "." ++ s
                         end) cls path.
(** No colon and no opening parenthesis. *)
Definition identifier (n : string) : Prop := ~ has ":" n /\ ~ has "(" n.

(** C++ types: std::string, a class, a vector, a map.  [demangled] is what the
    compiler tells the program about the type, [java_type] the Java type
    expression it corresponds to. *)
Inductive cxx_type : Type :=
| XString
| XClass (path : list (option string)) (cls : string)
| XVector (t : cxx_type)
| XMap (k v : cxx_type).
Fixpoint demangled (t : cxx_type) : ctype :=
  match t with
  | XString => CString
  | XClass path cls => CNamed (cxx_name path cls)
  | XVector e => CVector (demangled e)
  | XMap k v => CMap (demangled k) (demangled v)
  end.
Fixpoint java_type (t : cxx_type) : texp :=
  match t with
  | XString => TName "string"
  | XClass path cls => TName (java_name path cls)
  | XVector e => TListOf (java_type e)
  | XMap k v => TMapOf (java_type k) (java_type v)
  end.
(** All class and namespace names are identifiers. *)
Fixpoint identifiers (t : cxx_type) : Prop :=
  match t with
  | XString => True
  | XClass path cls => identifier cls /\
      Forall (fun o => match o with Some n => identifier n | None => True end) path
  | XVector e => identifiers e
  | XMap k v => identifiers k /\ identifiers v
  end.

(** The names of the primitive types. *)
Definition primitive_name (s : string) : bool :=
  existsb (String.eqb s) ["string"; "long"; "boolean"; "bool"; "float"; "int"; "double"; "binary"].
