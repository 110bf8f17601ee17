(** Specification of "type [t] uses type [u]" for the entries of a schema, and
    of the schemas for which the dependency scores are claimed to be right. *)
From Verif Require Import Base TypeNames SpecTypes SpecNames Schema SpecOrdering.
Import List ListNotations.
Open Scope string_scope.

(** The type a property has: a wildcard's type is the first of the types it
    requires. *)
Definition property_type (f : field) : option string :=
  if String.eqb (f_type f) "*" then hd_error (f_requires f) else Some (f_type f).

(** [t] names [u]: as the type of a property, the element type of a list or
    array, the key or value type of a map. *)
Definition direct (t u : notation) : Prop :=
  match t with
  | TComposite c => exists f, In f (c_fields c) /\ property_type f = Some (n_name u)
  | TRestricted r =>
      match r_kind r with
      | list_t | array_t => exists e, r_of r = [e] /\ n_name u = e
      | map_t => exists k v, r_of r = [k; v] /\ (n_name u = k \/ n_name u = v)
      | enum_t => False
      end
  end.

(** A class names another class inside a container type required by one of its
    properties ([names_in]: all parts of a type expression, C06, C104). *)
Definition nested_use (t u : notation) : Prop :=
  match t, u with
  | TComposite c, TComposite d =>
      exists f r parts, In f (c_fields c) /\
        (f_type f = "*" \/ is_array (f_type f)) /\
        In r (f_requires f) /\ names_in r parts /\ In (c_name d) parts
  | _, _ => False
  end.

Definition uses (t u : notation) : Prop := direct t u \/ nested_use t u.

(** Entries as the library builds them. *)
Definition field_made (f : field) : Prop :=
  exists name type requires default label mandatory multiple,
    Field_make name type requires default label mandatory multiple = Ret f.
Definition made (t : notation) : Prop :=
  match t with
  | TComposite c => Forall field_made (c_fields c)
  | TRestricted r =>
      exists d n l p s ch, Restricted_make d n l p s ch = Ret r
  end.

(** No wildcard property without a required type. *)
Definition resolvable (t : notation) : Prop :=
  match t with
  | TComposite c => forall f, In f (c_fields c) -> f_type f = "*" -> f_requires f <> []
  | TRestricted _ => True
  end.

(** Class names do not look like arrays. *)
Definition class_named (t : notation) : Prop :=
  match t with
  | TComposite c => isArray (c_name c) = Ret false
  | TRestricted _ => True
  end.

Definition is_kind (k : restricted_kind) (t : notation) : Prop :=
  match t with TRestricted r => r_kind r = k | TComposite _ => False end.
Definition is_restricted (t : notation) : Prop :=
  match t with TRestricted _ => True | TComposite _ => False end.

(** The pairs for which the scores are wrong: an array and a container or enum
    one of which uses the other, and a map using an enum. *)
Definition blind_pair (t u : notation) : Prop :=
  (is_kind array_t t /\ is_restricted u /\ (uses t u \/ uses u t)) \/
  (is_kind map_t t /\ is_kind enum_t u /\ uses t u).

(** One entry as it should be. *)
Definition entry_ok (t : notation) : Prop := made t /\ resolvable t /\ class_named t.

(** The score [j->dependsOn (p)] as its only caller, OrderedTypeNotations.h:161-210,
    takes it: 1 if [p] uses [j], 2 if [j] uses [p], 0 if
    neither. *)
Definition right_score (j p : notation) (score : res nat) : Prop :=
  (uses p j -> score = Ret 1) /\
  (~ uses p j -> uses j p -> score = Ret 2) /\
  (~ uses p j -> ~ uses j p -> score = Ret 0).

(** A schema the order is claimed for. *)
Definition regular (ts : list notation) : Prop :=
  Forall entry_ok ts /\ NoDup (map n_name ts) /\
  (forall t u, In t ts -> In u ts -> ~ blind_pair t u) /\
  (forall t, In t ts -> ~ uses t t).

(** A chain of direct uses inside the schema. *)
Inductive uses_through (ts : list notation) : notation -> notation -> Prop :=
| ut_one x y : direct x y -> uses_through ts x y
| ut_more x y z : direct x y -> In y ts -> uses_through ts y z -> uses_through ts x z.

(** The schema also lists the containers through which a class uses another. *)
Definition lists_containers (ts : list notation) : Prop :=
  forall t u, In t ts -> In u ts -> uses t u -> uses_through ts t u.

(** When [p] arrives, every use of [p], or of something that leads to [p], by an
    earlier arrival goes through uses that are visible: the containers through
    which a class uses another have arrived by then. *)
Definition containers_before (ts : list notation) : Prop :=
  forall l p r x e, ts = (l ++ p :: r)%list -> In x l -> In e (p :: l) ->
    e = p \/ leads uses l e p -> uses x e -> uses_through l x e.

(** The orders the algorithm is claimed to cope with.  Dependencies first and
    dependencies last are among them (C14). *)
Definition listed (ts : list notation) : Prop := bridged uses ts /\ containers_before ts.

(** Every type used by way of another is also used by itself. *)
Definition transitively_used (ts : list notation) : Prop :=
  forall x y z, In x ts -> In y ts -> In z ts -> uses x y -> uses y z -> uses x z.

(** Containers (and enums) before classes, as when java.util comes first in the
    alphabet. *)
Definition containers_first (ts : list notation) : Prop :=
  forall l x r y, ts = (l ++ x :: r)%list -> In y r -> is_restricted y -> is_restricted x.
Definition restricted_among (ts : list notation) : list notation :=
  filter (fun t => match t with TRestricted _ => true | TComposite _ => false end) ts.
