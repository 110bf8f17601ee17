(** The schema classes: fields, composite and restricted type notations, their
    dependency scores, and Schema.
    libs/amqp/src/schema/described-types, .../restricted-types. *)
From Verif Require Import Base TypeNames Ordering.
Open Scope string_scope.

(** Which subclass of Field an object is: {Primitive,Composite,Restricted,
    Array,Custom}Field.h:9. *)
Inductive field_kind : Type :=
| PrimitiveField | ArrayField | CustomField | RestrictedField | CompositeField.

(** field-types/Field.h:41-49; [f_subTypes] is RestrictedField::m_subTypes
    (empty for the other subclasses). *)
Record field : Type := {
  f_kind : field_kind;
  f_name : string;
  f_type : string;
  f_requires : list string;
  f_default : string;
  f_label : string;
  f_mandatory : bool;
  f_multiple : bool;
  f_subTypes : list string
}.

(** field-types/Field.cxx:138-150 *)
Definition typeIsPrimitive (t : string) : bool :=
  memb t ["string"; "long"; "boolean"; "bool"; "float"; "int"; "double"; "binary"].

(** The loop of RestrictedField.cxx:34-36 *)
Fixpoint subTypes_of (requires : list string) : res (list string) :=
  match requires with
  | [] => Ret []
  | r :: rs => let? a := nestedGenericTypes r in
               let? b := subTypes_of rs in
               Ret (a ++ b)%list
  end.

(** field-types/Field.cxx:36-108 with the constructors of the subclasses
    (PrimitiveField.cxx:12-29, ArrayField.cxx:17-36, CustomField.cxx:12-30,
    RestrictedField.cxx:14-37, CompositeField.cxx:16-35). *)
Definition Field_make (name type : string) (requires : list string)
           (default label : string) (mandatory multiple : bool) : res field :=
  let mk kind requires subTypes :=
    {| f_kind := kind; f_name := name; f_type := type; f_requires := requires;
       f_default := default; f_label := label; f_mandatory := mandatory;
       f_multiple := multiple; f_subTypes := subTypes |} in
  if typeIsPrimitive type then Ret (mk PrimitiveField [] [])
  else
    let? isarr := isArrayType type in
    if isarr then
      let? sub := subTypes_of requires in Ret (mk ArrayField requires sub)
    else if String.eqb type "*" then
      match requires with
      | [] => Ret (mk CustomField requires [])
      | front :: _ =>
          let? c := isContainer front in
          if c then let? sub := subTypes_of requires in Ret (mk RestrictedField requires sub)
          else Exc RuntimeError
      end
    else
      let? _ := listType type in
      Ret (mk CompositeField requires []).

(** resolvedType: RestrictedField.cxx:57-61, ArrayField.cxx:40-44,
    CustomField.cxx:50-54, CompositeField.cxx:55-59, PrimitiveField.cxx:49-53.
    front() of an empty list is undefined. *)
Definition resolvedType (f : field) : res string :=
  match f_kind f with
  | RestrictedField | CustomField =>
      match f_requires f with
      | [] => Undef
      | r :: _ => Ret r
      end
  | _ => Ret (f_type f)
  end.

(** AMQPType() == restricted_t: RestrictedField.cxx:41-45, inherited by
    ArrayField. *)
Definition is_restricted_t (f : field) : bool :=
  match f_kind f with RestrictedField | ArrayField => true | _ => false end.

(** Composite.h:46-61, AMQPTypeNotation.h:43-44 *)
Record composite : Type := {
  c_name : string;
  c_label : string;
  c_provides : list string;
  c_descriptor : string;
  c_fields : list field
}.

(** Restricted.h:44 *)
Inductive restricted_kind : Type := list_t | map_t | enum_t | array_t.

(** Restricted.h:46-61 and List.h, Map.h, Array.h, Enum.h: [r_of] is what the
    iteration begin()..end() ranges over: the element type, the key and value
    types, or, for an enum, a moved-from string. *)
Record restricted : Type := {
  r_kind : restricted_kind;
  r_name : string;
  r_label : string;
  r_provides : list string;
  r_descriptor : string;
  r_source : string;
  r_of : list string;
  r_choices : list string
}.

(** AMQPTypeNotation, AMQPTypeNotation.h:32: its two subclasses. *)
Inductive notation : Type :=
| TComposite (c : composite)
| TRestricted (r : restricted).

(** AMQPTypeNotation.cxx:54-58 (name), 46-50 (descriptor) *)
Definition n_name (t : notation) : string :=
  match t with TComposite c => c_name c | TRestricted r => r_name r end.
Definition n_descriptor (t : notation) : string :=
  match t with TComposite c => c_descriptor c | TRestricted r => r_descriptor r end.

(** Restricted.cxx:92-151 with the constructors List.cxx:25-41, Map.cxx:14-31,
    Array.cxx:50-67, Enum.cxx:11-29.  In the Enum constructor [m_enum { name_ }]
    reads a moved-from string, taken to be empty (simplification). *)
Definition Restricted_make (descriptor name label : string) (provides : list string)
           (source : string) (choices : list string) : res restricted :=
  let mk kind of_ choices :=
    {| r_kind := kind; r_name := name; r_label := label; r_provides := provides;
       r_descriptor := descriptor; r_source := source; r_of := of_;
       r_choices := choices |} in
  if String.eqb source "list" then
    match choices with
    | [] =>
        let? arr := isArray name in
        if arr then let? a := arrayType name in Ret (mk array_t [unbox a] [])
        else let? (_, b) := listType name in Ret (mk list_t [b] [])
    | _ :: _ => Ret (mk enum_t [""] choices)
    end
  else if String.eqb source "map" then
    let? (_, of_, to_) := mapType name in
    Ret (mk map_t [of_; to_] [])
  else Exc RuntimeError.

(** List::listOf (List.cxx:61-65), Array::arrayOf (Array.cxx:87-91): element 0;
    Map::mapOf (Map.cxx:51-57): elements 0 and 1. *)
Definition of0 (r : restricted) : string := nth 0 (r_of r) "".
Definition of1 (r : restricted) : string := nth 1 (r_of r) "".

(** ** Scores *)

(** [for (field : fields) if (field->resolvedType() == n) return true]:
    Composite.cxx:103-105, List.cxx:137-141, Map.cxx:139-143, Array.cxx:162-166,
    Enum.cxx:102-106. *)
Fixpoint any_resolved (n : string) (fs : list field) : res bool :=
  match fs with
  | [] => Ret false
  | f :: fs' => let? t := resolvedType f in
                if String.eqb t n then Ret true else any_resolved n fs'
  end.

(** The first loop of Composite.cxx:129-152. *)
Fixpoint any_subtype (n : string) (fs : list field) : res bool :=
  match fs with
  | [] => Ret false
  | f :: fs' =>
      if is_restricted_t f
      then if memb n (f_subTypes f) then Ret true else any_subtype n fs'
      else let? t := resolvedType f in
           if String.eqb t n then Ret true else any_subtype n fs'
  end.

(** Composite.cxx:121-164: [self.dependsOnRHS (lhs)], both composites. *)
Definition composite_rhs_composite (self lhs : composite) : res nat :=
  let? a := any_subtype (c_name lhs) (c_fields self) in
  if a then Ret 1 else
  let? b := any_resolved (c_name self) (c_fields lhs) in
  Ret (if b then 2 else 0).

(** Composite.cxx:94-117 *)
Definition composite_rhs_restricted (self : composite) (lhs : restricted) : res nat :=
  let? a := any_resolved (r_name lhs) (c_fields self) in
  if a then Ret 1
  else Ret (if memb (c_name self) (r_of lhs) then 2 else 0).

(** List.cxx:69-86, Map.cxx:61-76, Array.cxx:95-111, Enum.cxx:49-59 *)
Definition dependsOnMap (self map_ : restricted) : nat :=
  let lhs_uses_us := String.eqb (of0 map_) (r_name self) || String.eqb (of1 map_) (r_name self) in
  match r_kind self with
  | list_t | array_t =>
      if String.eqb (of0 self) (r_name map_) then 1
      else if lhs_uses_us then 2 else 0
  | map_t =>
      if String.eqb (of0 self) (r_name map_) || String.eqb (of1 self) (r_name map_) then 1
      else if lhs_uses_us then 2 else 0
  | enum_t => if lhs_uses_us then 1 else 0
  end.

(** List.cxx:90-104, Map.cxx:80-100, Array.cxx:115-129, Enum.cxx:63-74 *)
Definition dependsOnList (self list_ : restricted) : nat :=
  let lhs_uses_us := String.eqb (of0 list_) (r_name self) in
  match r_kind self with
  | list_t | array_t =>
      if String.eqb (of0 self) (r_name list_) then 1
      else if lhs_uses_us then 2 else 0
  | map_t =>
      if String.eqb (of0 self) (r_name list_) || String.eqb (of1 self) (r_name list_) then 1
      else if lhs_uses_us then 2 else 0
  | enum_t => if lhs_uses_us then 2 else 0
  end.

(** List.cxx:108-112, Map.cxx:104-108, Array.cxx:133-137, Enum.cxx:78-82 *)
Definition dependsOnArray (self array_ : restricted) : nat := 0.

(** List.cxx:116-126, Map.cxx:112-126, Array.cxx:141-151, Enum.cxx:86-91 *)
Definition dependsOnEnum (self enum_ : restricted) : nat :=
  match r_kind self with
  | list_t | array_t => if String.eqb (of0 self) (r_name enum_) then 1 else 0
  | map_t =>
      if String.eqb (of0 self) (r_name enum_) || String.eqb (of1 self) (r_name enum_) then 1
      else if String.eqb (r_name enum_) (r_name self) then 2 else 0
  | enum_t => 0
  end.

(** Restricted.cxx:198-216 *)
Definition restricted_rhs_restricted (self lhs : restricted) : nat :=
  match r_kind lhs with
  | map_t => dependsOnMap self lhs
  | list_t => dependsOnList self lhs
  | enum_t => dependsOnEnum self lhs
  | array_t => dependsOnArray self lhs
  end.

(** List.cxx:130-144, Map.cxx:130-146, Array.cxx:155-169, Enum.cxx:95-110 *)
Definition restricted_rhs_composite (self : restricted) (lhs : composite) : res nat :=
  let first :=
    match r_kind self with
    | list_t | array_t => String.eqb (of0 self) (c_name lhs)
    | map_t => String.eqb (of0 self) (c_name lhs) || String.eqb (of1 self) (c_name lhs)
    | enum_t => String.eqb (r_name self) (c_name lhs)
    end in
  if first then Ret 1
  else let? b := any_resolved (r_name self) (c_fields lhs) in
       Ret (if b then 2 else 0).

(** Composite.cxx:86-90, Restricted.cxx:189-194:
    [self->dependsOn (rhs)] is [rhs.dependsOnRHS (self)]. *)
Definition dependsOn (self rhs : notation) : res nat :=
  match rhs, self with
  | TComposite r, TComposite s => composite_rhs_composite r s
  | TComposite r, TRestricted s => composite_rhs_restricted r s
  | TRestricted r, TComposite s => restricted_rhs_composite r s
  | TRestricted r, TRestricted s => Ret (restricted_rhs_restricted r s)
  end.

(** ** Schema *)

(** Schema.h:37-40.  The two maps are built by emplace (first entry with a key
    wins) while running through the groups in order (Schema.cxx:41-52). *)
Record schema : Type := { s_types : list (list notation) }.

Definition schema_of (types : list (list notation)) : schema := {| s_types := types |}.

Definition first_with (key : notation -> string) (k : string) (l : list notation)
  : option notation := find (fun t => String.eqb (key t) k) l.

(** Schema.cxx:64-74 *)
Definition fromType (s : schema) (type : string) : res notation :=
  match first_with n_name type (List.concat (s_types s)) with
  | Some t => Ret t
  | None => Exc RuntimeError
  end.

(** Schema.cxx:78-88 *)
Definition fromDescriptor (s : schema) (descriptor : string) : res notation :=
  match first_with n_descriptor descriptor (List.concat (s_types s)) with
  | Some t => Ret t
  | None => Exc RuntimeError
  end.
