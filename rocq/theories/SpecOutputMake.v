(** What the library should write while properties and containers of a schema are made and
    types are put in order, as lists of lines: the file, the number of the line in it and
    the text. *)
From Verif Require Import Base OutputWriter SpecOutputWriter SpecTypes SpecNames TypeNames Ordering Schema SpecReadScript SpecParse OutputMake.
Import List ListNotations.
Open Scope string_scope.

Definition debug_line : Type := (string * Z * string)%type.
Fixpoint lines (env : platform) (ls : list debug_line) : string :=
  match ls with
  | [] => ""
  | (file, number, text) :: ls' => line env file number text ++ lines env ls'
  end.

(** ** Properties and containers *)

(** [moved] says what a string holds after its contents have been moved elsewhere. *)
Definition property_lines (moved : string -> string) (name type : string) (requires : list string) : list debug_line :=
  let made := ("Field.cxx", 133, "FIELD::FIELD - name: " ++ name ++ ", type: " ++ moved type)%Z in
  let holds := ("RestrictedField.cxx", 32, "RestrictedField - " ++ name ++ "::" ++ type)%Z in
  ("Field.cxx", 141%Z, "typeIsPrimitive - " ++ type) ::
  if primitive_name type then [("Field.cxx", 48%Z, "-> primitive"); made]
  else if unclear type then []
  else if array_name type then
    [("Field.cxx", 57%Z, "-> array"); made; holds] ++
    match subtypes_of requires with
    | Got _ => [("ArrayField.cxx", 35%Z, "ArrayField::ArrayField - name: " ++ name ++ ", type: " ++ type)]
    | _ => []
    end
  else if negb (String.eqb type "*") then
    [("Field.cxx", 97%Z, "-> composite"); made; ("CompositeField.cxx", 34%Z, "FIELD::FIELD - name: " ++ name ++ ", type: " ++ type)]
  else
    ("Field.cxx", 68%Z, "-> restricted " ++ name) ::
    match requires with
    | [] => [made]
    | r :: _ => if negb (unclear r) && (array_name r || list_name r || map_name r) then [("Field.cxx", 82%Z, name ++ " is a container"); made; holds] else []
    end.

Definition container_lines (name source : string) (choices : list string) : list debug_line :=
  ("Restricted.cxx", 102%Z, "RESTRICTED::MAKE - " ++ name) ::
  match choices with
  | [] =>
      if String.eqb source "list" && negb (unclear name) && array_name name
      then [("Array.cxx", 66%Z, "ARRAY OF::" ++ unboxed_name (array_part name) ++ ", name::" ++ name)] else []
  | _ :: _ => []
  end.

(** ** Putting types in order *)

(** All that can show: the names of types, what they hold, and the types of properties. *)
Definition bare_property (f : field) : field :=
  {| f_kind := f_kind f; f_name := ""; f_type := f_type f; f_requires := f_requires f; f_default := ""; f_label := "";
     f_mandatory := false; f_multiple := false; f_subTypes := f_subTypes f |}.
Definition bare (t : notation) : notation :=
  match t with
  | TComposite c => TComposite {| c_name := c_name c; c_label := ""; c_provides := []; c_descriptor := ""; c_fields := map bare_property (c_fields c) |}
  | TRestricted r => TRestricted {| r_kind := r_kind r; r_name := r_name r; r_label := ""; r_provides := []; r_descriptor := ""; r_source := "";
                                    r_of := r_of r; r_choices := [] |}
  end.

(** The members of a list up to and with the first one that is looked for. *)
Fixpoint as_far_as {A} (found : A -> bool) (l : list A) : list A :=
  match l with
  | [] => []
  | x :: l' => if found x then [x] else x :: as_far_as found l'
  end.

(** The type of a property, or the first one it requires if its own is not given. *)
Definition shown_type (f : field) : string :=
  match f_kind f with RestrictedField | CustomField => hd "" (f_requires f) | _ => f_type f end.
Definition has_type (f : field) : bool :=
  match f_kind f with RestrictedField | CustomField => match f_requires f with [] => false | _ => true end | _ => true end.
Definition typed (t : notation) : bool := match t with TComposite c => forallb has_type (c_fields c) | TRestricted _ => true end.

(** The score of two types: 1, 2 or 0 (C15, C16). *)
Definition score (a b : notation) : nat := match dependsOn a b with Ret n => n | _ => 0 end.

(** The lines of comparing a member [a] with the type [b] to be inserted. *)
Definition class_of_container (a : restricted) (b : composite) : list debug_line :=
  let found f := String.eqb (shown_type f) (r_name a) in
  let with_property f := ("Composite.cxx", 101%Z, "  C/R b) " ++ shown_type f ++ " == " ++ r_name a) in
  let with_element i := ("Composite.cxx", 110%Z, "  C/R a) " ++ i ++ " == " ++ c_name b) in
  (map with_property (as_far_as found (c_fields b)) ++
   if existsb found (c_fields b) then [] else map with_element (as_far_as (fun i => String.eqb i (c_name b)) (r_of a)))%list.
Definition own_property (a b : string) (f : field) : list debug_line :=
  ("Composite.cxx", 130%Z, BLUE ++ "FIELD - " ++ b ++ RESET ++ "::0") ::
  if is_restricted_t f
  then ("Composite.cxx", 138%Z, "  C/C a_ " ++ GREEN ++ "LHS Name: " ++ a ++ RESET) ::
       map (fun s => ("Composite.cxx", 140%Z, "  C/C a_ " ++ RED ++ "==>" ++ s ++ RESET)) (as_far_as (fun s => String.eqb s a) (f_subTypes f))
  else [("Composite.cxx", 146%Z, "  C/C a) " ++ shown_type f ++ " == " ++ a)].
Definition uses (a : string) (f : field) : bool := if is_restricted_t f then memb a (f_subTypes f) else String.eqb (shown_type f) a.
Definition class_of_class (a b : composite) : list debug_line :=
  let begin := ("Composite.cxx", 126%Z, c_name b ++ " ?Depends on " ++ c_name a) in
  let their_property f :=
    [("Composite.cxx", 156%Z, "FIELD - " ++ c_name b ++ "::0"); ("Composite.cxx", 157%Z, "  C/C b) " ++ shown_type f ++ " == " ++ c_name b)] in
  (begin :: flat_map (own_property (c_name a) (c_name b)) (as_far_as (uses (c_name a)) (c_fields b)) ++
   if existsb (uses (c_name a)) (c_fields b) then []
   else flat_map their_property (as_far_as (fun f => String.eqb (shown_type f) (c_name b)) (c_fields a)))%list.
Definition container_of_container (a b : restricted) : list debug_line :=
  ("Restricted.cxx", 201%Z, "Restricted::dependsOnRHS - " ++ kind_name (r_kind a)) ::
  match r_kind a, r_kind b with
  | map_t, list_t => [("List.cxx", 72%Z, "List::dependsOnMap - " ++ r_name b ++ " map:" ++ r_name a)]
  | list_t, map_t =>
      [("Map.cxx", 83%Z, "Map::dependsOnList; listOf " ++ r_name a ++ "(" ++ of0 a ++ ")");
       ("Map.cxx", 84%Z, "MapName - " ++ r_name b);
       ("Map.cxx", 85%Z, "MapOf - " ++ of0 b ++ " - " ++ of1 b);
       match score (TRestricted a) (TRestricted b) with
       | 1 => ("Map.cxx", 88%Z, "Map::dependsOnList - 1")
       | 2 => ("Map.cxx", 94%Z, "Map::dependsOnList - 2")
       | _ => ("Map.cxx", 98%Z, "Map::dependsOnList - 0")
       end]
  | _, _ => []
  end.
Definition comparison_lines (a b : notation) : list debug_line :=
  match a, b with
  | TComposite a, TComposite b => class_of_class a b
  | TRestricted a, TComposite b => ("Restricted.cxx", 192%Z, "Restricted::dependsOn") :: class_of_container a b
  | TComposite _, TRestricted _ => []
  | TRestricted a, TRestricted b => ("Restricted.cxx", 192%Z, "Restricted::dependsOn") :: container_of_container a b
  end.

(** Looking for the place of [p]: the members that are looked at, in order, each with its
    name, up to the first one that [p] must precede. *)
Definition search_lines (p : notation) (groups : list (list notation)) : list debug_line :=
  ("OrderedTypeNotations.h", 154%Z, "Insert: " ++ n_name p) ::
  flat_map (fun j => ("OrderedTypeNotations.h", 162%Z, n_name j) :: comparison_lines j p)
    (as_far_as (fun j => Nat.eqb (score j p) 2) (List.concat groups)).

(** Where [p] goes: the number of groups before it (C11-C14). *)
Definition place (p : notation) (groups : list (list notation)) : nat :=
  match scan notation dependsOn p 0 groups 0 with Ret n => n | _ => 0 end.
(** The groups with [p] among them, which the scores decide. *)
Definition with_type (p : notation) (groups : list (list notation)) : list (list notation) :=
  match insert notation (fun a b => Ret (score a b)) p groups with Ret groups' => groups' | _ => groups end.
(** Joining a group: [p] is compared with each member; one that depends on it is inserted
    in the groups behind, at once. *)
Fixpoint joining_lines (inserting : notation -> list (list notation) -> list debug_line) (p : notation) (members : list notation) (behind : list (list notation)) : list debug_line :=
  match members with
  | [] => []
  | e :: members' =>
      (comparison_lines p e ++
       if Nat.eqb (score p e) 1 then inserting e behind ++ joining_lines inserting p members' (with_type e behind)
       else joining_lines inserting p members' behind)%list
  end.
(** All lines of inserting [p], where at most [n] types can be moved. *)
Fixpoint insertion_lines (n : nat) (p : notation) (groups : list (list notation)) : list debug_line :=
  (search_lines p groups ++
   match n, skipn (place p groups) groups with
   | S n', group :: behind => joining_lines (insertion_lines n') p group behind
   | _, _ => []
   end)%list.
