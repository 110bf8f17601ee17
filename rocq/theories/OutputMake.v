(** What is written to standard output while properties and containers of a schema are made
    and types are put in order: Field.cxx, Restricted.cxx, Composite.cxx,
    OrderedTypeNotations.h and what they call.  The functions are those of Schema.v and
    Ordering.v, with the lines they write. *)
From Verif Require Import Base TypeNames Ordering Schema OutputWriter OutputParse Factory.
Import List ListNotations.
Open Scope string_scope.

(** A result, and what has been written when it is there: std::cout as in debug.h:18. *)
Definition told (A : Type) : Type := (string * res A)%type.
Definition tell (text : string) : told unit := (text, Ret tt).
Definition quietly {A} (r : res A) : told A := ("", r).
Definition and_tell {A B} (m : told A) (k : A -> told B) : told B :=
  match snd m with
  | Ret a => (fst m ++ fst (k a), snd (k a))
  | Exc e => (fst m, Exc e)
  | Abrt => (fst m, Abrt)
  | Undef => (fst m, Undef)
  | NoFuel => (fst m, NoFuel)
  end.
Notation "'let@' x := m 'in' k" := (and_tell m (fun x => k)) (at level 200, x pattern, right associativity).

(** libs/corda-utils/include/colours.h:6-10 *)
Definition escape (code : string) : string := String "027" ("[" ++ code ++ "m").
Definition RESET : string := escape "0".
Definition RED : string := escape "31".
Definition GREEN : string := escape "32".
Definition BLUE : string := escape "34".

Section Told.
(** The platform, and what a string holds after it has been moved from, which the standard
    does not say. *)
Context (env : platform) (moved : string -> string).
Definition dbg (name : string) (line : Z) (text : string) : told unit := tell (DBG env name line text).

(** ** Properties *)

(** Field.cxx:138-150 *)
Definition typeIsPrimitive_told (type : string) : told bool :=
  let@ _ := dbg "Field.cxx" 141 ("typeIsPrimitive - " ++ type) in
  quietly (Ret (typeIsPrimitive type)).

(** Field.cxx:117-134: the parameter, not the member, whose string has been moved to the
    member. *)
Definition Field_told (name type : string) : told unit :=
  dbg "Field.cxx" 133 ("FIELD::FIELD - name: " ++ name ++ ", type: " ++ moved type).

(** RestrictedField.cxx:14-37 *)
Definition RestrictedField_told (name type : string) (requires : list string) : told (list string) :=
  let@ _ := Field_told name type in
  let@ _ := dbg "RestrictedField.cxx" 32 ("RestrictedField - " ++ name ++ "::" ++ type) in
  quietly (subTypes_of requires).

(** Field.cxx:36-108 with the constructors PrimitiveField.cxx:12-29, ArrayField.cxx:17-36,
    CustomField.cxx:12-30, CompositeField.cxx:16-35. *)
Definition Field_make_told (name type : string) (requires : list string)
           (default label : string) (mandatory multiple : bool) : told field :=
  let mk kind requires subTypes :=
    {| f_kind := kind; f_name := name; f_type := type; f_requires := requires;
       f_default := default; f_label := label; f_mandatory := mandatory;
       f_multiple := multiple; f_subTypes := subTypes |} in
  let@ prim := typeIsPrimitive_told type in
  if prim : bool then
    let@ _ := dbg "Field.cxx" 48 "-> primitive" in
    let@ _ := Field_told name type in
    quietly (Ret (mk PrimitiveField [] []))
  else
    let@ arr := quietly (isArrayType type) in
    if arr : bool then
      let@ _ := dbg "Field.cxx" 57 "-> array" in
      let@ sub := RestrictedField_told name type requires in
      let@ _ := dbg "ArrayField.cxx" 35 ("ArrayField::ArrayField - name: " ++ name ++ ", type: " ++ type) in
      quietly (Ret (mk ArrayField requires sub))
    else if String.eqb type "*" then
      let@ _ := dbg "Field.cxx" 68 ("-> restricted " ++ name) in
      match requires with
      | [] =>
          let@ _ := Field_told name type in
          quietly (Ret (mk CustomField requires []))
      | front :: _ =>
          let@ c := quietly (isContainer front) in
          if c : bool then
            let@ _ := dbg "Field.cxx" 82 (name ++ " is a container") in
            let@ sub := RestrictedField_told name type requires in
            quietly (Ret (mk RestrictedField requires sub))
          else quietly (Exc RuntimeError)
      end
    else
      let@ _ := quietly (listType type) in
      let@ _ := dbg "Field.cxx" 97 "-> composite" in
      let@ _ := Field_told name type in
      let@ _ := dbg "CompositeField.cxx" 34 ("FIELD::FIELD - name: " ++ name ++ ", type: " ++ type) in
      quietly (Ret (mk CompositeField requires [])).

(** ** Containers *)

(** Restricted.cxx:92-151 with the constructors List.cxx:25-41, Map.cxx:14-31,
    Array.cxx:50-67, Enum.cxx:11-29. *)
Definition Restricted_make_told (descriptor name label : string) (provides : list string)
           (source : string) (choices : list string) : told restricted :=
  let mk kind of_ choices :=
    {| r_kind := kind; r_name := name; r_label := label; r_provides := provides;
       r_descriptor := descriptor; r_source := source; r_of := of_;
       r_choices := choices |} in
  let@ _ := dbg "Restricted.cxx" 102 ("RESTRICTED::MAKE - " ++ name) in
  if String.eqb source "list" then
    match choices with
    | [] =>
        let@ arr := quietly (isArray name) in
        if arr : bool then
          let@ a := quietly (arrayType name) in
          let@ _ := dbg "Array.cxx" 66 ("ARRAY OF::" ++ unbox a ++ ", name::" ++ name) in
          quietly (Ret (mk array_t [unbox a] []))
        else
          let@ (_, b) := quietly (listType name) in
          quietly (Ret (mk list_t [b] []))
    | _ :: _ => quietly (Ret (mk enum_t [""] choices))
    end
  else if String.eqb source "map" then
    let@ (_, of_, to_) := quietly (mapType name) in
    quietly (Ret (mk map_t [of_; to_] []))
  else quietly (Exc RuntimeError).

(** ** Scores *)

(** The loop of Composite.cxx:100-106.  (Where resolvedType is undefined the first part of
    the line may be there; it is left out here and below.) *)
Fixpoint any_resolved_told (n : string) (fs : list field) : told bool :=
  match fs with
  | [] => quietly (Ret false)
  | f :: fs' =>
      let@ t := quietly (resolvedType f) in
      let@ _ := dbg "Composite.cxx" 101 ("  C/R b) " ++ t ++ " == " ++ n) in
      if String.eqb t n then quietly (Ret true) else any_resolved_told n fs'
  end.

(** The loop of Composite.cxx:109-114. *)
Fixpoint any_element_told (n : string) (l : list string) : told bool :=
  match l with
  | [] => quietly (Ret false)
  | i :: l' =>
      let@ _ := dbg "Composite.cxx" 110 ("  C/R a) " ++ i ++ " == " ++ n) in
      if String.eqb i n then quietly (Ret true) else any_element_told n l'
  end.

(** Composite.cxx:94-117 *)
Definition composite_rhs_restricted_told (self : composite) (lhs : restricted) : told nat :=
  let@ a := any_resolved_told (r_name lhs) (c_fields self) in
  if a : bool then quietly (Ret 1) else
  let@ b := any_element_told (c_name self) (r_of lhs) in
  quietly (Ret (if b : bool then 2 else 0)).

(** The loop of Composite.cxx:139-144. *)
Fixpoint any_nested_told (n : string) (l : list string) : told bool :=
  match l with
  | [] => quietly (Ret false)
  | t :: l' =>
      let@ _ := dbg "Composite.cxx" 140 ("  C/C a_ " ++ RED ++ "==>" ++ t ++ RESET) in
      if String.eqb t n then quietly (Ret true) else any_nested_told n l'
  end.

(** The first loop of Composite.cxx:129-152.  type() is that of the class, of an unscoped
    enumeration (AMQPTypeNotation.h:40), whose value is 0. *)
Fixpoint any_subtype_told (self n : string) (fs : list field) : told bool :=
  match fs with
  | [] => quietly (Ret false)
  | f :: fs' =>
      let@ _ := dbg "Composite.cxx" 130 (BLUE ++ "FIELD - " ++ self ++ RESET ++ "::" ++ "0") in
      if is_restricted_t f then
        let@ _ := dbg "Composite.cxx" 138 ("  C/C a_ " ++ GREEN ++ "LHS Name: " ++ n ++ RESET) in
        let@ b := any_nested_told n (f_subTypes f) in
        if b : bool then quietly (Ret true) else any_subtype_told self n fs'
      else
        let@ t := quietly (resolvedType f) in
        let@ _ := dbg "Composite.cxx" 146 ("  C/C a) " ++ t ++ " == " ++ n) in
        if String.eqb t n then quietly (Ret true) else any_subtype_told self n fs'
  end.

(** The second loop, Composite.cxx:155-161. *)
Fixpoint any_theirs_told (self : string) (fs : list field) : told bool :=
  match fs with
  | [] => quietly (Ret false)
  | f :: fs' =>
      let@ _ := dbg "Composite.cxx" 156 ("FIELD - " ++ self ++ "::" ++ "0") in
      let@ t := quietly (resolvedType f) in
      let@ _ := dbg "Composite.cxx" 157 ("  C/C b) " ++ t ++ " == " ++ self) in
      if String.eqb t self then quietly (Ret true) else any_theirs_told self fs'
  end.

(** Composite.cxx:121-164 *)
Definition composite_rhs_composite_told (self lhs : composite) : told nat :=
  let@ _ := dbg "Composite.cxx" 126 (c_name self ++ " ?Depends on " ++ c_name lhs) in
  let@ a := any_subtype_told (c_name self) (c_name lhs) (c_fields self) in
  if a : bool then quietly (Ret 1) else
  let@ b := any_theirs_told (c_name self) (c_fields lhs) in
  quietly (Ret (if b : bool then 2 else 0)).

(** List.cxx:69-86; Map.cxx:61-76, Array.cxx:95-111 and Enum.cxx:49-59 write nothing. *)
Definition dependsOnMap_told (self map_ : restricted) : told nat :=
  let@ _ := match r_kind self with
            | list_t => dbg "List.cxx" 72 ("List::dependsOnMap - " ++ r_name self ++ " map:" ++ r_name map_)
            | _ => quietly (Ret tt)
            end in
  quietly (Ret (dependsOnMap self map_)).

(** Map.cxx:80-100; List.cxx:90-104, Array.cxx:115-129 and Enum.cxx:63-74 write nothing. *)
Definition dependsOnList_told (self list_ : restricted) : told nat :=
  match r_kind self with
  | map_t =>
      let@ _ := dbg "Map.cxx" 83 ("Map::dependsOnList; listOf " ++ r_name list_ ++ "(" ++ of0 list_ ++ ")") in
      let@ _ := dbg "Map.cxx" 84 ("MapName - " ++ r_name self) in
      let@ _ := dbg "Map.cxx" 85 ("MapOf - " ++ of0 self ++ " - " ++ of1 self) in
      if String.eqb (of0 self) (r_name list_) || String.eqb (of1 self) (r_name list_) then
        let@ _ := dbg "Map.cxx" 88 "Map::dependsOnList - 1" in quietly (Ret 1)
      else if String.eqb (of0 list_) (r_name self) then
        let@ _ := dbg "Map.cxx" 94 "Map::dependsOnList - 2" in quietly (Ret 2)
      else
        let@ _ := dbg "Map.cxx" 98 "Map::dependsOnList - 0" in quietly (Ret 0)
  | _ => quietly (Ret (dependsOnList self list_))
  end.

(** Restricted.cxx:49-72 *)
Definition kind_name (k : restricted_kind) : string :=
  match k with list_t => "list" | map_t => "map" | enum_t => "enum" | array_t => "array" end.

(** Restricted.cxx:198-216; dependsOnEnum and dependsOnArray (List.cxx:108-126 and the like)
    write nothing. *)
Definition restricted_rhs_restricted_told (self lhs : restricted) : told nat :=
  let@ _ := dbg "Restricted.cxx" 201 ("Restricted::dependsOnRHS - " ++ kind_name (r_kind lhs)) in
  match r_kind lhs with
  | map_t => dependsOnMap_told self lhs
  | list_t => dependsOnList_told self lhs
  | enum_t => quietly (Ret (dependsOnEnum self lhs))
  | array_t => quietly (Ret (dependsOnArray self lhs))
  end.

(** Composite.cxx:86-90, Restricted.cxx:189-194; List.cxx:130-144, Map.cxx:130-146,
    Array.cxx:155-169 and Enum.cxx:95-110 write nothing. *)
Definition dependsOn_told (self rhs : notation) : told nat :=
  let@ _ := match self with
            | TComposite _ => quietly (Ret tt)
            | TRestricted _ => dbg "Restricted.cxx" 192 "Restricted::dependsOn"
            end in
  match rhs, self with
  | TComposite r, TComposite s => composite_rhs_composite_told r s
  | TComposite r, TRestricted s => composite_rhs_restricted_told r s
  | TRestricted r, TComposite s => quietly (restricted_rhs_composite r s)
  | TRestricted r, TRestricted s => restricted_rhs_restricted_told r s
  end.

(** ** Inserting *)

(** OrderedTypeNotations.h:161-176 *)
Fixpoint scan_level_told (p : notation) (i : nat) (lvl : list notation) (ip : nat) : told (nat * bool) :=
  match lvl with
  | [] => quietly (Ret (ip, false))
  | j :: lvl' =>
      let@ _ := dbg "OrderedTypeNotations.h" 162 (n_name j) in
      let@ score := dependsOn_told j p in
      match score with
      | 1 => scan_level_told p i lvl' (S i)
      | 2 => quietly (Ret (i, true))
      | _ => scan_level_told p i lvl' ip
      end
  end.

(** OrderedTypeNotations.h:160-178 *)
Fixpoint scan_told (p : notation) (i : nat) (levels : list (list notation)) (ip : nat) : told nat :=
  match levels with
  | [] => quietly (Ret ip)
  | lvl :: levels' =>
      let@ (ip', stop) := scan_level_told p i lvl ip in
      if stop : bool then quietly (Ret ip') else scan_told p (S i) levels' ip'
  end.

(** OrderedTypeNotations.h:188-210 *)
Fixpoint shuffle_told (rec : notation -> list (list notation) -> told (list (list notation)))
         (p : notation) (members : list notation) (pre : list (list notation)) (kept : list notation)
         (behind : list (list notation)) : told (list (list notation) * list notation * list (list notation)) :=
  match members with
  | [] => quietly (Ret (pre, rev kept, behind))
  | e :: members' =>
      let@ score := dependsOn_told p e in
      match score with
      | 0 => shuffle_told rec p members' pre (e :: kept) behind
      | 1 => let@ behind' := rec e behind in
             shuffle_told rec p members' pre kept behind'
      | 2 => shuffle_told rec p members' (pre ++ [[e]])%list kept behind
      | _ => shuffle_told rec p members' pre kept behind
      end
  end.

(** OrderedTypeNotations.h:147-212 *)
Fixpoint insert_at_told (fuel : nat) (p : notation) (levels : list (list notation)) : told (list (list notation)) :=
  match fuel with
  | 0 => quietly NoFuel
  | S fuel' =>
      let@ _ := dbg "OrderedTypeNotations.h" 154 ("Insert: " ++ n_name p) in
      let@ ip := scan_told p 0 levels 0 in
      match skipn ip levels with
      | [] => quietly (Ret (levels ++ [[p]])%list)
      | lvl :: behind =>
          let@ (pre, kept, behind') := shuffle_told (insert_at_told fuel') p lvl [] [] behind in
          quietly (Ret (firstn ip levels ++ pre ++ [p :: kept] ++ behind')%list)
      end
  end.

(** OrderedTypeNotations.h:138-142 *)
Definition insert_told (p : notation) (levels : list (list notation)) : told (list (list notation)) :=
  insert_at_told (S (List.length (List.concat levels))) p levels.

(** These texts where OutputParse.v needs them; what making the readers writes is a
    parameter here (see OutputProcess.v). *)
Definition told_by_code (process : schema -> factory -> string) : tellings :=
  {| field_text := fun name type requires default label mandatory multiple =>
       fst (Field_make_told name type requires default label mandatory multiple);
     container_text := fun descriptor name label provides source choices =>
       fst (Restricted_make_told descriptor name label provides source choices);
     insert_text := fun t groups => fst (insert_told t groups);
     process_text := process |}.
End Told.
