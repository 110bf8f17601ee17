(** How parsing ends for any tree at all, as a function of the tree: no position, no
    scopes.  The parts of an element are looked at in order, and the first one that
    is not as expected decides. *)
From Verif Require Import Base Proton SpecCursor TypeNames SpecTypes SpecNames Ordering Schema Descriptors SpecDescriptors SpecAccept SpecReadScript.
Import List ListNotations.
Open Scope string_scope.

Definition also {A B} (r : ending A) (k : A -> ending B) : ending B :=
  match r with Got a => k a | Thrown e => Thrown e | Undefined => Undefined end.
Notation "'let&' x := r 'in' k" := (also r (fun x => k)) (at level 200, x pattern, r at level 100, k at level 200).

(** Normalising a name (C07, C104) and the ordering of types (C13 - C16) have their own
    properties; here only their result counts. *)
Definition result_of {A} (r : res A) : ending A :=
  match r with Ret a => Got a | Exc e => Thrown e | _ => Undefined end.

(** ** Parts *)
Definition text_of (o : option tree) : ending string :=
  match o with Some (Node (AString s) _) => Got s | _ => Thrown RuntimeError end.
Definition text_or_null_of (o : option tree) : ending string :=
  match o with Some (Node (AString s) _) => Got s | Some (Node ANull _) => Got "" | _ => Thrown RuntimeError end.
Definition symbol_of (o : option tree) : ending string :=
  match o with Some (Node (ASymbol s) _) => Got s | _ => Thrown RuntimeError end.
Definition name_of (o : option tree) : ending string :=
  match o with Some (Node (AString s) _) | Some (Node (ASymbol s) _) => Got s | _ => Thrown RuntimeError end.
Definition name_or_null_of (o : option tree) : ending string :=
  match o with
  | Some (Node (AString s) _) | Some (Node (ASymbol s) _) => Got s
  | Some (Node ANull _) => Got ""
  | _ => Thrown RuntimeError
  end.
Definition truth_of (o : option tree) : ending bool :=
  match o with Some (Node (ABool b) _) => Got b | _ => Thrown RuntimeError end.
(** Whatever is in a place where a list is expected is taken for one. *)
Definition members (o : option tree) : list tree := match o with Some t => tree_children t | None => [] end.
Fixpoint each {A} (f : tree -> ending A) (ts : list tree) : ending (list A) :=
  match ts with
  | [] => Got []
  | t :: ts' => let& x := f t in let& xs := each f ts' in Got (x :: xs)
  end.
Definition texts_of (o : option tree) : ending (list string) := each (fun t => text_of (Some t)) (members o).

(** ** Properties and containers *)

(** Names too short to tell if they are an array's. *)
Definition unclear (s : string) : bool := memb s [""; "]"; "p]"].
Definition finishes (p s : string) : bool :=
  String.eqb s (substring 0 (String.length s - String.length p) s ++ p).
Definition array_name (s : string) : bool := finishes "[]" s || finishes "[p]" s.

(** The parts of a type name, or std::out_of_range if it cannot be taken apart. *)
Definition taken_apart {A} (o : option A) : ending A := match o with Some a => Got a | None => Thrown OutOfRange end.
Fixpoint subtypes_of (requires : list string) : ending (list string) :=
  match requires with
  | [] => Got []
  | r :: rs => let& a := taken_apart (all_mentioned r) in let& b := subtypes_of rs in Got (a ++ b)%list
  end.

Definition property_of (name type : string) (requires : list string) (default label : string) (mandatory multiple : bool) : ending field :=
  let the kind requires subtypes := Got {| f_kind := kind; f_name := name; f_type := type; f_requires := requires; f_default := default;
    f_label := label; f_mandatory := mandatory; f_multiple := multiple; f_subTypes := subtypes |} in
  if primitive_name type then the PrimitiveField [] []
  else if unclear type then Undefined
  else if array_name type then let& subtypes := subtypes_of requires in the ArrayField requires subtypes
  else if negb (String.eqb type "*") then the CompositeField requires []
  else match requires with
       | [] => the CustomField [] []
       | r :: _ =>
           if unclear r then Undefined
           else if array_name r || list_name r || map_name r
           then let& subtypes := subtypes_of requires in the RestrictedField requires subtypes
           else Thrown RuntimeError
       end.

Definition container_of (fingerprint name label : string) (provides : list string) (source : string) (choices : list string) : ending restricted :=
  let the kind of_ choices := Got {| r_kind := kind; r_name := name; r_label := label; r_provides := provides; r_descriptor := fingerprint;
    r_source := source; r_of := of_; r_choices := choices |} in
  if String.eqb source "map" then let& (_, k, v) := taken_apart (map_parts name) in the map_t [k; v] []
  else if negb (String.eqb source "list") then Thrown RuntimeError
  else match choices with
       | _ :: _ => the enum_t [""] choices
       | [] =>
           if unclear name then Undefined
           else if array_name name then the array_t [unboxed_name (array_part name)] []
           else the list_t [snd (list_parts name)] []
       end.

(** ** Elements *)

(** An element of another kind in its place is not noticed, but the pointer to it is
    used as if it pointed to one of the right kind. *)
Definition a_fingerprint (e : element) : ending string := match e with EDescriptor s => Got s | _ => Undefined end.
Definition a_property (e : element) : ending field := match e with EField f => Got f | _ => Undefined end.
Definition a_choice (e : element) : ending string := match e with EChoice c => Got c | _ => Undefined end.
Definition a_type (e : element) : ending notation := match e with EType t => Got t | _ => Undefined end.
Definition a_schema (e : element) : ending schema := match e with ESchema s => Got s | _ => Undefined end.

(** Each type is put in its place before the next one is read. *)
Fixpoint grouped (f : tree -> ending notation) (groups : list (list notation)) (ts : list tree) : ending (list (list notation)) :=
  match ts with
  | [] => Got groups
  | t :: ts' => let& x := f t in let& groups' := result_of (insert notation dependsOn x groups) in grouped f groups' ts'
  end.

Definition present {A} (o : option tree) (f : tree -> ending A) : ending A :=
  match o with Some t => f t | None => Thrown RuntimeError end.

(** What is described: the second part, or the code itself if that is all there is.
    [inner] says how elements inside end. *)
Section Elements.
Context (inner : tree -> ending element).
Definition parse_property (body : tree) : ending element :=
  let& name := text_of (part 0 body) in
  let& type := text_of (part 1 body) in
  let& requires := texts_of (part 2 body) in
  let& default := text_or_null_of (part 3 body) in
  let& label := text_or_null_of (part 4 body) in
  let& mandatory := truth_of (part 5 body) in
  let& multiple := truth_of (part 6 body) in
  let& f := property_of name type requires default label mandatory multiple in Got (EField f).
Definition parse_fingerprint (body : tree) : ending element := let& s := symbol_of (part 0 body) in Got (EDescriptor s).
Definition parse_choice (body : tree) : ending element := let& s := text_of (part 0 body) in Got (EChoice s).
Definition parse_class (body : tree) : ending element :=
  let& name := text_of (part 0 body) in
  let& label := text_or_null_of (part 1 body) in
  let& provides := texts_of (part 2 body) in
  let& e := present (part 3 body) inner in
  let& fingerprint := a_fingerprint e in
  let& fields := each (fun t => let& e := inner t in a_property e) (members (part 4 body)) in
  Got (EType (TComposite {| c_name := name; c_label := label; c_provides := provides; c_descriptor := fingerprint; c_fields := fields |})).
Definition parse_container (body : tree) : ending element :=
  let& name := name_of (part 0 body) in
  let& label := name_or_null_of (part 1 body) in
  let& provides := texts_of (part 2 body) in
  let& source := name_of (part 3 body) in
  let& e := present (part 4 body) inner in
  let& fingerprint := a_fingerprint e in
  let& choices := each (fun t => let& e := inner t in a_choice e) (members (part 5 body)) in
  let& r := container_of fingerprint (makePrim name) label provides source choices in Got (EType (TRestricted r)).
Definition parse_schema (body : tree) : ending element :=
  let& groups := grouped (fun t => let& e := inner t in a_type e) [] (flat_map tree_children (tree_children body)) in
  Got (ESchema {| s_types := groups |}).
Definition parse_envelope (body : tree) : ending element :=
  let& fingerprint := present (part 0 body) (fun payload =>
    match tree_atom payload with ADescribed => symbol_of (part 0 payload) | _ => Thrown RuntimeError end) in
  let& e := present (part 1 body) inner in
  let& s := a_schema e in
  Got (EEnvelope {| e_schema := s; e_descriptor := fingerprint |}).
Definition parse_element (code : N) (body : tree) : ending element :=
  if N.eqb code 22 then Thrown RuntimeError
  else if N.eqb code (vendor 1) then parse_envelope body
  else if N.eqb code (vendor 2) then parse_schema body
  else if N.eqb code (vendor 3) then parse_fingerprint body
  else if N.eqb code (vendor 4) then parse_property body
  else if N.eqb code (vendor 5) then parse_class body
  else if N.eqb code (vendor 6) then parse_container body
  else if N.eqb code (vendor 7) then parse_choice body
  else if existsb (fun n => N.eqb code (vendor n)) [8; 9; 10; 11]%N then Got ENull
  else Undefined.
End Elements.

(** [n] bounds the depth; any bound that is greater than the height of the tree will
    do. *)
Fixpoint parse (n : nat) (t : tree) : ending element :=
  match n with
  | 0 => Undefined
  | S n' =>
      match t with
      | Node ADescribed (Node (AULong code) _ :: _) => present (part 1 t) (parse_element (parse n') code)
      | _ => Thrown RuntimeError
      end
  end.

Definition parsed (t : tree) : ending element := parse (S (height t)) t.

(** How a function that reads ends, with the cursor where it was. *)
Definition ends_at {A} (o : outcome data A) (r : ending A) (d : data) : Prop :=
  o = match r with Got a => Ok a d | Thrown e => Throw e d | Undefined => UB end.

(** ** Trees that are safe to parse *)

(** The number an element is described by. *)
Definition described_by (t : tree) : option N :=
  match t with Node ADescribed (Node (AULong v) _ :: _) => Some v | _ => None end.
(** If it is described by a number, it is one of these codes of Corda's (or 22, which
    always throws). *)
Definition only (codes : list N) (t : tree) : bool :=
  match described_by t with
  | Some v => N.eqb v 22 || existsb (fun n => N.eqb v (vendor n)) codes
  | None => true
  end.
Definition if_present (f : tree -> bool) (o : option tree) : bool := match o with Some t => f t | None => true end.
(** If it is a string, it is a clear name. *)
Definition clear (t : tree) : bool := match tree_atom t with AString s => negb (unclear s) | _ => true end.
(** If it is the name of a container, that is clear once normalised (C07). *)
Definition clear_container (t : tree) : bool :=
  match tree_atom t with AString s | ASymbol s => negb (unclear (makePrim s)) | _ => true end.
Definition is_wildcard (t : tree) : bool := match tree_atom t with AString s => String.eqb s "*" | _ => false end.

(** The element is of a known kind, what is in it is of the right kind, and the names
    in it are clear; a property of any type says what type it requires. *)
Definition placed (t : tree) : bool :=
  match described_by t, part 1 t with
  | Some v, Some body =>
      only [1; 2; 3; 4; 5; 6; 7; 8; 9; 10; 11]%N t &&
      (if N.eqb v (vendor 1) then if_present (only [2]%N) (part 1 body)
       else if N.eqb v (vendor 2) then forallb (only [5; 6]%N) (flat_map tree_children (tree_children body))
       else if N.eqb v (vendor 4) then
         if_present clear (part 1 body) &&
         (negb (if_present is_wildcard (part 1 body)) ||
          match members (part 2 body) with [] => false | r :: _ => clear r end)
       else if N.eqb v (vendor 5) then if_present (only [3]%N) (part 3 body) && forallb (only [4]%N) (members (part 4 body))
       else if N.eqb v (vendor 6) then
         if_present clear_container (part 0 body) && if_present (only [3]%N) (part 4 body) && forallb (only [7]%N) (members (part 5 body))
       else true)
  | _, _ => true
  end.
Fixpoint everywhere (P : tree -> bool) (t : tree) : bool :=
  P t && (let '(Node _ cs) := t in forallb (everywhere P) cs).
