(** Which trees the schema parser accepts, and what it takes from them, written
    independently of the code that reads them.  It is lenient: a part that is
    missing is taken to be the last part there is, whatever follows the expected
    parts is ignored, and any node will do for a list. *)
From Coq Require Import Permutation.
From Verif Require Import Base Proton TypeNames SpecTypes SpecNames Schema SpecSchema SpecDescriptors Descriptors.
Import List ListNotations.
Open Scope string_scope.

(** The [n]-th part of a node, or its last. *)
Definition part (n : nat) (t : tree) : option tree :=
  nth_error (tree_children t) (Nat.min n (length (tree_children t) - 1)).
Definition part_is (n : nat) (t : tree) (P : tree -> Prop) : Prop := exists p, part n t = Some p /\ P p.

Definition says (s : string) (t : tree) : Prop := tree_atom t = AString s.
Definition says_or_null (s : string) (t : tree) : Prop := says s t \/ tree_atom t = ANull /\ s = "".
(** A restricted type's name and source may be symbols, *)
Definition calls (s : string) (t : tree) : Prop := says s t \/ tree_atom t = ASymbol s.
(** and so may its label. *)
Definition calls_or_null (s : string) (t : tree) : Prop := calls s t \/ tree_atom t = ANull /\ s = "".
Definition strings (ss : list string) (t : tree) : Prop := Forall2 says ss (tree_children t).
Definition truth (b : bool) (t : tree) : Prop := tree_atom t = ABool b.

(** [t] is described by a code of Corda's; [body] is what it describes. *)
Definition coded (code : N) (t body : tree) : Prop :=
  tree_atom t = ADescribed /\ (exists c cs, tree_children t = c :: cs /\ tree_atom c = AULong (vendor code)) /\ part 1 t = Some body.

(** The kind of property goes with its type and the first type it requires. *)
Definition property_fits (f : field) : Prop :=
  (primitive_name (f_type f) = true /\ f_kind f = PrimitiveField) \/
  (primitive_name (f_type f) = false /\ is_array (f_type f) /\ f_kind f = ArrayField) \/
  (f_type f = "*" /\ f_requires f = [] /\ f_kind f = CustomField) \/
  (f_type f = "*" /\ (exists r rs, f_requires f = r :: rs /\ is_container r) /\ f_kind f = RestrictedField) \/
  (primitive_name (f_type f) = false /\ is_no_array (f_type f) /\ f_type f <> "*" /\ f_kind f = CompositeField).
Definition accepted_field (t : tree) (f : field) : Prop := exists body rs, coded 4 t body /\
  part_is 0 body (says (f_name f)) /\ part_is 1 body (says (f_type f)) /\ part_is 2 body (strings rs) /\
  f_requires f = (if primitive_name (f_type f) then [] else rs) /\
  part_is 3 body (says_or_null (f_default f)) /\ part_is 4 body (says_or_null (f_label f)) /\
  part_is 5 body (truth (f_mandatory f)) /\ part_is 6 body (truth (f_multiple f)) /\ property_fits f.

Definition accepted_fingerprint (fp : string) (t : tree) : Prop := exists body, coded 3 t body /\
  part_is 0 body (fun p => tree_atom p = ASymbol fp).
Definition accepted_choice (c : string) (t : tree) : Prop := exists body, coded 7 t body /\ part_is 0 body (says c).

Definition accepted_class (t : tree) (c : composite) : Prop := exists body, coded 5 t body /\
  part_is 0 body (says (c_name c)) /\ part_is 1 body (says_or_null (c_label c)) /\ part_is 2 body (strings (c_provides c)) /\
  part_is 3 body (accepted_fingerprint (c_descriptor c)) /\
  part_is 4 body (fun p => Forall2 accepted_field (tree_children p) (c_fields c)).

(** The kind of container goes with its source, its constants and its name. *)
Definition kind_fits (choices : list string) (r : restricted) : Prop :=
  (r_source r = "map" /\ r_kind r = map_t /\ exists m k v, map_parts (r_name r) = Some (m, k, v) /\ r_of r = [k; v]) \/
  (r_source r = "list" /\ choices <> [] /\ r_kind r = enum_t /\ r_choices r = choices) \/
  (r_source r = "list" /\ choices = [] /\ is_array (r_name r) /\ r_kind r = array_t /\
    r_of r = [unboxed_name (array_part (r_name r))]) \/
  (r_source r = "list" /\ choices = [] /\ is_no_array (r_name r) /\ r_kind r = list_t /\
    r_of r = [snd (list_parts (r_name r))]).
Definition accepted_container (t : tree) (r : restricted) : Prop := exists body name choices, coded 6 t body /\
  part_is 0 body (calls name) /\ r_name r = makePrim name /\
  part_is 1 body (calls_or_null (r_label r)) /\ part_is 2 body (strings (r_provides r)) /\
  part_is 3 body (calls (r_source r)) /\ part_is 4 body (accepted_fingerprint (r_descriptor r)) /\
  part_is 5 body (fun p => Forall2 accepted_choice choices (tree_children p)) /\
  kind_fits choices r.

Definition accepted_type (t : tree) (x : notation) : Prop :=
  match x with TComposite c => accepted_class t c | TRestricted r => accepted_container t r end.

(** All types of all groups, in some order. *)
Definition accepted_schema (t : tree) (s : schema) : Prop := exists body xs, coded 2 t body /\
  Forall2 accepted_type (flat_map tree_children (tree_children body)) xs /\ Permutation (List.concat (s_types s)) xs.

Definition accepted_envelope (t : tree) (e : envelope) : Prop := exists body, coded 1 t body /\
  part_is 0 body (fun p => tree_atom p = ADescribed /\ part_is 0 p (fun q => tree_atom q = ASymbol (e_descriptor e))) /\
  part_is 1 body (fun p => accepted_schema p (e_schema e)).

(** The other elements are not read. *)
Definition accepted_other (t : tree) : Prop := exists code body, In code [8; 9; 10; 11]%N /\ coded code t body.

Definition accepted (t : tree) (e : element) : Prop :=
  match e with
  | EEnvelope x => accepted_envelope t x
  | ESchema s => accepted_schema t s
  | EDescriptor fp => accepted_fingerprint fp t
  | EField f => accepted_field t f
  | EType x => accepted_type t x
  | EChoice c => accepted_choice c t
  | ENull => accepted_other t
  end.
