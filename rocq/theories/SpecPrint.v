(** Specification for the printed form of schemas. *)
From Verif Require Import Base TypeNames Schema.
Import List ListNotations.
Open Scope string_scope.

(** [c] does not occur in the text. *)
Fixpoint lacks_char (c : ascii) (s : string) : Prop :=
  match s with EmptyString => True | String a s' => a <> c /\ lacks_char c s' end.

(** No line break in a text; and no colon either. *)
Definition one_line (s : string) : Prop := lacks_char "010"%char s.
Definition plain (s : string) : Prop := one_line s /\ lacks_char ":"%char s.

(** A text consisting of the given lines, each ended by a line break. *)
Inductive has_lines : string -> list string -> Prop :=
| no_lines : has_lines "" []
| a_line l s ls : one_line l -> has_lines s ls -> has_lines (l ++ String "010" s) (l :: ls).

(** The line for a type: its name, and 0 for a class, 1 for a restricted type. *)
Definition type_line (t : notation) : string :=
  n_name t ++ match t with TComposite _ => " 0" | TRestricted _ => " 1" end.

(** Class and restricted types apart. *)
Definition is_class (t : notation) : bool :=
  match t with TComposite _ => true | TRestricted _ => false end.

(** What can be read off the text of a property, a class and a restricted type. *)
Definition property_seen (f : field) : string * string * string :=
  (f_name f, f_type f, String.concat "" (f_requires f)).
Definition class_seen (c : composite) : string * string * string * list (string * string * string) :=
  (c_name c, c_label c, c_descriptor c, map property_seen (c_fields c)).
Definition restricted_seen (r : restricted)
  : string * string * string * restricted_kind * list string :=
  (r_name r, r_label r, r_descriptor r, r_kind r, r_provides r).

(** Texts that fit on the lines of the printed form. *)
Definition printable_property (f : field) : Prop :=
  plain (f_name f) /\ plain (f_type f) /\ Forall one_line (f_requires f).
Definition printable_class (c : composite) : Prop :=
  one_line (c_name c) /\ one_line (c_label c) /\ one_line (c_descriptor c) /\
  Forall printable_property (c_fields c).
Definition printable_restricted (r : restricted) : Prop :=
  one_line (r_name r) /\ one_line (r_label r) /\ one_line (r_descriptor r) /\
  Forall one_line (r_provides r).

(** ** The lines *)

(** A property: name, type, and the names it requires, one after the other. *)
Definition property_text (f : field) : string :=
  f_name f ++ " : " ++ f_type f ++ " : [" ++ String.concat "" (f_requires f) ++ "]".

(** A class: the first property is on the line that announces the properties, the
    others are indented; an empty line, indented, follows the last. *)
Definition class_lines (c : composite) : list string :=
  ("name       : " ++ c_name c) :: ("label      : " ++ c_label c) :: ("descriptor : " ++ c_descriptor c) ::
  map (fun p => fst p ++ snd p)
      (combine ("fields     : " :: repeat "             " (List.length (c_fields c)))
               (map property_text (c_fields c) ++ [""])%list).

Definition kind_word (k : restricted_kind) : string :=
  match k with list_t => "list" | map_t => "map" | enum_t => "enum" | array_t => "array" end.

Definition restricted_lines (r : restricted) : list string :=
  ("name       : " ++ r_name r) :: ("label      : " ++ r_label r) :: ("descriptor : " ++ r_descriptor r) ::
  ("source     : " ++ kind_word (r_kind r)) :: "provides   : [" ::
  (map (String.append "              ") (r_provides r) ++ ["             ]"])%list.

(** Levels: numbered from one; an empty line after each. *)
Definition level_lines (number : nat -> string) (names : list (list string)) : list string :=
  List.concat
    (map (fun l => ("level " ++ number (fst l)) :: (map (String.append "    * ") (snd l) ++ [""])%list)
         (combine (seq 1 (List.length names)) names)).
