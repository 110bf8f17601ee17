(** How the parts of a schema print themselves: the stream operators of
    libs/amqp/src/schema.  The text appended to the stream is modelled; the
    stream is taken to have its default format and never to fail
    (simplification). *)
From Verif Require Import Base TypeNames Ordering Schema Readers.
Import List ListNotations.
Open Scope string_scope.

(** std::endl *)
Definition eol : string := String "010" "".

(** The text of a sequence of outputs. *)
Definition texts (l : list string) : string := fold_right String.append "" l.

(** described-types/field-types/Field.cxx:20-30: the names required are put one
    after the other, nothing between them. *)
Definition print_field (f : field) : string :=
  f_name f ++ " : " ++ f_type f ++ " : [" ++ texts (f_requires f) ++ "]" ++ eol.

(** [std::setw (13) << " "] pads on the left: thirteen blanks. *)
Definition pad13 : string := "             ".

(** described-types/Composite.cxx:15-27 *)
Definition print_composite (c : composite) : string :=
  "name       : " ++ c_name c ++ eol ++
  "label      : " ++ c_label c ++ eol ++
  "descriptor : " ++ c_descriptor c ++ eol ++
  "fields     : " ++
  texts (map (fun f => print_field f ++ pad13) (c_fields c)).

(** restricted-types/Restricted.cxx:47-72 *)
Definition print_kind (k : restricted_kind) : string :=
  match k with list_t => "list" | map_t => "map" | enum_t => "enum" | array_t => "array" end.

(** restricted-types/Restricted.cxx:21-39; m_source is the kind (Restricted.h:61) *)
Definition print_restricted (r : restricted) : string :=
  "name       : " ++ r_name r ++ eol ++
  "label      : " ++ r_label r ++ eol ++
  "descriptor : " ++ r_descriptor r ++ eol ++
  "source     : " ++ print_kind (r_kind r) ++ eol ++
  "provides   : [" ++ eol ++
  texts (map (fun p => "              " ++ p ++ eol) (r_provides r)) ++
  "             ]" ++ eol.

(** AMQPTypeNotation.cxx:23-36 *)
Definition print_notation (t : notation) : string :=
  match t with TComposite c => print_composite c | TRestricted r => print_restricted r end.

(** Type (AMQPTypeNotation.h:40) is an unscoped enumeration without a stream
    operator of its own: its number is printed. *)
Definition type_number (t : notation) : Z :=
  match t with TComposite _ => 0%Z | TRestricted _ => 1%Z end.

(** described-types/Schema.cxx:21-31 *)
Definition print_schema (s : schema) : string :=
  texts (map (fun group => texts (map (fun t => n_name t ++ " " ++ dec (type_number t) ++ eol) group))
             (s_types s)).

(** described-types/Envelope.cxx:10-17 *)
Definition print_envelope (s : schema) : string := print_schema s.

(** OrderedTypeNotations.h:84-100: the lists, numbered from one.  The number is
    an int that does not overflow (simplification). *)
Fixpoint print_levels_from {T} (name : T -> string) (idx : Z) (levels : list (list T)) : string :=
  match levels with
  | [] => ""
  | level :: rest =>
      "level " ++ dec (idx + 1) ++ eol ++
      texts (map (fun j => "    * " ++ name j ++ eol) level) ++
      eol ++ print_levels_from name (idx + 1) rest
  end.
(** OrderedTypeNotations.h:84-100 *)
Definition print_levels {T} (name : T -> string) (levels : list (list T)) : string :=
  print_levels_from name 0 levels.
