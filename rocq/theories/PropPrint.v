(** C85: the printed form of schemas, and what can be read off it. *)
From Verif Require Import Base TypeNames Ordering Schema Readers Print SpecPrint PrintProofs.
Import List ListNotations.
Open Scope string_scope.

(** A printed schema has one line per type, in order. *)
Theorem C85_schema_lines : forall s,
  Forall (fun t => one_line (n_name t)) (List.concat (s_types s)) ->
  has_lines (print_envelope s) (map type_line (List.concat (s_types s))).
Proof. exact schema_lines. Qed.

(** Two schemas print the same just when they list the same names, of the same
    kind, in the same order. *)
Theorem C85_schema : forall s s',
  Forall (fun t => one_line (n_name t)) (List.concat (s_types s)) ->
  Forall (fun t => one_line (n_name t)) (List.concat (s_types s')) ->
  (print_schema s = print_schema s' <->
   map (fun t => (n_name t, is_class t)) (List.concat (s_types s)) =
   map (fun t => (n_name t, is_class t)) (List.concat (s_types s'))).
Proof. exact schema_same. Qed.

(** The levels are numbered from one; under each are its names. *)
Theorem C85_level_lines : forall T (name : T -> string) l,
  Forall (Forall (fun t => one_line (name t))) l ->
  has_lines (print_levels name l) (level_lines (fun n => dec (Z.of_nat n)) (map (map name) l)).
Proof. exact @levels_lines. Qed.

(** The lines of a type.  (The text of a class does not end its last line.) *)
Theorem C85_type_lines : forall t,
  match t with TComposite c => printable_class c | TRestricted r => printable_restricted r end ->
  match t with
  | TComposite c => has_lines (print_notation t ++ eol) (class_lines c)
  | TRestricted r => has_lines (print_notation t) (restricted_lines r)
  end.
Proof. exact type_lines_ok. Qed.

(** The printed levels are the same just when the levels hold the same names in
    the same order. *)
Theorem C85_levels : forall T (name : T -> string) l l',
  Forall (Forall (fun t => one_line (name t))) l -> Forall (Forall (fun t => one_line (name t))) l' ->
  (print_levels name l = print_levels name l' <-> map (map name) l = map (map name) l').
Proof. exact @levels_same. Qed.

(** Two types print the same just when they are of one kind and agree in what
    [class_seen] or [restricted_seen] lists. *)
Theorem C85_types : forall t u,
  match t with TComposite c => printable_class c | TRestricted r => printable_restricted r end ->
  match u with TComposite c => printable_class c | TRestricted r => printable_restricted r end ->
  (print_notation t = print_notation u <->
   match t, u with
   | TComposite c, TComposite d => class_seen c = class_seen d
   | TRestricted r, TRestricted r' => restricted_seen r = restricted_seen r'
   | _, _ => False
   end).
Proof. exact notation_same. Qed.

(** The rest is lost: the printed form does not tell types apart. *)
Definition wide (requires : list string) (mandatory : bool) : notation :=
  TComposite {| c_name := "net.A"; c_label := ""; c_provides := []; c_descriptor := "net.corda:1";
                c_fields := [ {| f_kind := CustomField; f_name := "x"; f_type := "*"; f_requires := requires;
                                 f_default := ""; f_label := ""; f_mandatory := mandatory; f_multiple := false;
                                 f_subTypes := [] |} ] |}.
Definition colour (choices : list string) : notation :=
  TRestricted {| r_kind := enum_t; r_name := "net.Colour"; r_label := ""; r_provides := []; r_descriptor := "net.corda:2";
                 r_source := "list"; r_of := [""]; r_choices := choices |}.

Theorem C85_types_refuted :
  (print_notation (wide ["net.B"; "net.C"] true) = print_notation (wide ["net.Bnet.C"] true)) /\
  (print_notation (wide ["net.B"] true) = print_notation (wide ["net.B"] false)) /\
  (print_notation (colour ["RED"; "GREEN"]) = print_notation (colour ["BLUE"])).
Proof. repeat split. Qed.

(** ** Cases *)

Definition C85_schema_ex : schema :=
  schema_of [[wide ["net.B"] true]; [colour ["RED"]; wide [] false]].

Example C85_ex_schema :
  Forall (fun t => one_line (n_name t)) (List.concat (s_types C85_schema_ex)) /\
  print_schema C85_schema_ex =
    "net.A 0" ++ eol ++ "net.Colour 1" ++ eol ++ "net.A 0" ++ eol.
Proof. split; [|reflexivity]. repeat constructor; cbn; discriminate. Qed.

Example C85_ex_levels :
  print_levels n_name (s_types C85_schema_ex) =
    "level 1" ++ eol ++ "    * net.A" ++ eol ++ eol ++
    "level 2" ++ eol ++ "    * net.Colour" ++ eol ++ "    * net.A" ++ eol ++ eol.
Proof. reflexivity. Qed.

Example C85_ex_types :
  match wide ["net.B"] true with TComposite c => printable_class c | _ => False end /\
  match colour ["RED"] with TRestricted r => printable_restricted r | _ => False end /\
  print_notation (wide ["net.B"] true) =
    "name       : net.A" ++ eol ++ "label      : " ++ eol ++ "descriptor : net.corda:1" ++ eol ++
    "fields     : x : * : [net.B]" ++ eol ++ "             " /\
  print_notation (colour ["RED"]) =
    "name       : net.Colour" ++ eol ++ "label      : " ++ eol ++ "descriptor : net.corda:2" ++ eol ++
    "source     : enum" ++ eol ++ "provides   : [" ++ eol ++ "             ]" ++ eol.
Proof. repeat split; repeat constructor; cbn; try discriminate. Qed.

Print Assumptions C85_schema_lines.
Print Assumptions C85_schema.
Print Assumptions C85_levels.
Print Assumptions C85_level_lines.
Print Assumptions C85_type_lines.
Print Assumptions C85_types.
Print Assumptions C85_types_refuted.
