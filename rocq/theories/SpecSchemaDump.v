(** What the raw dump of a schema section should look like: an outline with two
    blanks per level. *)
From Coq Require Import DecimalString.
From Verif Require Import Base SpecDescriptors.
Import List ListNotations.
Open Scope string_scope.

Notation line := (nat * string)%type.
Fixpoint margin (depth : nat) : string :=
  match depth with 0 => "" | S n => "  " ++ margin n end.
Definition newline : string := String "010" "".
Definition lay (ls : list line) : string :=
  String.concat "" (map (fun l => margin (fst l) ++ snd l ++ newline) ls).

(** A number in decimal. *)
Definition decimal (z : Z) : string := NilZero.string_of_int (Z.to_int z).
Definition count (n : nat) : string := decimal (Z.of_nat n).
Definition quoted (s : string) : string := String "034" (s ++ String "034" "").
Definition flag (b : bool) : string := if b then "1" else "0".

(** What [f] gives for the first element, the second and so on. *)
Fixpoint numbered {A} (f : nat -> A -> list line) (i : nat) (xs : list A) : list line :=
  match xs with [] => [] | x :: xs' => f i x ++ numbered f (S i) xs' end.

Section Outline.
(** proton's name of the null type *)
Context (null_name : string).

(** A described element at depth [n]: its code, its name, the length of its list and its parts. *)
Definition element_lines (n : nat) (code : N) (name : string) (entries : nat) (parts : list line) : list line :=
  [(n, "DESCRIBED: ");
   (n + 1, "key  : " ++ decimal (Z.of_N (vendor code)) ++ " :: " ++ decimal (Z.of_N code) ++ " -> " ++ name);
   (n + 1, "list : entries: " ++ count entries)] ++ parts.

Definition field_lines (n : nat) (w : wire_field) : list line :=
  element_lines n 4 "FIELD" 7 (
    [(n + 2, "1/7] String: Name: " ++ w_name w);
     (n + 2, "2/7] String: Type: " ++ w_type w);
     (n + 2, "3/7] List: Requires: elements " ++ count (length (w_requires w)))] ++
    map (fun r => (n + 3, r)) (w_requires w) ++
    [(n + 2, "4/7] String: Default: " ++ text (w_default w));
     (n + 2, "5/7] String: Label: " ++ text (w_label w));
     (n + 2, "6/7] Boolean: Mandatory: " ++ flag (w_mandatory w));
     (n + 2, "7/7] Boolean: Multiple: " ++ flag (w_multiple w))]).

Definition fingerprint_lines (n : nat) (fp : string) : list line :=
  element_lines n 3 "OBJECT_DESCRIPTOR" 2
    [(n + 2, "1/2] " ++ fp); (n + 2, "2/2]  1 " ++ null_name)].

Definition class_lines (n : nat) (c : wire_class) : list line :=
  element_lines n 5 "COMPOSITE_TYPE" 5 (
    [(n + 2, "1] String: ClassName: " ++ wc_name c);
     (n + 2, "2] String: Label: " ++ quoted (text (wc_label c)));
     (n + 2, "3] List: Provides: [ " ++
        String.concat "" (map (fun p => margin (n + 2) ++ p ++ " ") (wc_provides c)) ++ "]");
     (n + 2, "4] Descriptor:")] ++
    fingerprint_lines (n + 3) (wc_fingerprint c) ++
    [(n + 2, "5] List: Fields: ")] ++
    numbered (fun i w => (n + 3, count i ++ "/" ++ count (length (wc_fields c)) ++ "]") :: field_lines (n + 4) w)
      1 (wc_fields c)).

(** The constants of an enum are not shown. *)
Definition container_lines (n : nat) (r : wire_container) : list line :=
  element_lines n 6 "RESTRICTED_TYPE" 6 (
    [(n + 2, "1] String: Name: " ++ wr_name r);
     (n + 2, "2] String: Label: " ++ text (wr_label r));
     (n + 2, "3] List: Provides: [ " ++ String.concat "" (map (fun p => p ++ " ") (wr_provides r)) ++ "]");
     (n + 2, "4] String: Source: " ++ wr_source r);
     (n + 2, "5] Descriptor:")] ++
    fingerprint_lines (n + 3) (wr_fingerprint r)).

Definition type_lines (n : nat) (t : wire_type) : list line :=
  match t with WClass c => class_lines n c | WContainer r => container_lines n r end.

Definition schema_lines (n : nat) (groups : list (list wire_type)) : list line :=
  element_lines n 2 "SCHEMA" (length groups) (
    numbered (fun i g =>
      (n + 2, count i ++ "/" ++ count (length groups) ++ "] list: entries: " ++ count (length g)) ::
      numbered (fun j t =>
        (n + 3, count i ++ ":" ++ count j ++ "/" ++ count (length g) ++ "] ") :: type_lines (n + 4) t) 1 g)
      1 groups).

(** [more] is the number of elements after the payload and the schema. *)
Definition envelope_lines (fp : string) (groups : list (list wire_type)) (more : nat) : list line :=
  element_lines 0 1 "ENVELOPE" (2 + more) (
    [(2, "1]"); (3, "DESCRIBED: "); (4, "blob: bytes: " ++ count (String.length fp)); (2, "2]")] ++
    schema_lines 3 groups).
End Outline.

(** What there is to know about a type, but for the constants of an enum. *)
Definition property_facts (w : wire_field) : list string :=
  w_name w :: w_type w :: text (w_default w) :: text (w_label w) :: w_requires w.
Definition type_facts (t : wire_type) : list string :=
  match t with
  | WClass c => wc_name c :: wc_fingerprint c :: text (wc_label c) :: wc_provides c ++ flat_map property_facts (wc_fields c)
  | WContainer r => wr_name r :: wr_fingerprint r :: text (wr_label r) :: wr_source r :: wr_provides r
  end.
