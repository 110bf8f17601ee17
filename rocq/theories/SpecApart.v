(** What can be told from the text that inspection gives of an object. *)
From Verif Require Import Base Schema SpecSchema SpecReaders.
Import List ListNotations.
Open Scope string_scope.

Section Alike.
(** How doubles are written. *)
Context (double : N -> string).

(** Two values of the same shape that differ at most in what is not shown: the
    content of binary values of the same size, digits of doubles that are cut off, and
    the ordinal of an enum constant. *)
Inductive indistinct : value -> value -> Prop :=
| indistinct_int z : indistinct (VInt z) (VInt z)
| indistinct_long z : indistinct (VLong z) (VLong z)
| indistinct_double a b : double a = double b -> indistinct (VDouble a) (VDouble b)
| indistinct_boolean b : indistinct (VBoolean b) (VBoolean b)
| indistinct_string s : indistinct (VString s) (VString s)
| indistinct_binary s s' : String.length s = String.length s' -> indistinct (VBinary s) (VBinary s')
| indistinct_null : indistinct VNull VNull
| indistinct_object fp ps qs : Forall2 (fun p q => fst p = fst q /\ indistinct (snd p) (snd q)) ps qs -> indistinct (VObject fp ps) (VObject fp qs)
| indistinct_list fp vs ws : Forall2 indistinct vs ws -> indistinct (VList fp vs) (VList fp ws)
| indistinct_map fp vs ws : Forall2 (fun a b => indistinct (fst a) (fst b) /\ indistinct (snd a) (snd b)) vs ws -> indistinct (VMap fp vs) (VMap fp ws)
| indistinct_enum fp c o o' : indistinct (VEnum fp c o) (VEnum fp c o').
End Alike.

(** Texts without blanks and commas. *)
Definition word (s : string) : Prop := s <> "" /\ ~ In " "%char (list_ascii_of_string s) /\ ~ In ","%char (list_ascii_of_string s).
(** The constants of enums are words. *)
Definition constants_are_words (ts : list notation) : Prop :=
  forall r c, In (TRestricted r) ts -> r_kind r = enum_t -> In c (r_choices r) -> word c.
(** No string in the value has a quotation mark in it. *)
Fixpoint without_quotes (v : value) : Prop :=
  match v with
  | VString s => ~ In """"%char (list_ascii_of_string s)
  | VObject _ ps => fold_right (fun p P => without_quotes (snd p) /\ P) True ps
  | VList _ es => fold_right (fun v P => without_quotes v /\ P) True es
  | VMap _ kvs => fold_right (fun kv P => without_quotes (fst kv) /\ without_quotes (snd kv) /\ P) True kvs
  | _ => True
  end.
