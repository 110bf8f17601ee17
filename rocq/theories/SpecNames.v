(** What the parts of a type name are, for any text at all: a specification on
    characters, without positions, and independent of the model's parsers. *)
From Coq Require Import List String Ascii Arith ZArith.
From Verif Require Import SpecTypes.
Import ListNotations.
Open Scope bool_scope.
Open Scope string_scope.

(** The text before the first [c], everything if there is none. *)
Fixpoint up_to (c : ascii) (s : string) : string :=
  match s with
  | EmptyString => ""
  | String d s' => if Ascii.eqb d c then "" else String d (up_to c s')
  end.
(** The text after the first [c], if there is one. *)
Fixpoint past (c : ascii) (s : string) : option string :=
  match s with
  | EmptyString => None
  | String d s' => if Ascii.eqb d c then Some s' else past c s'
  end.
(** The arguments: what follows the first opening bracket, or else everything. *)
Definition arguments (s : string) : string := match past "<" s with Some t => t | None => s end.
Fixpoint but_last (s : string) : string :=
  match s with
  | EmptyString => ""
  | String c EmptyString => ""
  | String c s' => String c (but_last s')
  end.
Fixpoint unindented (s : string) : string :=
  match s with
  | String c s' => if Ascii.eqb c " " then unindented s' else s
  | EmptyString => ""
  end.

(** The texts before and after the first comma outside brackets; [open] is the number
    of brackets open, negative if more were closed than opened. *)
Fixpoint at_comma (open : Z) (s : string) : option (string * string) :=
  match s with
  | EmptyString => None
  | String c s' =>
      if Ascii.eqb c "," && Z.eqb open 0 then Some ("", s')
      else
        let open' := if Ascii.eqb c "<" then Z.succ open else if Ascii.eqb c ">" then Z.pred open else open in
        match at_comma open' s' with
        | Some (x, y) => Some (String c x, y)
        | None => None
        end
  end.

(** A list's name and its element type. The last character, whatever it is, is taken
    for the closing bracket. *)
Definition list_parts (s : string) : string * string :=
  (unboxed_name (up_to "<" s), unboxed_name (but_last (arguments s))).
(** A map's name, its key type and its value type; [None] if there is no comma to
    separate them, which ends in std::out_of_range. *)
Definition map_parts (s : string) : option (string * string * string) :=
  match at_comma 0 (arguments s) with
  | Some (k, v) => Some (up_to "<" s, unboxed_name (unindented k), unboxed_name (unindented (but_last v)))
  | None => None
  end.
(** An array's element type. *)
Definition array_part (s : string) : string := up_to "[" s.

(** Lists and maps are told by how their name begins. *)
Definition list_name (s : string) : bool := String.prefix "java.util.List" s.
Definition map_name (s : string) : bool := String.prefix "java.util.Map" s.

(** Arrays are told by how their name ends; the names that are too short to tell are
    not settled. *)
Definition is_array (s : string) : Prop := finishes_with "[]" s \/ finishes_with "[p]" s.
Definition is_no_array (s : string) : Prop := ~ is_array s /\ s <> "" /\ s <> "]" /\ s <> "p]".
Definition is_container (s : string) : Prop :=
  is_array s \/ begins_with "java.util.List" s \/ begins_with "java.util.Map" s.

(** All types mentioned in a type name, outermost first.  No rule applies to a name
    with a map in it that has no comma. *)
Inductive names_in : string -> list string -> Prop :=
| m_list s a e l : list_name s = true -> list_parts s = (a, e) -> names_in e l -> names_in s (s :: l)
| m_map s a k v lk lv : list_name s = false -> map_name s = true -> map_parts s = Some (a, k, v) ->
    names_in k lk -> names_in v lv -> names_in s (s :: lk ++ lv)
| m_other s : list_name s = false -> map_name s = false -> names_in s [s].
(** The same as a function; [b] bounds the nesting, any bound greater than the length
    will do. *)
Fixpoint mentioned (b : nat) (s : string) : option (list string) :=
  match b with
  | 0 => None
  | S b' =>
      if list_name s then
        match mentioned b' (snd (list_parts s)) with Some l => Some (s :: l) | None => None end
      else if map_name s then
        match map_parts s with
        | Some (_, k, v) =>
            match mentioned b' k, mentioned b' v with Some lk, Some lv => Some (s :: lk ++ lv)%list | _, _ => None end
        | None => None
        end
      else Some [s]
  end.
Definition all_mentioned (s : string) : option (list string) := mentioned (S (String.length s)) s.

(** ** Normalising a name *)

(** [m] is [b] up to characters where [b] has a dot; such a character may be any but
    the two that end a line. *)
Fixpoint resembles (b m : string) : Prop :=
  match b, m with
  | EmptyString, EmptyString => True
  | String x b', String y m' =>
      (if Ascii.eqb x "." then y <> "010"%char /\ y <> "013"%char else x = y) /\ resembles b' m'
  | _, _ => False
  end.
(** From left to right, every text that resembles [b] and does not overlap one already
    replaced is replaced by [u]. *)
Inductive replaced (b u : string) : string -> string -> Prop :=
| r_done s : (forall l m r, s = l ++ m ++ r -> ~ resembles b m) -> replaced b u s s
| r_step l m r r' : resembles b m -> (forall l' m' r', l ++ m ++ r = l' ++ m' ++ r' -> resembles b m' -> String.length l <= String.length l') ->
    replaced b u r r' -> replaced b u (l ++ m ++ r) (l ++ u ++ r').
(** One boxed name after the other, in alphabetical order. *)
Inductive replaced_all : list (string * string) -> string -> string -> Prop :=
| ra_nil s : replaced_all [] s s
| ra_cons b u l s s' s'' : replaced b u s s' -> replaced_all l s' s'' -> replaced_all ((b, u) :: l) s s''.
Definition in_order : list (string * string) :=
  [ ("java.lang.Boolean", "bool"); ("java.lang.Byte", "char"); ("java.lang.Character", "char"); ("java.lang.Double", "double");
    ("java.lang.Float", "float"); ("java.lang.Integer", "int"); ("java.lang.Long", "long"); ("java.lang.Short", "short") ].
