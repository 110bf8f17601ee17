(** Which payloads the raw dump accepts, and what it shows of them, written
    independently of the code.  It is lenient: see SpecAccept.v for parts that are
    missing or surplus.  For maps it is odd: of every three parts in a row it shows
    the second as if it were of the first's kind, and the third as if it were of
    the second's (C52). *)
From Verif Require Import Base Proton SpecReaders SpecAccept SpecDisplay.
Import List ListNotations.
Open Scope string_scope.

Inductive kind : Type := a_list | a_map | a_described | a_single.
Definition kind_of (t : tree) : kind :=
  match tree_atom t with AList => a_list | AMap => a_map | ADescribed => a_described | _ => a_single end.

Section Raw.
(** How numbers are written. *)
Context (double float : N -> string) (numeral : Z -> string).
(** [raw_shows k t x]: taken to be of the kind [k], [t] is shown as [x]. *)
Inductive raw_shows : kind -> tree -> string -> Prop :=
| raw_single t : raw_shows a_single t (raw_value double float numeral (tree_atom t))
| raw_list t xs : tree_atom t = AList -> Forall2 (fun p x => raw_shows (kind_of p) p x) (tree_children t) xs ->
    raw_shows a_list t (in_brackets "<<<Empty List>>>" xs)
| raw_map t xys : tree_atom t = AMap ->
    Forall2 (fun i xy => exists a b c, part (3 * i) t = Some a /\ part (3 * i + 1) t = Some b /\ part (3 * i + 2) t = Some c /\
                         raw_shows (kind_of a) b (fst xy) /\ raw_shows (kind_of b) c (snd xy)) (seq 0 (entries t)) xys ->
    raw_shows a_map t (in_brackets "<<<Empty Map>>>" (map (fun xy => fst xy ++ " : " ++ snd xy) xys))
| raw_described t fp body x : part_is 0 t (calls fp) -> part 1 t = Some body -> kind_of body = a_list \/ kind_of body = a_map ->
    raw_shows (kind_of body) body x -> raw_shows a_described t (fp ++ " : " ++ x).
End Raw.

(** The envelope: described by a number whose lower half is the envelope's. *)
Definition keyed (t : tree) : Prop := part_is 0 t (fun k => exists n, tree_atom k = AULong n /\ (n mod 2 ^ 32 = 1)%N).
Definition in_envelope (t p : tree) : Prop :=
  tree_atom t = ADescribed /\ keyed t /\
  exists body, part 1 t = Some body /\ tree_atom body = AList /\ part 0 body = Some p /\ tree_atom p = ADescribed.
