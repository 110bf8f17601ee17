(** How high a tree is, and where a cursor stands. *)
From Verif Require Import Base Proton.
Import List ListNotations.

Fixpoint height (t : tree) : nat :=
  let 'Node _ cs := t in S (fold_right (fun t n => Nat.max (height t) n) 0 cs).
Definition heights (cs : list tree) : nat := fold_right (fun t n => Nat.max (height t) n) 0 cs.

(** The cursor is at a value, and not before the first one. *)
Definition isAt (d : data) : Prop := match here d with At _ _ _ => True | Before _ => False end.
(** The value the cursor is at, if any, is no higher than [n]. *)
Definition belowc (n : nat) (d : data) : Prop :=
  match here d with At _ t _ => height t <= n | Before _ => True end.
