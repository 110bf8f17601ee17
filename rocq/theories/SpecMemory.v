(** Specification for memory: how many trees of proton a schema is made of. *)
From Verif Require Import Base SpecDescriptors Memory.
Import List ListNotations.

(** The properties that the classes of a schema have, together. *)
Definition properties_in (ts : list wire_type) : nat :=
  fold_right (fun t n => match t with WClass c => List.length (wc_fields c) | WContainer _ => 0 end + n) 0 ts.

(** [n] more trees. *)
Definition more_trees (n : nat) (h : heap) : heap := Heap (n + trees h) (buffers h).

(** Nothing was released, or was made and not released. *)
Definition unchanged (h h' : heap) : Prop := trees h' = trees h /\ buffers h' = buffers h.
