(** Specification for telling saved objects apart: when two objects are the
    same. *)
From Verif Require Import Base Proton Writer SpecWriter.
Import List ListNotations.
Open Scope string_scope.

(** The same classes, properties, elements and values, in the same order; null
    pointers in the same places. *)
Inductive same : item -> item -> Prop :=
| same_prim v : same (IPrim v) (IPrim v)
| same_prim_ptr t v : same (IPrimPtr t v) (IPrimPtr t v)
| same_object n fp ps qs :
    Forall2 (fun p q => fst p = fst q /\ same (snd (snd p)) (snd (snd q))) ps qs ->
    same (IObject n fp ps) (IObject n fp qs)
| same_vector n fp es fs : Forall2 same es fs -> same (IVector n fp es) (IVector n fp fs)
| same_map n fp es fs :
    Forall2 (fun e f => same (fst e) (fst f) /\ same (snd e) (snd f)) es fs ->
    same (IMap n fp es) (IMap n fp fs)
| same_null : same (IPointer None) (IPointer None)
| same_target o p : same o p -> same (IPointer (Some o)) (IPointer (Some p)).

(** Both are serialised, and give the same blob. *)
Definition saved_alike (x y : item) : Prop :=
  exists blob w w', serialise_blob x new_writer = Ok blob w /\ serialise_blob y new_writer = Ok blob w'.

(** An object of a class that writes primitive values under these names. *)
Definition flat_object (n fp : string) (names : list string) (vs : list prim_value) : item :=
  IObject n fp (map (fun nv => (fst nv, ("", IPrim (snd nv)))) (combine names vs)).

(** What shares a name and fingerprint is of one kind. *)
Definition one_kind (x : item) : Prop := forall k a b, In (k, a) (occurrences x) -> In (k, b) (occurrences x) -> a = b.
