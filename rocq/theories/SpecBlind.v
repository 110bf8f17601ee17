(** Blobs that differ only in the contents of their binary values. *)
From Verif Require Import Base Proton.
Import List ListNotations.
Open Scope string_scope.

(** As many zero bytes. *)
Fixpoint zeros (s : string) : string :=
  match s with
  | EmptyString => EmptyString
  | String _ s' => String "000" (zeros s')
  end.
(** A binary value with its contents wiped: all of it, or all but its length. *)
Definition wiped (a : atom) : atom := match a with ABinary _ => ABinary "" | _ => a end.
Definition zeroed (a : atom) : atom := match a with ABinary s => ABinary (zeros s) | _ => a end.

(** The same for every value in some data. *)
Section Change.
Context (g : atom -> atom).
Fixpoint change (t : tree) : tree := let 'Node a cs := t in Node (g a) (map change cs).
Definition change_pos (p : pos) : pos :=
  match p with
  | Before cs => Before (map change cs)
  | At l t r => At (map change l) (change t) (map change r)
  end.
Definition change_frame (f : frame) : frame := Frame (map change (fl f)) (g (fa f)) (map change (fr f)).
Definition change_data (d : data) : data := Data (change_pos (here d)) (map change_frame (ups d)).
Definition change_outcome {A} (o : outcome data A) : outcome data A :=
  match o with
  | Ok a d => Ok a (change_data d)
  | Throw e d => Throw e (change_data d)
  | Abort => Abort | UB => UB | Fuel => Fuel
  end.
(** Code that makes no difference between what [g] makes equal. *)
Definition blind {A} (m : PM A) : Prop := forall d, m (change_data d) = change_outcome (m d).
End Change.

(** The same data but for the contents of binary values, and for their lengths
    too. *)
Definition same_but_binary (d d' : data) : Prop := change_data zeroed d = change_data zeroed d'.
Definition same_but_binaries (d d' : data) : Prop := change_data wiped d = change_data wiped d'.

(** What the caller gets. *)
Inductive answer (A : Type) : Type := Returns (a : A) | Throws (e : exn) | Crashes | Undefined | Endless.
Arguments Returns {A} a.
Arguments Throws {A} e.
Arguments Crashes {A}.
Arguments Undefined {A}.
Arguments Endless {A}.
Definition answer_of {S A} (o : outcome S A) : answer A :=
  match o with
  | Ok a _ => Returns a | Throw e _ => Throws e | Abort => Crashes | UB => Undefined | Fuel => Endless
  end.
