(** Specification of a dependency order on groups of things. *)
From Coq Require Import List.
From Verif Require Import Base.
Import ListNotations.

(** [x] is in the [n]-th group. *)
Definition in_group {T} (x : T) (n : nat) (groups : list (list T)) : Prop :=
  exists g, nth_error groups n = Some g /\ In x g.

(** Everything is in a strictly later group than what it depends on. *)
Definition dependency_order {T} (depends : T -> T -> Prop) (groups : list (list T)) : Prop :=
  forall x y n m, in_group x n groups -> in_group y m groups -> depends x y -> m < n.

(** Members of one group do not depend on each other. *)
Definition independent_groups {T} (depends : T -> T -> Prop) (groups : list (list T)) : Prop :=
  forall x y n, in_group x n groups -> in_group y n groups -> ~ depends x y.

(** The arrival order lists dependencies first / last. *)
Definition dependencies_first {T} (depends : T -> T -> Prop) (arrivals : list T) : Prop :=
  forall l x r y, arrivals = l ++ x :: r -> In y r -> ~ depends x y.
Definition dependencies_last {T} (depends : T -> T -> Prop) (arrivals : list T) : Prop :=
  forall l x r y, arrivals = l ++ x :: r -> In y r -> ~ depends y x.

(** [x] depends on [y], directly or through members of [among]. *)
Inductive leads {T} (depends : T -> T -> Prop) (among : list T) : T -> T -> Prop :=
| lead_one x y : depends x y -> leads depends among x y
| lead_more x y z : depends x y -> In y among -> leads depends among y z -> leads depends among x z.

(** Whoever arrives between two earlier arrivals, one that depends on it and one
    it depends on, finds that the former depended on the latter already.  Both
    orders above are cases of this: there nobody ever arrives in between. *)
Definition bridged {T} (depends : T -> T -> Prop) (arrivals : list T) : Prop :=
  forall l p r x y, arrivals = l ++ p :: r -> In x l -> In y l ->
    depends x p -> depends p y -> leads depends l x y.

(** No dependency cycle. *)
Inductive reaches {T} (depends : T -> T -> Prop) : T -> T -> Prop :=
| reach_one x y : depends x y -> reaches depends x y
| reach_more x y z : depends x y -> reaches depends y z -> reaches depends x z.
Definition acyclic {T} (depends : T -> T -> Prop) : Prop := forall x, ~ reaches depends x x.

(** The score function reports the relation exactly, for the ordered pair. *)
Definition reports {T} (depends : T -> T -> Prop) (score : T -> T -> res nat) (j p : T) : Prop :=
  (depends p j /\ score j p = Ret 1) \/
  (~ depends p j /\ depends j p /\ score j p = Ret 2) \/
  (~ depends p j /\ ~ depends j p /\ score j p = Ret 0).
