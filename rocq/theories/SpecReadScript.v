(** What a program that reads an object gets, written in terms of the tree that was
    received: the current property is read, and then the next one is current. *)
From Verif Require Import Base Proton Writer Deserialise ReadScript SpecAccept SpecReadBack.
Import List ListNotations.
Open Scope string_scope.

(** How something ends. *)
Inductive ending (A : Type) : Type :=
| Got (a : A)
| Thrown (e : exn)
| Undefined.
Arguments Got {A} a.
Arguments Thrown {A} e.
Arguments Undefined {A}.

Section Read.
Context (cs : programs).

(** [meets t o r moves]: what is found in a place is read as a [t] with the result
    [r]; [moves] says if the next property is current afterwards.
    [follows body i p r]: the program [p] is run on the object with the properties
    [body], of which the [i]-th is current (the last if there are not so many), and
    ends with [r]. *)
Inductive meets : ctype -> option tree -> ending object -> bool -> Prop :=
| meets_prim p t v : holds p (tree_atom t) v -> meets (RPrim p false) (Some t) (Got (OPrim v)) true
| meets_prim_pointer p t v : holds p (tree_atom t) v -> meets (RPrim p true) (Some t) (Got (OPrimPtr v)) true
| meets_other_prim p ptr o : (forall t v, o = Some t -> ~ holds p (tree_atom t) v) -> p <> CString ->
    meets (RPrim p ptr) o (Thrown RuntimeError) true
| meets_no_string ptr o : (forall t s, o = Some t -> tree_atom t <> AString s) -> meets (RPrim CString ptr) o Undefined true
(* What is not described, a null pointer for one, stays current. *)
| meets_no_object t o : (forall p ptr, t <> RPrim p ptr) -> (forall u, o = Some u -> tree_atom u <> ADescribed) ->
    meets t o (Thrown RuntimeError) false
| meets_object c t body xs : tree_atom t = ADescribed -> part 1 t = Some body -> tree_atom body = AList ->
    follows body 0 (cs c) (Got xs) -> meets (RClass c false) (Some t) (Got (OClass c xs)) true
| meets_object_pointer c t body xs : tree_atom t = ADescribed -> part 1 t = Some body -> tree_atom body = AList ->
    follows body 0 (cs c) (Got xs) -> meets (RClass c true) (Some t) (Got (OClassPtr c xs)) true
| meets_failing c ptr t body e : tree_atom t = ADescribed -> part 1 t = Some body -> tree_atom body = AList ->
    follows body 0 (cs c) (Thrown e) -> meets (RClass c ptr) (Some t) (Thrown e) true
| meets_undefined c ptr t body : tree_atom t = ADescribed -> part 1 t = Some body -> tree_atom body = AList ->
    follows body 0 (cs c) Undefined -> meets (RClass c ptr) (Some t) Undefined true
| meets_vector ptr t body : tree_atom t = ADescribed -> part 1 t = Some body -> tree_atom body = AList ->
    (forall e, part 0 body = Some e -> tree_atom e <> AList) -> meets (RVector ptr) (Some t) (Thrown RuntimeError) true
| meets_list_in_vector ptr t body e : tree_atom t = ADescribed -> part 1 t = Some body -> tree_atom body = AList ->
    part 0 body = Some e -> tree_atom e = AList -> meets (RVector ptr) (Some t) Undefined true
with follows : tree -> nat -> program -> ending (list object) -> Prop :=
| follows_make body i xs : follows body i (Make xs) (Got xs)
| follows_fail body i e : follows body i (Fail e) (Thrown e)
| follows_get body i t k x m r : meets t (part i body) (Got x) m ->
    follows body (if m then S i else i) (k x) r -> follows body i (Get t k) r
| follows_get_thrown body i t k e m : meets t (part i body) (Thrown e) m -> follows body i (Get t k) (Thrown e)
| follows_get_undefined body i t k m : meets t (part i body) Undefined m -> follows body i (Get t k) Undefined
| follows_try body i t k h x m r : meets t (part i body) (Got x) m ->
    follows body (if m then S i else i) (k x) r -> follows body i (Attempt t k h) r
| follows_catch body i t k h e m r : meets t (part i body) (Thrown e) m ->
    follows body (if m then S i else i) (h e) r -> follows body i (Attempt t k h) r
| follows_try_undefined body i t k h m : meets t (part i body) Undefined m -> follows body i (Attempt t k h) Undefined.
End Read.

(** Whatever is described, at any depth, is a list: so it is for objects without
    maps. *)
Fixpoint tidy (t : tree) : Prop :=
  (tree_atom t = ADescribed -> exists body, part 1 t = Some body /\ tree_atom body = AList) /\
  (fix all (ts : list tree) : Prop := match ts with [] => True | t' :: ts' => tidy t' /\ all ts' end)
    (let '(Node _ cs) := t in cs).

(** How deserialising ends. *)
Definition ends_as (o : outcome data object) (r : ending object) : Prop :=
  match r with
  | Got x => exists d, o = Ok x d
  | Thrown e => exists d, o = Throw e d
  | Undefined => o = UB
  end.
