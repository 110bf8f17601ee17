(** Specification for the reader factory: what a reader for a schema entry is,
    what an entry needs, and the histories of a factory. *)
From Verif Require Import SpecTypes Base TypeNames Schema SpecSchema Factory.
Import List ListNotations.
Open Scope string_scope.

(** The types an entry names: of its properties, elements, keys and values. *)
Definition named_by (t : notation) (k : string) : Prop :=
  match t with
  | TComposite c => exists fd, In fd (c_fields c) /\ property_type fd = Some k
  | TRestricted r =>
      match r_kind r with
      | list_t | array_t | map_t => In k (r_of r)
      | enum_t => False
      end
  end.

(** [r] is a reader for the entry [t]: one reader per property, in order, each
    the one found under the property's type name; likewise for elements, keys
    and values. *)
Definition reads (f : factory) (t : notation) (r : reader) : Prop :=
  match t with
  | TComposite c => exists ks, r = RComposite (c_name c) ks /\
      Forall2 (fun fd i => exists ty, property_type fd = Some ty /\ byType f ty = Some i) (c_fields c) ks
  | TRestricted x =>
      match r_kind x with
      | list_t => exists e i, r = RList (r_name x) i /\ r_of x = [e] /\ byType f e = Some i
      | array_t => exists e i, r = RArray (r_name x) i /\ r_of x = [e] /\ byType f e = Some i
      | map_t => exists k v i j, r = RMap (r_name x) i j /\ r_of x = [k; v] /\
                   byType f k = Some i /\ byType f v = Some j
      | enum_t => r = REnum (r_name x) (r_choices x)
      end
  end.

(** Serialisers a user can install. *)
Definition is_custom (r : reader) : Prop :=
  match r with RPublicKey | RCustom _ _ => True | _ => False end.

(** Entries are classes and containers, not called like a primitive type. *)
Definition proper (t : notation) : Prop := made t /\ SpecTypes.primitive_name (n_name t) = false.

(** What a user does with a factory. *)
Inductive op : Type :=
| Process (s : schema)
| Install (r : reader).

(** One operation; [careful]: serialisers are installed only for types that have
    none yet. *)
Definition effect (key_first : bool) (o : op) : FM unit :=
  match o with
  | Process s => process key_first s
  | Install r => installCustomSerialiser r
  end.
Definition careful (o : op) (f : factory) : Prop :=
  match o with
  | Process s => Forall proper (List.concat (s_types s))
  | Install r => is_custom r /\ byType f (reader_type r) = None
  end.
Definition steps (key_first : bool) (o : op) (f f' : factory) : Prop :=
  effect key_first o f = Ok tt f' \/ exists e, effect key_first o f = Throw e f'.

(** Some operations in a row, failed ones included. *)
Inductive run (key_first : bool) : list op -> factory -> factory -> Prop :=
| run_nil f : run key_first [] f f
| run_cons o h f f1 f2 : careful o f -> steps key_first o f f1 -> run key_first h f1 f2 ->
    run key_first (o :: h) f f2.

(** The same with none of them failing. *)
Inductive run_well (key_first : bool) : list op -> factory -> factory -> Prop :=
| well_nil f : run_well key_first [] f f
| well_cons o h f f1 f2 : careful o f -> effect key_first o f = Ok tt f1 -> run_well key_first h f1 f2 ->
    run_well key_first (o :: h) f f2.

(** The states of a factory. *)
Definition reachable (key_first : bool) (f : factory) : Prop :=
  exists h, run key_first h new_factory f.

(** No operation has left a null pointer behind. *)
Definition unpoisoned (f : factory) (k : string) : Prop := assoc k (types f) <> Some None.

(** The entries a history mentions. *)
Definition entries_of (h : list op) : list notation :=
  List.concat (map (fun o => match o with Process s => List.concat (s_types s) | Install _ => [] end) h).

(** Readers that a reader refers to, directly or not. *)
Inductive refers (f : factory) (i : nat) : nat -> Prop :=
| refers_self : refers f i i
| refers_kid j r k : refers f i j -> lock f j = Some r -> In k (Factory.kids r) -> refers f i k.

(** Primitive types that have a reader. *)
Definition readable_prim (k : string) : Prop := exists p, k = prim_name p.

(** Equal fingerprints mean equal names. *)
Definition one_name_per_fingerprint (ts : list notation) : Prop :=
  forall t u, In t ts -> In u ts -> n_descriptor t = n_descriptor u -> n_name t = n_name u.

(** Every type the entries name is a readable primitive, the class itself,
    registered already, or described by an earlier entry. *)
Definition complete (f : factory) (ts : list notation) : Prop :=
  forall before t behind k, ts = (before ++ t :: behind)%list -> named_by t k ->
    readable_prim k \/ (is_restricted t -> False) /\ k = n_name t \/ byType f k <> None \/
    exists u, In u before /\ n_name u = k.

(** The same without regard to order. *)
Definition closed (f : factory) (ts : list notation) : Prop :=
  forall t k, In t ts -> named_by t k ->
    readable_prim k \/ byType f k <> None \/ exists u, In u ts /\ n_name u = k.
