(** Serialisers installed by the user, as inspection sees them. *)
From Verif Require Import Base Proton TypeNames Schema SpecSchema Factory SpecFactory Readers SpecAccept SpecDisplay.
Import List ListNotations.
Open Scope string_scope.

(** [tells which named o x]: the serialiser accepts what it finds and shows [x].
    It does nothing else than read that value. *)
Definition custom_as (custom : nat -> option string -> PM ivalue) (tells : nat -> bool -> option tree -> string -> Prop) : Prop :=
  forall which name d, on_level d ->
  (forall v d', custom which name d = Ok v d' -> d' = pn_next d /\ exists x, show v = labelled name x /\ tells which (is_named name) (view d) x) /\
  (forall x, tells which (is_named name) (view d) x -> exists v, custom which name d = Ok v (pn_next d) /\ show v = labelled name x).

(** A public key: something described, with bytes. *)
Definition public_key (o : option tree) : Prop :=
  exists t, o = Some t /\ tree_atom t = ADescribed /\ part_is 1 t (fun p => exists s, tree_atom p = ABinary s).

(** After the operations [h]. *)
Definition installed_by (tells : nat -> bool -> option tree -> string -> Prop) (h : list op) (ty : string) (named : bool) (o : option tree) (x : string) : Prop :=
  exists r, In (Install r) h /\ reader_type r = ty /\
  match r with
  | RPublicKey => named = true /\ public_key o /\ x = "<<<Public Key>>>"
  | RCustom _ which => tells which named o x
  | _ => False
  end.

(** Every type the entries name is a primitive, has an entry, or has a serialiser
    installed. *)
Definition covered (h : list op) (ts : list notation) : Prop :=
  forall t k, In t ts -> named_by t k ->
    readable_prim k \/ (exists u, In u ts /\ n_name u = k) \/ exists r, In (Install r) h /\ reader_type r = k.
