(** Specification for saves that do not complete. *)
From Verif Require Import Base Proton CordaFile.
Import List ListNotations.
Open Scope string_scope.

(** The bytes are written in order: if the program or the machine stops, some of
    them are missing at the end. *)
Definition interrupted (whole part : file) : Prop :=
  exists p r, r <> "" /\ whole = File (p ++ r) /\ part = File p.

(** Proton does not take the beginning of an encoded value for a whole one. *)
Definition self_delimiting (decode : string -> option tree) (encode : list tree -> string) (blob : data) : Prop :=
  forall p r, r <> "" -> encode (forest blob) = p ++ r -> decode p = None.
