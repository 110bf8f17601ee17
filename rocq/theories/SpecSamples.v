(** What inspecting a sample blob shows; one outcome like another. *)
From Verif Require Import Base Proton Schema SpecDescriptors Factory Readers SpecReaders Blob.
Import List ListNotations.
Open Scope string_scope.

(** The blob with one property of type [ty] and value [t] is shown with [x] for the value. *)
Definition prints_as (fmt : N -> string) (custom : nat -> option string -> PM ivalue) (mo kf : bool)
  (fuel : nat) (ty : string) (t : tree) (x : string) : Prop :=
  exists cf, dumpContents fmt custom mo kf fuel (decoded (blob_with ty t), new_factory) = Ok (text_with x) (decoded (blob_with ty t), cf).
(** It is not shown: an exception. *)
Definition refuses (fmt : N -> string) (custom : nat -> option string -> PM ivalue) (mo kf : bool)
  (fuel : nat) (ty : string) (t : tree) : Prop :=
  exists e cf, dumpContents fmt custom mo kf fuel (decoded (blob_with ty t), new_factory) = Throw e (decoded (blob_with ty t), cf).

(** The same result or the same failure, whatever the state is. *)
Definition same_outcome {S A} (o o' : outcome S A) : Prop :=
  match o, o' with
  | Ok a _, Ok b _ => a = b
  | Throw a _, Throw b _ => a = b
  | Abort, Abort | UB, UB | Fuel, Fuel => True
  | _, _ => False
  end.

(** A map from strings to strings with one entry. *)
Definition string_map (a b : string) : value := VMap "net.corda:m" [(VString a, VString b)].
Definition string_map_type : wire_type := WContainer {| wr_name := "java.util.Map<string, string>"; wr_label := None;
  wr_provides := []; wr_source := "map"; wr_fingerprint := "net.corda:m"; wr_choices := [] |}.
