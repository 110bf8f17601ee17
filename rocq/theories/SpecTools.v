(** Specification for the command-line tools: how a run may end, and files that
    hold serialised objects. *)
From Verif Require Import Base Proton CordaFile SpecReaders Writer SpecWriter SpecSchemaDump Tools.
Import List ListNotations.
Open Scope string_scope.

(** The run prints this line and reports success. *)
Definition shows (r : result) (s : string) : Prop := r = Exit 0 (s ++ newline) false.
(** The run reports failure and prints nothing on standard output (debug lines
    of the library apart, here and below). *)
Definition fails (r : result) : Prop := exists said, r = Exit 1 "" said.
(** It also says why. *)
Definition complains (r : result) : Prop := r = Exit 1 "" true.

(** The file made from a blob ([encode] is proton's encoder). *)
Definition saved (encode : list tree -> string) (blob : data) : file := toFile (of_blob (encode (forest blob))).

(** Proton decodes what it has encoded. *)
Definition decodes (decode : string -> option tree) (encode : list tree -> string) (blob : data) : Prop :=
  exists t, forest blob = [t] /\ decode (encode [t]) = Some t.

(** An object as the raw dumper should show it; maps are left out (C52). *)
Definition value_atom (v : prim_value) : atom :=
  match v with
  | OfInt z => AInt z
  | OfLong z => ALong z
  | OfDouble b => ADouble b
  | OfBool b => ABool b
  | OfString s => AString s
  | OfFloat b => AFloat b
  | OfChar z => AChar (Z.to_N (if (z <? 0)%Z then z + 2 ^ 32 else z))
  end.
Fixpoint as_raw (i : item) : raw :=
  match i with
  | IPrim v => RawValue (value_atom v)
  | IPrimPtr _ (Some v) => RawValue (value_atom v)
  | IPrimPtr _ None => RawValue ANull
  | IObject _ fp ps => RawDescribed fp (map (fun p => as_raw (snd (snd p))) ps)
  | IVector _ fp es => RawDescribed fp (map as_raw es)
  | IMap _ fp kvs => RawList []
  | IPointer (Some o) => as_raw o
  | IPointer None => RawValue ANull
  end.
Fixpoint without_maps (i : item) : Prop :=
  match i with
  | IPrim _ | IPrimPtr _ _ | IPointer None => True
  | IObject _ _ ps => fold_right (fun p P => without_maps (snd (snd p)) /\ P) True ps
  | IVector _ _ es => fold_right (fun e P => without_maps e /\ P) True es
  | IMap _ _ _ => False
  | IPointer (Some o) => without_maps o
  end.

(** The fingerprint of an object. *)
Definition fingerprint (i : item) : string :=
  match i with IObject _ fp _ | IVector _ fp _ | IMap _ fp _ => fp | _ => "" end.
