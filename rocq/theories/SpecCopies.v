(** Specification for the memory of reading: which binary values an object has,
    which schemas have none, and how many pointers are in a C++ object. *)
From Verif Require Import Base Proton TypeNames Schema SpecSchema Factory SpecFactory Readers SpecReaders Writer SpecWriter Deserialise SpecDeserialise.
Import List ListNotations.
Open Scope string_scope.

(** The sizes of the binary values in an object, at any depth, in order. *)
Fixpoint binaries (v : value) : list nat :=
  match v with
  | VBinary s => [String.length s]
  | VObject _ ps => flat_map (fun p => binaries (snd p)) ps
  | VList _ es => flat_map binaries es
  | VMap _ kvs => flat_map (fun kv => binaries (fst kv) ++ binaries (snd kv)) kvs
  | _ => []
  end%list.

(** The type has no binary property, element, key or value. *)
Definition no_binary (t : notation) : Prop :=
  match t with
  | TComposite c => forall fd, In fd (c_fields c) -> f_type fd <> "binary"
  | TRestricted r => ~ In "binary" (r_of r)
  end.

(** The serialisers of the library that copy binary values. *)
Definition copier (r : reader) : bool :=
  match r with RProperty PBinary | RPublicKey => true | _ => false end.

(** Operations on a factory that have nothing to do with binary values. *)
Definition without_binary (o : op) : Prop :=
  match o with
  | Process s => Forall no_binary (List.concat (s_types s))
  | Install r => copier r = false
  end.

(** Whoever owns the object owns this many others. *)
Fixpoint pointers (o : object) : nat :=
  match o with
  | OPrim _ => 0
  | OPrimPtr _ => 1
  | OClass _ ps => list_sum (map pointers ps)
  | OClassPtr _ ps => S (list_sum (map pointers ps))
  end.

(** [abandoned cs bad t i n]: as [first_wrong cs bad t i], and [n] objects were
    made for pointers up to there. *)
Inductive abandoned (cs : classes) (bad : ctype -> item -> Prop) : ctype -> item -> nat -> Prop :=
| abandoned_primitive p i : bad (RPrim p true) i -> abandoned cs bad (RPrim p true) i 1
| abandoned_here t i : bad t i -> (forall p, t <> RPrim p true) -> abandoned cs bad t i 0
| abandoned_inside c n fp ps ts1 t ts2 is1 i is2 os1 k :
    cs c = (ts1 ++ t :: ts2)%list -> values ps = (is1 ++ i :: is2)%list -> back_all cs ts1 is1 os1 ->
    abandoned cs bad t i k ->
    abandoned cs bad (RClass c false) (IObject n fp ps) (list_sum (map pointers os1) + k)
| abandoned_inside_ptr c n fp ps ts1 t ts2 is1 i is2 os1 k :
    cs c = (ts1 ++ t :: ts2)%list -> values ps = (is1 ++ i :: is2)%list -> back_all cs ts1 is1 os1 ->
    abandoned cs bad t i k ->
    abandoned cs bad (RClass c true) (IPointer (Some (IObject n fp ps))) (list_sum (map pointers os1) + k).

(** No pointers in anything a class reads, at any depth. *)
Inductive pointer_free (cs : classes) : ctype -> Prop :=
| free_prim p : pointer_free cs (RPrim p false)
| free_class c : (forall t, In t (cs c) -> pointer_free cs t) -> pointer_free cs (RClass c false)
| free_vector p : pointer_free cs (RVector p).
