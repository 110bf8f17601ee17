(** Specification for inspecting what was serialised: the value that an object
    stands for, and the objects for which the claim is made. *)
From Coq Require Import Sorting.Sorted.
From Verif Require Import SpecTypes Base Proton TypeNames SpecTypes Schema Factory SpecFactory Readers SpecReaders Blob Writer SpecWriter.
Import List ListNotations.
Open Scope string_scope.

(** The value (SpecReaders.v) of an object.  Floats and characters have none
    that can be inspected; they are excluded by [inspectable]. *)
Definition prim_shown (v : prim_value) : value :=
  match v with
  | OfInt z => VInt z
  | OfLong z => VLong z
  | OfDouble b => VDouble b
  | OfBool b => VBoolean b
  | OfString s => VString s
  | OfFloat _ | OfChar _ => VNull
  end.
Fixpoint shown (i : item) : value :=
  match i with
  | IPrim v => prim_shown v
  | IPrimPtr _ (Some v) => prim_shown v
  | IPrimPtr _ None => VNull
  | IObject _ fp ps => VObject fp (map (fun p => (fst p, shown (snd (snd p)))) ps)
  | IVector _ fp es => VList fp (map shown es)
  | IMap _ fp kvs => VMap fp (map (fun kv => (shown (fst kv), shown (snd kv))) kvs)
  | IPointer (Some o) => shown o
  | IPointer None => VNull
  end.

(** ** Objects that can be inspected *)

Definition has_reader (t : prim_type) : bool := match t with CFloat | CChar => false | _ => true end.

(** Names of classes: not of arrays, of primitive types or the wildcard. *)
Definition class_name (n : string) : Prop := isArray n = Ret false /\ SpecTypes.primitive_name n = false /\ n <> "*".
(** Type expressions without names that resemble boxed primitives of Java. *)
Definition simple_names (e : texp) : Prop := Forall (fun n => plain n /\ unrelated n) (names e).

(** The type of a value that is a property, element, key or value. *)
Definition has_type (v : item) (ty : string) : Prop :=
  match v with
  | IPrim p => ty = m_type (type_of p)
  | IPrimPtr t _ => ty = m_type t
  | IPointer None => False
  | _ => own_name v = Some ty
  end.
(** For a property that holds a primitive the declared type does not matter;
    for one that holds no object, its class must occur somewhere in the root. *)
Definition declared_as (classes : list string) (ty : string) (v : item) : Prop :=
  match v with
  | IPrim _ | IPrimPtr _ _ => True
  | IPointer None => In ty classes
  | _ => has_type v ty
  end.

(** All parts have the declared types, and properties are in alphabetical
    order. *)
Fixpoint inspectable (classes : list string) (i : item) : Prop :=
  match i with
  | IPrim v => has_reader (type_of v) = true
  | IPrimPtr t (Some v) => has_reader (type_of v) = true
  | IPrimPtr t None => False
  | IObject n _ ps =>
      class_name n /\ StronglySorted before (map fst ps) /\
      fold_right (fun p P => (declared_as classes (fst (snd p)) (snd (snd p)) /\ inspectable classes (snd (snd p))) /\ P) True ps
  | IVector n _ es =>
      exists e, n = print "" (TListOf e) /\ simple_names e /\
      fold_right (fun v P => (has_type v (print "" e) /\ inspectable classes v) /\ P) True es
  | IMap n _ kvs =>
      exists k v, n = print "" (TMapOf k v) /\ simple_names k /\ simple_names v /\
      fold_right (fun kv P => ((has_type (fst kv) (print "" k) /\ inspectable classes (fst kv)) /\
                               (has_type (snd kv) (print "" v) /\ inspectable classes (snd kv))) /\ P) True kvs
  | IPointer None => True
  | IPointer (Some o) => inspectable classes o
  end.

Definition class_names (root : item) : list string :=
  map (fun o => fst (fst o)) (filter (fun o => match snd o with Class => true | _ => false end) (occurrences root)).

(** Every type has one fingerprint and every fingerprint is of one type; all
    instances of a class write the same properties. *)
Definition one_fingerprint_each (root : item) : Prop :=
  forall a b, In a (map fst (occurrences root)) -> In b (map fst (occurrences root)) ->
    (fst a = fst b <-> snd a = snd b).
Definition same_properties (root : item) : Prop :=
  forall k a b, In a (instances k root) -> In b (instances k root) -> a = b.

Definition can_inspect (root : item) : Prop :=
  well_formed root /\ is_target root = true /\ no_clash root /\
  inspectable (class_names root) root /\ one_fingerprint_each root /\ same_properties root.

(** ** Factories *)

(** What the factory has been used for before does not touch the types of the
    object or the primitive ones. *)
Definition names_in (root : item) : list string := map (fun o => fst (fst o)) (occurrences root).
Definition unrelated_history (h : list op) (root : item) : Prop :=
  (forall u, In u (entries_of h) -> ~ In (n_name u) (names_in root)) /\
  (forall r, In (Install r) h -> SpecTypes.primitive_name (reader_type r) = false /\ ~ In (reader_type r) (names_in root)).

(** Element, key and value types are primitive or occur in the object.  (For
    containers that are not empty this is so anyway.) *)
Definition known (root : item) (ty : string) : Prop := In ty ["int"; "long"; "double"; "boolean"; "string"] \/ In ty (names_in root).
Definition elements_known (root : item) : Prop :=
  (forall e, simple_names e -> In (print "" (TListOf e)) (names_in root) -> known root (print "" e)) /\
  (forall k v, simple_names k -> simple_names v -> In (print "" (TMapOf k v)) (names_in root) -> known root (print "" k) /\ known root (print "" v)).

(** ** Several objects and one factory *)

(** A type is the same in all of them. *)
Definition agree (roots : list item) : Prop :=
  (forall a b, In a (flat_map occurrences roots) -> In b (flat_map occurrences roots) -> fst (fst a) = fst (fst b) -> a = b) /\
  (forall k a b, In a (flat_map (instances k) roots) -> In b (flat_map (instances k) roots) -> a = b).

(** Inspecting some blobs in a row with one factory; the texts, and the factory
    as it is then. *)
Fixpoint inspect_each (fmt : N -> string) (custom : nat -> option string -> PM ivalue) (map_order entry_order : bool)
    (fuel : nat) (blobs : list data) (cf : factory) : option (list string * factory) :=
  match blobs with
  | [] => Some ([], cf)
  | b :: bs =>
      match dumpContents fmt custom map_order entry_order fuel (b, cf) with
      | Ok s (_, cf') =>
          match inspect_each fmt custom map_order entry_order fuel bs cf' with
          | Some (ss, cf'') => Some (s :: ss, cf'')
          | None => None
          end
      | _ => None
      end
  end.
