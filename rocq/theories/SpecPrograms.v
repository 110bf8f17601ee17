(** Specification for programs (Programs.v): which are in order, and which of
    their objects inspection can show. *)
From Coq Require Import Sorting.Sorted.
From Verif Require Import SpecTypes Base Proton TypeNames SpecTypes Schema SpecDescriptors Factory SpecFactory Readers SpecReaders Blob Writer SpecWriter SpecWriteRead Programs.
Import List ListNotations.
Open Scope string_scope.

(** A class with a proper name: identifiers, no resemblance to Java's boxed types,
    and not a primitive type. *)
Definition class_ok (c : list (option string) * string) : Prop :=
  identifiers (XClass (fst c) (snd c)) /\
  let n := java_name (fst c) (snd c) in class_name n /\ plain n /\ unrelated n /\ n <> "char".

(** Elements are primitives or objects; properties may be pointers as well. *)
Definition element_ok (P : program) (t : cpp) : Prop :=
  match t with Prim _ => True | PrimPtr _ | Pointer _ => False | _ => In t (types_of P) end.
Definition property_type_ok (P : program) (t : cpp) : Prop :=
  match t with Prim _ | PrimPtr _ => True | Pointer t' => In t' (types_of P) | _ => In t (types_of P) end.

(** All classes, vectors and maps are listed; names and fingerprints are
    distinct; properties are written in alphabetical order (see C41). *)
Definition type_ok (P : program) (t : cpp) : Prop :=
  match t with
  | Obj c => class_ok c /\ StronglySorted before (map fst (declared P c)) /\
             Forall (fun d => property_type_ok P (snd d)) (declared P c)
  | Vector e => element_ok P e
  | Map k v => element_ok P k /\ element_ok P v
  | _ => False
  end.
Definition in_order (P : program) : Prop :=
  Forall (type_ok P) (types_of P) /\ NoDup (map java_of (types_of P)) /\ NoDup (map (fingerprint P) (types_of P)).

(** Programs without float and char, and without containers of bool. *)
Definition property_shows (t : cpp) : Prop :=
  match t with Prim p | PrimPtr p => ~ In p [CFloat; CChar] | _ => True end.
Definition element_shows (t : cpp) : Prop :=
  match t with Prim p | PrimPtr p => ~ In p [CFloat; CChar; CBool] | _ => True end.
Definition shows (P : program) : Prop :=
  Forall (fun t => match t with
                   | Obj c => Forall (fun d => property_shows (snd d)) (declared P c)
                   | Vector e => element_shows e
                   | Map k v => element_shows k /\ element_shows v
                   | _ => True
                   end) (types_of P).

(** No pointer to a primitive is null, and of the classes of null pointers there
    are objects. *)
Fixpoint nulls_ok (classes : list string) (i : item) : Prop :=
  match i with
  | IPrim _ => True
  | IPrimPtr _ v => v <> None
  | IObject _ _ ps =>
      fold_right (fun p Q => ((snd (snd p) = IPointer None -> In (fst (snd p)) classes) /\ nulls_ok classes (snd (snd p))) /\ Q) True ps
  | IVector _ _ es => fold_right (fun e Q => nulls_ok classes e /\ Q) True es
  | IMap _ _ kvs => fold_right (fun kv Q => (nulls_ok classes (fst kv) /\ nulls_ok classes (snd kv)) /\ Q) True kvs
  | IPointer None => True
  | IPointer (Some o) => nulls_ok classes o
  end.

(** An object and all that it holds. *)
Fixpoint parts (i : item) : list item :=
  i :: match i with
       | IObject _ _ ps => flat_map (fun p => parts (snd (snd p))) ps
       | IVector _ _ es => flat_map parts es
       | IMap _ _ kvs => flat_map (fun kv => (parts (fst kv) ++ parts (snd kv))%list) kvs
       | IPointer (Some o) => parts o
       | _ => []
       end.
(** A float or a char, or a vector or map of bool or char. *)
Definition without_text (P : program) (x : item) : Prop :=
  match x with
  | IPrim v => In (type_of v) [CFloat; CChar]
  | IPrimPtr t _ => In t [CFloat; CChar]
  | IVector n _ _ => exists e, In e [Prim CBool; Prim CChar] /\ In (Vector e) (types_of P) /\ n = java_of (Vector e)
  | IMap n _ _ => exists k v, (In k [Prim CBool; Prim CChar] \/ In v [Prim CBool; Prim CChar]) /\
                            In (Map k v) (types_of P) /\ n = java_of (Map k v)
  | _ => False
  end.

(** Serialisers have been installed in the factory, and nothing else done. *)
Definition only_installed (h : list op) (root : item) : Prop :=
  forall o, In o h -> exists r, o = Install r /\
    SpecTypes.primitive_name (reader_type r) = false /\ reader_type r <> "char" /\ ~ In (reader_type r) (names_in root).

(** ** The schema that objects of a program are written with *)

(** A property and a type as they are described in it. *)
Definition declared_field (d : string * cpp) : wire_field :=
  let of ty rs m := {| w_name := fst d; w_type := ty; w_requires := rs; w_default := Some ""; w_label := Some ""; w_mandatory := m; w_multiple := false |} in
  match snd d with
  | Prim p => of (m_type p) [] false
  | PrimPtr p => of (m_type p) [] true
  | Vector _ | Map _ _ => of "*" [java_of (snd d)] false
  | _ => of (java_of (snd d)) [] false
  end.
Definition entry_of (P : program) (t : cpp) : wire_type :=
  let container source :=
    WContainer {| wr_name := java_of t; wr_label := Some ""; wr_provides := []; wr_source := source;
                  wr_fingerprint := fingerprint P t; wr_choices := [] |} in
  match t with
  | Vector _ => container "list"
  | Map _ _ => container "map"
  | _ => WClass {| wc_name := java_of t; wc_label := Some ""; wc_provides := []; wc_fingerprint := fingerprint P t;
                   wc_fields := match t with Obj c => map declared_field (declared P c) | _ => [] end |}
  end.
(** The types that occur in an object, in alphabetical order. *)
Definition occurring (P : program) (root : item) (us : list cpp) : Prop :=
  (forall u, In u us <-> In u (types_of P) /\ In (java_of u) (names_in root)) /\
  StronglySorted (fun u v => before (java_of u) (java_of v)) us.

(** ** Inspecting with a new factory *)

(** An object is serialised, and inspecting the blob gives a text, or throws.
    ([entry_order]: the compiler evaluates the key of a map entry first, C32.) *)
Definition inspection (fmt : N -> string) (custom : nat -> option string -> PM ivalue) (root : item) (result : string + exn) : Prop :=
  forall map_order entry_order, entry_order = true \/ map_free (shown root) ->
  exists blob w, serialise_blob root new_writer = Ok blob w /\
  exists n, forall fuel, n < fuel ->
  exists cf, dumpContents fmt custom map_order entry_order fuel (blob, new_factory)
             = match result with inl text => Ok text (blob, cf) | inr e => Throw e (blob, cf) end.
