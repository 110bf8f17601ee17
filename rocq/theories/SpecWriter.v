(** Specification for serialising: what an object looks like on the wire and
    which schema entries describe it. *)
From Coq Require Import Sorting.Sorted OrdersEx.
From Verif Require Import Base Proton SpecTypes SpecDescriptors Writer.
Import List ListNotations.
Open Scope string_scope.

(** ** Payload *)

Definition prim_tree (v : prim_value) : tree :=
  match v with
  | OfInt z => leaf (AInt z)
  | OfLong z => leaf (ALong z)
  | OfDouble b => leaf (ADouble b)
  | OfBool b => leaf (ABool b)
  | OfString s => str s
  | OfFloat b => leaf (AFloat b)
  | OfChar z => leaf (AChar (Z.to_N (if (z <? 0)%Z then z + 2 ^ 32 else z)))
  end.

Fixpoint wire (i : item) : tree :=
  match i with
  | IPrim v => prim_tree v
  | IPrimPtr _ (Some v) => prim_tree v
  | IPrimPtr _ None => leaf ANull
  | IObject _ fp ps => payload_tree fp [list_of (map (fun p => wire (snd (snd p))) ps)]
  | IVector _ fp es => payload_tree fp [list_of (map wire es)]
  | IMap _ fp kvs => payload_tree fp [Node AMap (flat_map (fun kv => [wire (fst kv); wire (snd kv)]) kvs)]
  | IPointer (Some o) => wire o
  | IPointer None => leaf ANull
  end.

(** ** Objects the library can serialise *)

(** A C++ char is between -128 and 127. *)
Definition prim_ok (v : prim_value) : Prop :=
  match v with OfChar z => (-128 <= z < 128)%Z | _ => True end.

Definition is_pointer (i : item) : bool := match i with IPointer _ => true | _ => false end.
Definition is_target (i : item) : bool := match i with IObject _ _ _ | IVector _ _ _ | IMap _ _ _ => true | _ => false end.

(** A pointer to a char is taken for a C string, so the only one that is safe is
    a pointer to the zero character. *)
Definition printable (t : prim_type) (v : option prim_value) : Prop := t = CChar -> v = Some (OfChar 0).

(** Pointers are to classes, vectors or maps or are safe pointers to primitives;
    those to objects are not elements. *)
Fixpoint well_formed (i : item) : Prop :=
  match i with
  | IPrim v => prim_ok v
  | IPrimPtr t None => printable t None
  | IPrimPtr t (Some v) => type_of v = t /\ prim_ok v /\ printable t (Some v)
  | IObject _ _ ps => fold_right (fun p P => well_formed (snd (snd p)) /\ P) True ps
  | IVector _ _ es => fold_right (fun e P => (is_pointer e = false /\ well_formed e) /\ P) True es
  | IMap _ _ kvs => fold_right (fun kv P => (is_pointer (fst kv) = false /\ well_formed (fst kv)) /\
                                            (is_pointer (snd kv) = false /\ well_formed (snd kv)) /\ P) True kvs
  | IPointer None => True
  | IPointer (Some o) => is_target o = true /\ well_formed o
  end.

(** What C++ types guarantee: the same without the safety of pointers ... *)
Fixpoint typed (i : item) : Prop :=
  match i with
  | IPrim v => prim_ok v
  | IPrimPtr t None => True
  | IPrimPtr t (Some v) => type_of v = t /\ prim_ok v
  | IObject _ _ ps => fold_right (fun p P => typed (snd (snd p)) /\ P) True ps
  | IVector _ _ es => fold_right (fun e P => (is_pointer e = false /\ typed e) /\ P) True es
  | IMap _ _ kvs => fold_right (fun kv P => ((is_pointer (fst kv) = false /\ typed (fst kv)) /\
                                             (is_pointer (snd kv) = false /\ typed (snd kv))) /\ P) True kvs
  | IPointer None => True
  | IPointer (Some o) => is_target o = true /\ typed o
  end.
(** ... and an unsafe pointer somewhere in the object. *)
Inductive unsafe : item -> Prop :=
| unsafe_pointer : forall t v, ~ printable t v -> unsafe (IPrimPtr t v)
| unsafe_property : forall n fp ps p, In p ps -> unsafe (snd (snd p)) -> unsafe (IObject n fp ps)
| unsafe_element : forall n fp es e, In e es -> unsafe e -> unsafe (IVector n fp es)
| unsafe_entry : forall n fp kvs kv, In kv kvs -> unsafe (fst kv) \/ unsafe (snd kv) -> unsafe (IMap n fp kvs)
| unsafe_target : forall o, unsafe o -> unsafe (IPointer (Some o)).

(** ** Schema *)

(** The classes and containers that occur in an object, in the order in which
    they are written; a container with its kind. *)
Inductive kind : Type := Class | Container (source : string).
Fixpoint occurrences (i : item) : list (key * kind) :=
  match i with
  | IPrim _ | IPrimPtr _ _ | IPointer None => []
  | IObject n fp ps => ((n, fp), Class) :: flat_map (fun p => occurrences (snd (snd p))) ps
  | IVector n fp es => ((n, fp), Container "list") :: flat_map occurrences es
  | IMap n fp kvs => ((n, fp), Container "map") :: flat_map (fun kv => (occurrences (fst kv) ++ occurrences (snd kv))%list) kvs
  | IPointer (Some o) => occurrences o
  end.

(** A class does not share its name and fingerprint with a container. *)
Definition no_clash (i : item) : Prop := forall k s, In (k, Class) (occurrences i) -> In (k, Container s) (occurrences i) -> False.

(** The schema entry for a property.  Vectors and maps are wildcards that
    require the container type. *)
Definition property_type (ty : string) (v : item) : string :=
  match v with
  | IPrim p => m_type (type_of p)
  | IPrimPtr t _ => m_type t
  | IVector _ _ _ | IMap _ _ _ => "*"
  | IObject _ _ _ | IPointer _ => ty
  end.
Definition property_requires (ty : string) (v : item) : list string :=
  match v with IVector _ _ _ | IMap _ _ _ => [ty] | _ => [] end.
Definition property_mandatory (v : item) : bool :=
  match v with IPrimPtr _ _ => true | _ => false end.
Definition property_field (name ty : string) (v : item) : wire_field :=
  {| w_name := name; w_type := property_type ty v; w_requires := property_requires ty v;
     w_default := Some ""; w_label := Some "";
     w_mandatory := property_mandatory v; w_multiple := false |}.

(** All properties written for instances of a class, in the order in which they
    are written. *)
Definition key_eqb (a b : key) : bool := String.eqb (fst a) (fst b) && String.eqb (snd a) (snd b).
Fixpoint fields_written (k : key) (i : item) : list wire_field :=
  match i with
  | IPrim _ | IPrimPtr _ _ | IPointer None => []
  | IObject n fp ps =>
      flat_map (fun p => (if key_eqb k (n, fp) then [property_field (fst p) (fst (snd p)) (snd (snd p))] else []) ++
                         fields_written k (snd (snd p)))%list ps
  | IVector _ _ es => flat_map (fields_written k) es
  | IMap _ _ kvs => flat_map (fun kv => (fields_written k (fst kv) ++ fields_written k (snd kv))%list) kvs
  | IPointer (Some o) => fields_written k o
  end.

(** Alphabetical order, of names and of (name, fingerprint) pairs. *)
Definition before (a b : string) : Prop := String_as_OT.lt a b.
Definition key_before (a b : key) : Prop := before (fst a) (fst b) \/ (fst a = fst b /\ before (snd a) (snd b)).

Definition type_key (t : wire_type) : key :=
  match t with WClass c => (wc_name c, wc_fingerprint c) | WContainer r => (wr_name r, wr_fingerprint r) end.

Definition first_named (n : string) (fs : list wire_field) : option wire_field :=
  find (fun f => String.eqb n (w_name f)) fs.

(** An entry of the schema that is right for an object: the class has exactly
    the properties that were written for it, each as it was first written. *)
Definition describes (root : item) (t : wire_type) : Prop :=
  match t with
  | WClass c =>
      In ((wc_name c, wc_fingerprint c), Class) (occurrences root) /\
      wc_label c = Some "" /\ wc_provides c = [] /\
      StronglySorted before (map w_name (wc_fields c)) /\
      forall f, In f (wc_fields c) <-> first_named (w_name f) (fields_written (wc_name c, wc_fingerprint c) root) = Some f
  | WContainer r =>
      In ((wr_name r, wr_fingerprint r), Container (wr_source r)) (occurrences root) /\
      wr_label r = Some "" /\ wr_provides r = [] /\ wr_choices r = []
  end.

(** A schema that is right for an object. *)
Definition schema_for (root : item) (ts : list wire_type) : Prop :=
  StronglySorted key_before (map type_key ts) /\
  (forall k, In k (map type_key ts) <-> In k (map fst (occurrences root))) /\
  Forall (describes root) ts.

(** Writing several objects with one writer. *)
Fixpoint serialise_each (roots : list item) : WM unit :=
  match roots with [] => ret tt | r :: rs => serialise r ;; serialise_each rs end.

(** ** Classes whose instances all write the same properties *)

(** For every instance of the class, the properties that it writes, in order. *)
Fixpoint instances (k : key) (i : item) : list (list wire_field) :=
  match i with
  | IPrim _ | IPrimPtr _ _ | IPointer None => []
  | IObject n fp ps =>
      ((if key_eqb k (n, fp) then [map (fun p => property_field (fst p) (fst (snd p)) (snd (snd p))) ps] else []) ++
       flat_map (fun p => instances k (snd (snd p))) ps)%list
  | IVector _ _ es => flat_map (instances k) es
  | IMap _ _ kvs => flat_map (fun kv => (instances k (fst kv) ++ instances k (snd kv))%list) kvs
  | IPointer (Some o) => instances k o
  end.
Definition uniform (root : item) (k : key) (props : list wire_field) : Prop :=
  Forall (eq props) (instances k root) /\ NoDup (map w_name props).

(** ** Schemas that can stand alone *)

Definition primitive_types : list string := ["int"; "long"; "double"; "boolean"; "string"; "float"; "char"].

Definition type_name (t : wire_type) : string := match t with WClass c => wc_name c | WContainer r => wr_name r end.

(** [ty] needs no explanation, or has one. *)
Definition explained (ts : list wire_type) (ty : string) : Prop := In ty primitive_types \/ In ty (map type_name ts).

Definition self_contained (ts : list wire_type) : Prop :=
  (forall c f, In (WClass c) ts -> In f (wc_fields c) ->
     (w_type f = "*" \/ explained ts (w_type f)) /\ Forall (explained ts) (w_requires f)) /\
  (forall r e, In (WContainer r) ts -> wr_name r = "java.util.List<" ++ e ++ ">" -> explained ts e) /\
  (forall r a b, In (WContainer r) ts -> bracketed false a -> wr_name r = "java.util.Map<" ++ a ++ "," ++ b ++ ">" ->
     explained ts a /\ explained ts b).

(** Objects whose parts have the declared types; no pointer to an object is
    null and no container is empty. *)
Definition own_name (v : item) : option string :=
  match v with
  | IObject n _ _ | IVector n _ _ | IMap n _ _
  | IPointer (Some (IObject n _ _)) | IPointer (Some (IVector n _ _)) | IPointer (Some (IMap n _ _)) => Some n
  | _ => None
  end.
Definition is_primitive (v : item) : bool := match v with IPrim _ | IPrimPtr _ _ => true | _ => false end.
Definition element_of (ty : string) (v : item) : Prop :=
  own_name v = Some ty \/ (is_primitive v = true /\ In ty primitive_types).
Fixpoint filled (i : item) : Prop :=
  match i with
  | IPrim _ | IPrimPtr _ _ => True
  | IObject _ _ ps =>
      fold_right (fun p P => (own_name (snd (snd p)) = Some (fst (snd p)) \/ is_primitive (snd (snd p)) = true) /\
                             filled (snd (snd p)) /\ P) True ps
  | IVector n _ es =>
      es <> [] /\ exists e, n = "java.util.List<" ++ e ++ ">" /\
      fold_right (fun v P => element_of e v /\ filled v /\ P) True es
  | IMap n _ kvs =>
      kvs <> [] /\ exists a b, bracketed false a /\ n = "java.util.Map<" ++ a ++ "," ++ b ++ ">" /\
      fold_right (fun kv P => (element_of a (fst kv) /\ filled (fst kv)) /\ (element_of b (snd kv) /\ filled (snd kv)) /\ P) True kvs
  | IPointer None => False
  | IPointer (Some o) => filled o
  end.

(** All properties written for instances of a class, with the values written. *)
Fixpoint properties_of (k : key) (i : item) : list (string * (string * item)) :=
  match i with
  | IPrim _ | IPrimPtr _ _ | IPointer None => []
  | IObject n fp ps =>
      flat_map (fun p => (if key_eqb k (n, fp) then [p] else []) ++ properties_of k (snd (snd p)))%list ps
  | IVector _ _ es => flat_map (properties_of k) es
  | IMap _ _ kvs => flat_map (fun kv => (properties_of k (fst kv) ++ properties_of k (snd kv))%list) kvs
  | IPointer (Some o) => properties_of k o
  end.
