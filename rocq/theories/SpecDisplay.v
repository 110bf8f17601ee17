(** Which payloads inspection accepts, and what it shows of them, written
    independently of the readers.  It is lenient: see SpecAccept.v for parts that
    are missing or surplus; numbers, booleans and binaries of the wrong type, or
    missing altogether, count as zero, false and empty; whatever is not a list has
    no elements and whatever is not a map no entries; the fingerprint of a list or
    map may be that of any type; a constant may be any string; and the names of
    the properties are those of the class the payload names, which need not be
    the class expected there. *)
From Verif Require Import Base Proton TypeNames Schema SpecSchema SpecFactory Factory SpecAccept.
Import List ListNotations.
Open Scope string_scope.

(** What is found in a place: nothing if the node has no parts at all. *)
Definition integer (o : option tree) : Z := match o with Some (Node (AInt z) _) => z | _ => 0 end.
Definition long (o : option tree) : Z := match o with Some (Node (ALong z) _) => z | _ => 0 end.
Definition double_bits (o : option tree) : N := match o with Some (Node (ADouble b) _) => b | _ => 0 end.
Definition boolean (o : option tree) : bool := match o with Some (Node (ABool b) _) => b | _ => false end.
Definition bytes (o : option tree) : string := match o with Some (Node (ABinary s) _) => s | _ => "" end.
Definition elements (t : tree) : list tree := match t with Node AList cs => cs | _ => [] end.
(** The number of entries: keys and values alternate. *)
Definition entries (t : tree) : nat := match t with Node AMap cs => Nat.div2 (S (length cs)) | _ => 0 end.

Definition numbered {A} (l : list A) : list (nat * A) := combine (seq 0 (length l)) l.
Definition braces (xs : list string) : string := "{ " ++ String.concat ", " xs ++ " }".
Definition brackets (xs : list string) : string := "[ " ++ String.concat ", " xs ++ " ]".

Section Display.
(** How doubles and integers are written; whether the key of an entry is read
    before its value (C32); the types of the schema; and what the installed
    serialisers show: for a type, whether the value has a name, and what is found
    there. *)
Context (double : N -> string) (numeral : Z -> string) (key_first : bool).
Context (ts : list notation) (installed : string -> bool -> option tree -> string -> Prop).

(** [displays named ty o x]: as a value of type [ty], [o] is accepted and shown as
    [x]. *)
Inductive displays (named : bool) : string -> option tree -> string -> Prop :=
| shows_int o : displays named "int" o (numeral (integer o))
| shows_long o : displays named "long" o (numeral (long o))
| shows_double o : displays named "double" o (double (double_bits o))
| shows_boolean o : displays named "boolean" o (if boolean o then "1" else "0")
| shows_string t s : calls s t -> displays named "string" (Some t) ("""" ++ s ++ """")
| shows_binary o : displays named "binary" o ("<<<binary: " ++ numeral (Z.of_nat (String.length (bytes o))) ++ " bytes>>>")
| shows_null c t : In (TComposite c) ts -> tree_atom t = ANull -> displays named (c_name c) (Some t) "<<NULL>>"
| shows_object c c' t body xs : In (TComposite c) ts -> In (TComposite c') ts -> length (c_fields c') = length (c_fields c) ->
    tree_atom t = ADescribed -> part_is 0 t (fun p => tree_atom p = ASymbol (c_descriptor c')) ->
    part 1 t = Some body -> tree_atom body = AList ->
    Forall2 (fun p x => exists ty, property_type (snd p) = Some ty /\ displays true ty (part (fst p) body) x) (numbered (c_fields c)) xs ->
    displays named (c_name c) (Some t) (braces (map (fun p => f_name (fst p) ++ " : " ++ snd p) (combine (c_fields c') xs)))
| shows_list r e t body xs : In (TRestricted r) ts -> r_kind r = list_t \/ r_kind r = array_t -> r_of r = [e] ->
    tree_atom t = ADescribed -> part_is 0 t (fun p => exists u, In u ts /\ calls (n_descriptor u) p) -> part 1 t = Some body ->
    Forall2 (fun p x => displays false e (Some p) x) (elements body) xs ->
    displays named (r_name r) (Some t) (brackets xs)
| shows_map r k v t body xys : In (TRestricted r) ts -> r_kind r = map_t -> r_of r = [k; v] ->
    tree_atom t = ADescribed -> part_is 0 t (fun p => exists u, In u ts /\ calls (n_descriptor u) p) -> part 1 t = Some body ->
    Forall2 (fun i xy => displays false k (part (if key_first then 2 * i else 2 * i + 1) body) (fst xy) /\
                         displays false v (part (if key_first then 2 * i + 1 else 2 * i) body) (snd xy)) (seq 0 (entries body)) xys ->
    displays named (r_name r) (Some t) (braces (map (fun xy => fst xy ++ " : " ++ snd xy) xys))
| shows_constant r t s : In (TRestricted r) ts -> r_kind r = enum_t -> tree_atom t = ADescribed ->
    part_is 0 t (fun p => exists fp, calls fp p) -> part_is 1 t (fun body => part_is 0 body (calls s)) ->
    displays named (r_name r) (Some t) s
| shows_installed ty o x : installed ty named o x -> displays named ty o x.
End Display.

(** What is at the read position, if anything. *)
Definition view (d : data) : option tree := match here d with At _ t _ => Some t | Before _ => None end.
(** A read position among the parts of a node. *)
Definition on_level (d : data) : Prop := match here d with Before (_ :: _) => False | _ => True end.
Definition is_named (name : option string) : bool := match name with Some _ => true | None => false end.
