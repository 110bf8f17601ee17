(** What is on standard output after the payload of a blob has been shown, as a function
    of the decoded tree, and how it ends.  The lines are written while the library works;
    what is shown is that of SpecFate.v.  There are lines for objects and for each of
    their properties, for maps, integers and texts; none for other values.  That of an
    integer with a name says which it is. *)
From Verif Require Import Base OutputWriter SpecOutputWriter Proton SpecCursor TypeNames Schema SpecSchema Descriptors SpecDescriptors Factory Readers SpecReaders SpecAccept SpecReadScript SpecSchemaDump
  SpecDisplay SpecParse SpecFate SpecOutput Output SpecOutputReader OutputShow.
Import List ListNotations.
Open Scope string_scope.

(** Every name and every constant is announced by this word. *)
Definition word (o : option tree) : heard string := let^ _ := SpecOutput.line "STRING" in silent (of_ending (name_of o)).

Section Shown.
(** The platform (where the source files are); how doubles are written; whether the key of
    an entry is read before its value (C32); the types that are known; those of the schema;
    and the installed serialisers. *)
Context (env : platform) (double : N -> string) (key_first : bool).
Context (known ts : list notation) (installed : string -> option (option string -> option tree -> heard string)).

Definition number (z : Z) : string := dec z.
(** A value that has a name, or not. *)
Definition integer_aloud (name : option string) (o : option tree) : heard string :=
  let^ _ := match name with
            | Some x =>
                let^ _ := note env "IntPropertyReader.cxx" 37 ("IntPropertyReader::dump - " ++ x) in
                let^ _ := note env "IntPropertyReader.cxx" 39 "FUCK 1" in
                note env "IntPropertyReader.cxx" 43 ("    -> " ++ number (integer o))
            | None => note env "IntPropertyReader.cxx" 63 "IntPropertyReader::dump - no-name"
            end in
  silent (Gives (number (integer o))).
Definition text_aloud (name : option string) (o : option tree) : heard string :=
  let^ _ := match name with
            | Some x => note env "StringPropertyReader.cxx" 36 ("StringPropertyReader::dump - " ++ x)
            | None => note env "StringPropertyReader.cxx" 50 "StringPropertyReader::dump - no-name"
            end in
  let^ s := word o in
  silent (Gives ("""" ++ s ++ """")).
Definition primitive_aloud (name : option string) (ty : string) (o : option tree) : option (heard string) :=
  if String.eqb ty "int" then Some (integer_aloud name o)
  else if String.eqb ty "string" then Some (text_aloud name o)
  else match primitive double number ty o with Some r => Some (silent r) | None => None end.

Section Inner.
Context (inner : option string -> string -> option tree -> heard string).
(** The property of class [c] in one place; it is called what the class [c'] of the object
    calls that. *)
Definition property_aloud (body : tree) (p : nat * (field * field)) : heard string :=
  let '(i, (fd', fd)) := p in
  let^ _ := note env "CompositeReader.cxx" (span env 73 74) (f_name fd' ++ " true") in
  match property_type fd with
  | Some ty => let^ x := inner (Some (f_name fd')) ty (part i body) in silent (Gives (f_name fd' ++ " : " ++ x))
  | None => silent Wild
  end.
Definition object_aloud (c : composite) (o : option tree) : heard string :=
  match o with
  | Some (Node ANull _) => silent (Gives "<<NULL>>")
  | _ =>
      let^ _ := note env "CompositeReader.cxx" 46 "Read Composite: " in
      let^ t := must_be_described o in
      let^ fp := silent (of_ending (symbol_of (part 0 t))) in
      match type_printed ts fp with
      | None => silent (Raises RuntimeError)
      | Some (TRestricted _) => silent (Raises BadCast)
      | Some (TComposite c') =>
          if Nat.eqb (length (c_fields c')) (length (c_fields c)) then
            let^ body := must_be_list env (part 1 t) in
            let^ xs := in_turn (property_aloud body) (numbered (combine (c_fields c') (c_fields c))) in
            silent (Gives (braces xs))
          else silent Stops
      end
  end.
Definition type_aloud (t : tree) : heard unit :=
  let^ fp := word (part 0 t) in
  match type_printed ts fp with Some _ => silent (Gives tt) | None => silent (Raises RuntimeError) end.
Definition sequence_aloud (e : string) (o : option tree) : heard string :=
  let^ t := must_be_described o in
  let^ _ := type_aloud t in
  let^ xs := in_turn (fun p => inner None e (Some p)) (parts_of_list (part 1 t)) in
  silent (Gives (brackets xs)).
Definition entry_aloud (k v : string) (body : option tree) (i : nat) : heard string :=
  if key_first then
    let^ x := inner None k (inside (2 * i) body) in
    let^ y := inner None v (inside (2 * i + 1) body) in silent (Gives (x ++ " : " ++ y))
  else
    let^ y := inner None v (inside (2 * i) body) in
    let^ x := inner None k (inside (2 * i + 1) body) in silent (Gives (x ++ " : " ++ y)).
(** The keys and values of a map together. *)
Definition parts_of_map (o : option tree) : nat := match o with Some (Node AMap cs) => length cs | _ => 0 end.
Definition mapping_aloud (name : option string) (k v : string) (o : option tree) : heard string :=
  let^ _ := match name with
            | Some x => note env "MapReader.cxx" 78 ("MapReader::dump " ++ x)
            | None => note env "MapReader.cxx" 94 "MapReader::dump no-name"
            end in
  let^ t := must_be_described o in
  let^ _ := type_aloud t in
  let^ _ := note env "MapReader.cxx" 44 ("  " ++ number (Z.of_nat (parts_of_map (part 1 t)))) in
  let^ xs := in_turn (entry_aloud k v (part 1 t)) (seq 0 (pairs_of_map (part 1 t))) in
  silent (Gives (braces xs)).
End Inner.
(** A constant, unless it refers to another object, which is noticed before it is read. *)
Definition constant_aloud (o : option tree) : heard string :=
  let^ t := must_be_described o in
  let^ _ := match part 0 t with
            | Some (Node (AULong n) _) => if (n mod 2 ^ 32 =? 8)%N then silent (Raises RuntimeError) else word (part 0 t)
            | p => word p
            end in
  word (inside 0 (part 1 t)).

(** [n] bounds the depth; any bound greater than the height of the tree will do. *)
Fixpoint value_aloud (n : nat) (name : option string) (ty : string) (o : option tree) : heard string :=
  match n with
  | 0 => silent Wild
  | S n' =>
      match primitive_aloud name ty o, installed ty, type_called known ty with
      | Some h, _, _ => h
      | None, Some serialiser, _ => serialiser name o
      | None, None, Some (TComposite c) => object_aloud (value_aloud n') c o
      | None, None, Some (TRestricted r) =>
          match r_kind r, r_of r with
          | enum_t, _ => constant_aloud o
          | map_t, [k; v] => mapping_aloud (value_aloud n') name k v o
          | (list_t | array_t), [e] => sequence_aloud (value_aloud n') e o
          | _, _ => silent Wild
          end
      | None, None, None => silent Wild
      end
  end.
End Shown.

(** The serialisers [rs]; that for public keys says that it has been called. *)
Definition key_aloud (env : platform) (name : option string) (o : option tree) : heard string :=
  let^ _ := match name with Some _ => note env "PublicKeySerialiser.cxx" 64 "dump" | None => silent (Gives tt) end in
  silent (key_of (is_named name) o).
Definition serialiser_aloud (env : platform) (answers : nat -> option string -> option tree -> heard string) (rs : list reader) (ty : string) : option (option string -> option tree -> heard string) :=
  match find (fun r => String.eqb (reader_type r) ty) rs with
  | Some RPublicKey => Some (key_aloud env)
  | Some (RCustom _ which) => Some (answers which)
  | _ => None
  end.
(** What a user's serialiser does and writes depends only on what it finds and on the name
    of that, and it stays in its place. *)
Definition answers_aloud (rs : list reader) (custom : nat -> option string -> OM ivalue) (answers : nat -> option string -> option tree -> heard string) : Prop :=
  forall ty which, In (RCustom ty which) rs -> forall name d out, on_level d ->
  let h := answers which name (view d) in
  match snd h with
  | Gives x => exists v, custom which name (d, out) = Ok v (pn_next d, out ++ fst h) /\ show v = labelled name x
  | Raises e => exists d', custom which name (d, out) = Throw e (d', out ++ fst h) /\ beside d d'
  | Stops => custom which name (d, out) = Abort
  | Wild => custom which name (d, out) = UB
  end.

Section Inspect.
Context (env : platform) (double : N -> string) (answers : nat -> option string -> option tree -> heard string) (map_order entry_order : bool) (rs : list reader).
(** The payload of an envelope whose schema says [e]. *)
Definition payload_aloud (e : envelope) (ty : string) (t : tree) : heard string :=
  let ts := List.concat (s_types (e_schema e)) in
  let^ body := must_be_list env (part 1 t) in
  if Nat.eqb (length (tree_children body)) 3 then
    let^ x := value_aloud env double entry_order ts ts (serialiser_aloud env answers rs) (height t) (Some "{ Parsed") ty (part 0 body) in
    silent (Gives ("{ Parsed : " ++ x ++ " }"))
  else silent Stops.
Definition inspected_aloud (t : tree) : heard string :=
  let^ e := silent (envelope_of t) in
  let^ _ := silent (prepare map_order (map reader_type rs) (List.concat (s_types (e_schema e)))) in
  match payload_type e with
  | None => silent Stops
  | Some n => payload_aloud e (n_name n) t
  end.
End Inspect.

(** [o] is this, with [out] on standard output before and the cursor of the blob back at
    the start. *)
Definition turns_out_aloud (t : tree) (out : string) (o : outcome (data * factory * string) string) (h : heard string) : Prop :=
  match snd h with
  | Gives x => exists cf', o = Ok x (decoded t, cf', out ++ fst h)
  | Raises e => exists cf', o = Throw e (decoded t, cf', out ++ fst h)
  | Stops => o = Abort
  | Wild => o = UB
  end.

(** Two runs end in the same way; the first has written more to standard output, after what
    was there before. *)
Definition same_contents (o : outcome (data * factory * string) string) (out : string) (o' : outcome (data * factory) string) : Prop :=
  match o, o' with
  | Ok x (d, cf, out'), Ok x' (d', cf') => x = x' /\ d = d' /\ cf = cf' /\ begins out' out
  | Throw e (d, cf, out'), Throw e' (d', cf') => e = e' /\ d = d' /\ cf = cf' /\ begins out' out
  | Abort, Abort | UB, UB | Fuel, Fuel => True
  | _, _ => False
  end.

(** Serialisers of a user's that differ in nothing but that the first writes. *)
Definition same_serialisers (custom : nat -> option string -> OM ivalue) (custom' : nat -> option string -> PM ivalue) : Prop :=
  forall which name d out, same_but_for_text (custom which name (d, out)) out (custom' which name d).

(** ** What is not written *)

(** Values that differ in nothing but what texts, long and floating-point numbers, truth
    values and bytes are there. *)
Definition same_sort (a b : atom) : Prop :=
  match a, b with
  | AString _, AString _ | ALong _, ALong _ | ADouble _, ADouble _ | AFloat _, AFloat _ | ABool _, ABool _ | ABinary _, ABinary _ => True
  | _, _ => a = b
  end.
(** A fingerprint, the first part of a described value, is the same. *)
Inductive veiled : tree -> tree -> Prop :=
| veiled_same t : veiled t t
| veiled_plain a b cs ds : a <> ADescribed -> same_sort a b -> Forall2 veiled cs ds -> veiled (Node a cs) (Node b ds)
| veiled_described c cs ds : Forall2 veiled cs ds -> veiled (Node ADescribed (c :: cs)) (Node ADescribed (c :: ds)).
Definition both_veiled (o o' : option tree) : Prop :=
  match o, o' with Some t, Some t' => veiled t t' | None, None => True | _, _ => False end.
Definition same_end {A B} (r : fate A) (r' : fate B) : Prop :=
  match r, r' with
  | Gives _, Gives _ | Stops, Stops | Wild, Wild => True
  | Raises e, Raises e' => e = e'
  | _, _ => False
  end.
(** A user's serialisers write the same for such values. *)
Definition discreet (answers : nat -> option string -> option tree -> heard string) : Prop :=
  forall which name o o', both_veiled o o' ->
  fst (answers which name o) = fst (answers which name o') /\ same_end (snd (answers which name o)) (snd (answers which name o')).

(** ** What is *)

(** [z] is an integer that is the property of an object somewhere in [p], which is read as a
    value of type [ty], through objects and lists. *)
Section Integers.
Context (ts : list notation) (kinds : list string).
Definition class_of (ty : string) (c : composite) : Prop :=
  memb ty primitives = false /\ memb ty kinds = false /\ type_called ts ty = Some (TComposite c).
Definition list_of_type (ty e : string) : Prop :=
  memb ty primitives = false /\ memb ty kinds = false /\
  exists r, type_called ts ty = Some (TRestricted r) /\ (r_kind r = list_t \/ r_kind r = array_t) /\ r_of r = [e].
Inductive integer_in : string -> tree -> Z -> Prop :=
| integer_here ty c k fd p body q z : class_of ty c -> nth_error (c_fields c) k = Some fd -> property_type fd = Some "int" ->
    tree_atom p = ADescribed -> part 1 p = Some body -> part k body = Some q -> tree_atom q = AInt z -> integer_in ty p z
| integer_deeper ty c k fd ty' p body q z : class_of ty c -> nth_error (c_fields c) k = Some fd -> property_type fd = Some ty' ->
    tree_atom p = ADescribed -> part 1 p = Some body -> part k body = Some q -> integer_in ty' q z -> integer_in ty p z
| integer_listed ty e p body q z : list_of_type ty e ->
    tree_atom p = ADescribed -> part 1 p = Some body -> In q (elements body) -> integer_in e q z -> integer_in ty p z.
End Integers.
Definition within (s text : string) : Prop := exists a b, text = a ++ s ++ b.
