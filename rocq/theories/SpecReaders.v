(** Specification for inspection: values, what they look like on the wire, what
    text stands for them, and which values a schema allows. *)
From Verif Require Import SpecTypes Base Proton TypeNames Schema SpecSchema SpecDescriptors Factory SpecFactory Readers.
Import List ListNotations.
Open Scope string_scope.

(** ** Values *)

(** Objects, lists, maps and enum constants carry the fingerprint of their
    type.  Doubles are bit patterns. *)
Inductive value : Type :=
| VInt (z : Z) | VLong (z : Z) | VDouble (bits : N) | VBoolean (b : bool)
| VString (s : string) | VBinary (s : string)
| VNull
| VObject (fp : string) (properties : list (string * value))
| VList (fp : string) (elements : list value)
| VMap (fp : string) (entries : list (value * value))
| VEnum (fp : string) (constant : string) (ordinal : Z).

(** On the wire. *)
Fixpoint encode (v : value) : tree :=
  match v with
  | VInt z => leaf (AInt z)
  | VLong z => leaf (ALong z)
  | VDouble b => leaf (ADouble b)
  | VBoolean b => leaf (ABool b)
  | VString s => str s
  | VBinary s => leaf (ABinary s)
  | VNull => leaf ANull
  | VObject fp ps => payload_tree fp [list_of (map (fun p => encode (snd p)) ps)]
  | VList fp es => payload_tree fp [list_of (map encode es)]
  | VMap fp kvs => payload_tree fp [Node AMap (flat_map (fun kv => [encode (fst kv); encode (snd kv)]) kvs)]
  | VEnum fp c o => payload_tree fp [list_of [str c; leaf (AInt o)]]
  end.

(** As text.  [double]: how the C++ library writes a double; [numeral]: an
    integer in decimal. *)
Section Text.
Context (double : N -> string) (numeral : Z -> string).
Fixpoint printed (v : value) : string :=
  match v with
  | VInt z | VLong z => numeral z
  | VDouble b => double b
  | VBoolean b => if b then "1" else "0"
  | VString s => """" ++ s ++ """"
  | VBinary s => "<<<binary: " ++ numeral (Z.of_nat (String.length s)) ++ " bytes>>>"
  | VNull => "<<NULL>>"
  | VObject _ ps => "{ " ++ String.concat ", " (map (fun p => fst p ++ " : " ++ printed (snd p)) ps) ++ " }"
  | VList _ es => "[ " ++ String.concat ", " (map printed es) ++ " ]"
  | VMap _ kvs => "{ " ++ String.concat ", " (map (fun kv => printed (fst kv) ++ " : " ++ printed (snd kv)) kvs) ++ " }"
  | VEnum _ c _ => c
  end.
End Text.

(** Values without maps. *)
Fixpoint map_free (v : value) : Prop :=
  match v with
  | VObject _ ps => fold_right (fun p P => map_free (snd p) /\ P) True ps
  | VList _ es => fold_right (fun v P => map_free v /\ P) True es
  | VMap _ _ => False
  | _ => True
  end.

(** Values of a type, given the entries of a schema. *)
Inductive conforms (ts : list notation) : string -> value -> Prop :=
| conf_int z : conforms ts "int" (VInt z)
| conf_long z : conforms ts "long" (VLong z)
| conf_double b : conforms ts "double" (VDouble b)
| conf_boolean b : conforms ts "boolean" (VBoolean b)
| conf_string s : conforms ts "string" (VString s)
| conf_binary s : conforms ts "binary" (VBinary s)
| conf_null c : In (TComposite c) ts -> conforms ts (c_name c) VNull
| conf_object c ps : In (TComposite c) ts ->
    Forall2 (fun fd p => fst p = f_name fd /\
                         exists ty, property_type fd = Some ty /\ conforms ts ty (snd p)) (c_fields c) ps ->
    conforms ts (c_name c) (VObject (c_descriptor c) ps)
| conf_list r e vs : In (TRestricted r) ts -> r_kind r = list_t \/ r_kind r = array_t -> r_of r = [e] ->
    Forall (conforms ts e) vs ->
    conforms ts (r_name r) (VList (r_descriptor r) vs)
| conf_map r k v kvs : In (TRestricted r) ts -> r_kind r = map_t -> r_of r = [k; v] ->
    Forall (fun kv => conforms ts k (fst kv) /\ conforms ts v (snd kv)) kvs ->
    conforms ts (r_name r) (VMap (r_descriptor r) kvs)
| conf_enum r c o : In (TRestricted r) ts -> r_kind r = enum_t -> In c (r_choices r) ->
    conforms ts (r_name r) (VEnum (r_descriptor r) c o).

(** Every fingerprint stands for one entry. *)
Definition distinct_fingerprints (ts : list notation) : Prop :=
  forall t u, In t ts -> In u ts -> n_descriptor t = n_descriptor u -> t = u.

(** ** Serialisers installed by the user *)

(** They may move the read position among the values of the level they are
    called on, and must not change the data. *)
Definition stays_put {A} (m : PM A) : Prop := forall d,
  match m d with
  | Ok _ d' | Throw _ d' => ups d' = ups d /\ siblings (here d') = siblings (here d)
  | Fuel => False
  | _ => True
  end.

(** ** Brackets *)

Definition bracket (c : ascii) : bool :=
  existsb (Ascii.eqb c) ["{"; "}"; "["; "]"]%char.

(** Texts in which braces and brackets match. *)
Inductive balanced : string -> Prop :=
| bal_nil : balanced ""
| bal_char c s : bracket c = false -> balanced s -> balanced (String c s)
| bal_braces s t : balanced s -> balanced t -> balanced ("{" ++ s ++ "}" ++ t)
| bal_brackets s t : balanced s -> balanced t -> balanced ("[" ++ s ++ "]" ++ t).

Fixpoint no_bracket (s : string) : Prop :=
  match s with "" => True | String c s' => bracket c = false /\ no_bracket s' end.

(** No string stored in the tree has a bracket. *)
Fixpoint strings_clean (t : tree) : Prop :=
  let 'Node a cs := t in
  match a with AString s | ASymbol s => no_bracket s | _ => True end /\
  fold_right (fun t P => strings_clean t /\ P) True cs.

(** No property of a class of the schema has a bracket in its name. *)
Definition names_clean (ts : list notation) : Prop :=
  forall c fd, In (TComposite c) ts -> In fd (c_fields c) -> no_bracket (f_name fd).

(** ** Factories *)

(** The factory has seen no other type with the name of one of these, and
    nobody has installed a serialiser for one of these or a primitive type. *)
Definition consistent (h : list op) (ts : list notation) : Prop :=
  (forall t u, In t ts -> In u (entries_of h ++ ts) -> n_name u = n_name t -> u = t) /\
  (forall r, In (Install r) h -> SpecTypes.primitive_name (reader_type r) = false /\
                                 forall t, In t ts -> reader_type r <> n_name t).

(** The fingerprint at the head of a value. *)
Definition fingerprint_of (v : value) : option string :=
  match v with
  | VObject fp _ | VList fp _ | VMap fp _ | VEnum fp _ _ => Some fp
  | _ => None
  end.

(** The payload of a blob is the first thing in the list that describes it. *)
Definition payload_clean (blob : tree) : Prop :=
  match blob with
  | Node _ (_ :: Node _ (p :: _) :: _) => strings_clean p
  | _ => True
  end.

(** A blob that holds one object of a class [net.A] with one property [p] of
    type [ty], whose value is stored as [t]. *)
Definition one_property (ty : string) : wire_field :=
  {| w_name := "p"; w_type := ty; w_requires := []; w_default := None; w_label := None;
     w_mandatory := true; w_multiple := false |}.
Definition one_class (ty : string) : wire_type :=
  WClass {| wc_name := "net.A"; wc_label := None; wc_provides := []; wc_fingerprint := "net.corda:a";
            wc_fields := [one_property ty] |}.
Definition blob_with (ty : string) (t : tree) : tree :=
  envelope_tree (payload_tree "net.corda:a" [list_of [t]]) [[one_class ty]] [leaf ANull].
(** The text printed when the property shows as [x]. *)
Definition text_with (x : string) : string := "{ Parsed : { p : " ++ x ++ " } }".

(** ** Data without a schema *)

(** What the raw dumper sees: single values, lists, and lists that carry a
    fingerprint. *)
Inductive raw : Type :=
| RawValue (a : atom)
| RawList (elements : list raw)
| RawDescribed (fp : string) (elements : list raw).

Definition simple (a : atom) : Prop :=
  match a with ADescribed | AList | AMap => False | _ => True end.
Fixpoint all_simple (r : raw) : Prop :=
  match r with
  | RawValue a => simple a
  | RawList es | RawDescribed _ es => fold_right (fun e P => all_simple e /\ P) True es
  end.

Fixpoint raw_tree (r : raw) : tree :=
  match r with
  | RawValue a => leaf a
  | RawList es => list_of (map raw_tree es)
  | RawDescribed fp es => payload_tree fp [list_of (map raw_tree es)]
  end.

Section RawText.
Context (double float : N -> string) (numeral : Z -> string).
(** Numbers, booleans and strings by value, everything else by its kind. *)
Definition raw_value (a : atom) : string :=
  match a with
  | AInt z | ALong z => numeral z
  | AUInt n | AULong n => numeral (Z.of_N n)
  | ADouble b => double b
  | AFloat b => float b
  | ABool b => if b then "true" else "false"
  | AString s => s
  | ASymbol _ => "<<SYMBOL>>"
  | ANull => "null" | AUByte _ => "unsigned byte" | AByte _ => "byte" | AUShort _ => "unsigned short"
  | AShort _ => "short" | AChar _ => "char" | ATimestamp _ => "timestamp" | ADecimal32 _ => "decimal-32"
  | ADecimal64 _ => "decimal-64" | ADecimal128 _ => "decimal-128" | AUuid _ => "uuid" | ABinary _ => "binary"
  | ADescribed => "described" | AArray => "array" | AList => "list" | AMap => "map"
  end.
Definition in_brackets (what : string) (es : list string) : string :=
  "[ " ++ match es with [] => what | _ => String.concat ", " es end ++ " ]".
Fixpoint raw_text (r : raw) : string :=
  match r with
  | RawValue a => raw_value a
  | RawList es => in_brackets "<<<Empty List>>>" (map raw_text es)
  | RawDescribed fp es => fp ++ " : " ++ in_brackets "<<<Empty List>>>" (map raw_text es)
  end.
End RawText.

(** A blob around a payload; [more] is what follows it in the envelope. *)
Definition raw_blob (payload : tree) (more : list tree) : tree := described 1 (list_of (payload :: more)).

(** A payload that is a map of single values: its keys and values in turn. *)
Definition raw_map (fp : string) (xs : list atom) : tree := payload_tree fp [Node AMap (map leaf xs)].
(** The i-th element, or the last one if there are fewer. *)
Definition nth_or_last (xs : list atom) (i : nat) : atom := nth (Nat.min i (List.length xs - 1)) xs ANull.
(** What the raw dumper makes of it. *)
Definition raw_map_text (double float : N -> string) (numeral : Z -> string) (xs : list atom) : string :=
  in_brackets "<<<Empty Map>>>"
    (map (fun j => raw_value double float numeral (nth_or_last xs (3 * j + 1)) ++ " : " ++
                   raw_value double float numeral (nth_or_last xs (3 * j + 2)))
         (seq 0 (List.length xs / 2))).
