(** How dumping the schema of a blob ends, for any blob at all, as a function of the
    decoded tree: the text, the exception, or that the program aborts ([Stops]) or has
    undefined behaviour ([Wild]).  There are no positions, scopes or streams here;
    parts are looked at in order, and the first that is not as expected decides.
    Parts that are missing or surplus are treated as in SpecAccept.v; the outline is
    that of SpecSchemaDump.v. *)
From Verif Require Import Base Proton SpecCursor SpecTypes SpecNames SpecDescriptors SpecAccept SpecDisplay SpecReadScript SpecParse SpecFate SpecSchemaDump.
Import List ListNotations.
Open Scope string_scope.

(** The first, the second and so on. *)
Fixpoint in_turn {A} (f : nat -> tree -> fate A) (i : nat) (ts : list tree) : fate (list A) :=
  match ts with
  | [] => Gives []
  | t :: ts' => let% x := f i t in let% xs := in_turn f (S i) ts' in Gives (x :: xs)
  end.

Definition a_list (o : option tree) : fate tree :=
  match o with Some (Node AList cs) => Gives (Node AList cs) | _ => Raises RuntimeError end.
(** Where an element is expected there should be one: nothing checks that. *)
Definition element {A} (inner : tree -> fate A) (o : option tree) : fate A :=
  match o with Some (Node ADescribed cs) => inner (Node ADescribed cs) | _ => Wild end.
Definition text_at (o : option tree) : fate string := of_ending (text_of o).
Definition text_or_null_at (o : option tree) : fate string := of_ending (text_or_null_of o).
Definition symbol_at (o : option tree) : fate string := of_ending (symbol_of o).
Definition name_at (o : option tree) : fate string := of_ending (name_of o).
Definition name_or_null_at (o : option tree) : fate string := of_ending (name_or_null_of o).
Definition truth_at (o : option tree) : fate bool := of_ending (truth_of o).
Definition texts_at (o : option tree) : fate (list string) := of_ending (texts_of o).

(** Corda's codes. *)
Inductive kind : Type := Envelope | Schema_ | Fingerprint | Property | Class | Container | Other.
Definition codes : list (N * (string * kind)) :=
  [ (vendor 1, ("ENVELOPE", Envelope)); (vendor 2, ("SCHEMA", Schema_)); (vendor 3, ("OBJECT_DESCRIPTOR", Fingerprint));
    (vendor 4, ("FIELD", Property)); (vendor 5, ("COMPOSITE_TYPE", Class)); (vendor 6, ("RESTRICTED_TYPE", Container));
    (vendor 7, ("CHOICE", Other)); (vendor 8, ("REFERENCED_OBJECT", Other)); (vendor 9, ("TRANSFORM_SCHEMA", Other));
    (vendor 10, ("TRANSFORM_ELEMENT", Other)); (vendor 11, ("TRANSFORM_ELEMENT_KEY", Other)); (22%N, ("UNKNOWN", Other)) ].
Definition code_of (key : N) : fate (string * kind) :=
  match find (fun c => N.eqb key (fst c)) codes with Some (_, c) => Gives c | None => Wild end.

(** A described element: described by a number, with a list, or by a symbol. *)
Inductive descriptor_of : Type := ByCode (key : N) (name : string) (k : kind) (body : tree) | BySymbol (s : string).
Definition opened (t : tree) : fate descriptor_of :=
  match part 0 t with
  | Some (Node (AULong key) _) =>
      let% body := a_list (part 1 t) in
      let% (name, k) := code_of key in Gives (ByCode key name k body)
  | Some (Node (ASymbol s) _) => Gives (BySymbol s)
  | _ => Raises RuntimeError
  end.

(** ** The raw form *)

(** One node: the number of its type, in two columns, the name of its type, and its
    value if it is of some simple types. *)
Section Raw.
Context (type_name : pn_type -> string).
Definition number_of (a : atom) : nat :=
  match a with
  | ANull => 1 | ABool _ => 2 | AUByte _ => 3 | AByte _ => 4 | AUShort _ => 5 | AShort _ => 6 | AUInt _ => 7 | AInt _ => 8 | AChar _ => 9
  | AULong _ => 10 | ALong _ => 11 | ATimestamp _ => 12 | AFloat _ => 13 | ADouble _ => 14 | ADecimal32 _ => 15 | ADecimal64 _ => 16
  | ADecimal128 _ => 17 | AUuid _ => 18 | ABinary _ => 19 | AString _ => 20 | ASymbol _ => 21 | ADescribed => 22 | AArray => 23
  | AList => 24 | AMap => 25
  end.
Definition node_text (t : tree) : string :=
  let number := number_of (tree_atom t) in
  (if Nat.leb number 9 then " " else "") ++ count number ++ " " ++ type_name (atom_type (tree_atom t)) ++
  match tree_atom t with
  | AULong n => " " ++ decimal (Z.of_N n)
  | AInt z => " " ++ decimal z
  | ABool b => if b then " true" else " false"
  | AString s => " " ++ s
  | ASymbol s => " " ++ count (String.length s) ++ newline ++ "   -> " ++ String.concat "" (map (fun c => String c " ") (list_ascii_of_string s))
  | AList => " #entries: " ++ count (length (tree_children t))
  | _ => ""
  end.

(** [n] is the depth of the lines of the parts, [inner] says how elements inside end. *)
Section Parts.
Context (inner : nat -> tree -> fate (list line)).
Definition raw_envelope (n : nat) (body : tree) : fate (list line) :=
  let% payload := element (inner (S n)) (part 0 body) in
  let% section := element (inner (S n)) (part 1 body) in
  Gives (List.concat [[(n, "1]")]; payload; [(n, "2]")]; section]).
Definition raw_types (n i : nat) (g : tree) : fate (list line) :=
  let% xs := in_turn (fun j t =>
    let% x := element (inner (S (S n))) (Some t) in
    Gives ((S n, count i ++ ":" ++ count j ++ "/" ++ count (length (tree_children g)) ++ "] ") :: x)) 1 (tree_children g) in
  Gives (List.concat xs).
Definition raw_schema (n : nat) (body : tree) : fate (list line) :=
  let% xs := in_turn (fun i t =>
    let% g := a_list (Some t) in
    let% x := raw_types n i g in
    Gives ((n, count i ++ "/" ++ count (length (tree_children body)) ++ "] list: entries: " ++ count (length (tree_children g))) :: x)) 1 (tree_children body) in
  Gives (List.concat xs).
Definition raw_fingerprint (n : nat) (body : tree) : fate (list line) :=
  let% fp := symbol_at (part 0 body) in
  match part 1 body with
  | Some t => Gives [(n, "1/2] " ++ fp); (n, "2/2] " ++ node_text t)]
  | None => Wild
  end.
Definition raw_property (n : nat) (body : tree) : fate (list line) :=
  let% name := text_at (part 0 body) in
  let% type := text_at (part 1 body) in
  let% requires := texts_at (part 2 body) in
  let% default := text_or_null_at (part 3 body) in
  let% label := text_or_null_at (part 4 body) in
  let% mandatory := truth_at (part 5 body) in
  let% multiple := truth_at (part 6 body) in
  Gives (List.concat [
         [(n, "1/7] String: Name: " ++ name); (n, "2/7] String: Type: " ++ type);
          (n, "3/7] List: Requires: elements " ++ count (length (parts_of_list (part 2 body))))];
         map (fun r => (S n, r)) requires;
         [(n, "4/7] String: Default: " ++ default); (n, "5/7] String: Label: " ++ label);
          (n, "6/7] Boolean: Mandatory: " ++ flag mandatory); (n, "7/7] Boolean: Multiple: " ++ flag multiple)]]).
Definition raw_class (n : nat) (body : tree) : fate (list line) :=
  let% name := name_at (part 0 body) in
  let% label := name_or_null_at (part 1 body) in
  let% interfaces := a_list (part 2 body) in
  let% provides := texts_at (Some interfaces) in
  let% fingerprint := let% t := described_tree (part 3 body) in inner (S n) t in
  let% properties := in_turn (fun i t =>
    let% x := element (inner (S (S n))) (Some t) in
    Gives ((S n, count i ++ "/" ++ count (length (parts_of_list (part 4 body))) ++ "]") :: x)) 1 (members (part 4 body)) in
  Gives (List.concat [
         [(n, "1] String: ClassName: " ++ name); (n, "2] String: Label: " ++ quoted label);
          (n, "3] List: Provides: [ " ++ String.concat "" (map (fun p => margin n ++ p ++ " ") provides) ++ "]");
          (n, "4] Descriptor:")]; fingerprint; [(n, "5] List: Fields: ")]; List.concat properties]).
Definition raw_container (n : nat) (body : tree) : fate (list line) :=
  let% name := name_at (part 0 body) in
  let% label := name_or_null_at (part 1 body) in
  let% provides := texts_at (part 2 body) in
  let% source := name_at (part 3 body) in
  let% fingerprint := element (inner (S n)) (part 4 body) in
  Gives (List.concat [
         [(n, "1] String: Name: " ++ name); (n, "2] String: Label: " ++ label);
          (n, "3] List: Provides: [ " ++ String.concat "" (map (fun p => p ++ " ") provides) ++ "]");
          (n, "4] String: Source: " ++ source); (n, "5] Descriptor:")]; fingerprint]).
(** What has another code is taken to be an element itself. *)
Definition raw_parts (k : kind) (n : nat) (body : tree) : fate (list line) :=
  match k with
  | Envelope => raw_envelope (S n) body
  | Schema_ => raw_schema (S n) body
  | Fingerprint => raw_fingerprint (S n) body
  | Property => raw_property (S n) body
  | Class => raw_class (S n) body
  | Container => raw_container (S n) body
  | Other => inner n body
  end.
Definition raw_element (n : nat) (t : tree) : fate (list line) :=
  let% d := opened t in
  match d with
  | ByCode key name k body =>
      let% parts := raw_parts k (S n) body in
      Gives ((n, "DESCRIBED: ") ::
             (S n, "key  : " ++ decimal (Z.of_N key) ++ " :: " ++ decimal (Z.of_N (key mod 2 ^ 32)) ++ " -> " ++ name) ::
             (S n, "list : entries: " ++ count (length (tree_children body))) :: parts)
  | BySymbol s => Gives [(n, "DESCRIBED: "); (S n, "blob: bytes: " ++ count (String.length s))]
  end.
End Parts.
(** [b] bounds the depth; any bound greater than the height of the tree will do. *)
Fixpoint raw (b n : nat) (t : tree) : fate (list line) :=
  match b with 0 => Wild | S b' => raw_element (raw b') n t end.
End Raw.

(** ** The Avro form *)

(** [s], up to the last of the given character *)
Fixpoint before_last (c : ascii) (s : string) : option string :=
  match s with
  | EmptyString => None
  | String d s' => match before_last c s' with
                   | Some x => Some (String d x)
                   | None => if Ascii.eqb c d then Some "" else None
                   end
  end.
(** and what comes after it *)
Fixpoint after_last (c : ascii) (s : string) : option string :=
  match s with
  | EmptyString => None
  | String d s' => match after_last c s' with
                   | Some x => Some x
                   | None => if Ascii.eqb c d then Some s' else None
                   end
  end.

Definition container_name (s : string) : fate bool :=
  if unclear s then Wild else Gives (array_name s || list_name s || map_name s).
(** The type of a property, taken apart; [b] bounds the nesting, any bound greater
    than the length will do. *)
Definition entry (n : nat) (key rest : string) : string := margin n ++ quoted key ++ " : " ++ rest.
Fixpoint type_text (b n : nat) (type : string) : fate string :=
  match b with
  | 0 => Wild
  | S b' =>
      let of_elements e opening closing :=
        let% c := container_name e in
        if c then let% x := type_text b' (S n) e in
          Gives (entry n "type" (quoted "array" ++ ",") ++ newline ++ entry n "items" opening ++ x ++ margin n ++ closing)
        else Gives (entry n "type" (quoted "array" ++ ",") ++ newline ++ entry n "items" e ++ newline) in
      if unclear type then Wild
      else if array_name type then
        of_elements (match before_last "[" type with Some e => e | None => type end) ("{ " ++ newline) ("}" ++ newline)
      else if list_name type then of_elements (snd (list_parts type)) "{" "}"
      else if map_name type then
        let% (_, _, v) := of_ending (taken_apart (map_parts type)) in
        let% c := container_name v in
        let opening := entry n "type" (String "034" "map," ++ newline) ++ margin n ++ String "034" "values" in
        if c then let% x := type_text b' (S n) v in
          Gives (opening ++ String "034" " : {" ++ x ++ margin n ++ "}")
        else Gives (opening ++ ": " ++ v ++ newline)
      else Gives (entry n "type" (quoted type) ++ newline)
  end.
Definition type_of (n : nat) (type : string) : fate string := type_text (S (String.length type)) n type.

Section AvroParts.
Context (inner : nat -> tree -> fate string).
Definition avro_property (n : nat) (body : tree) : fate string :=
  let% name := text_at (part 0 body) in
  let% type := text_at (part 1 body) in
  let% required := match parts_of_list (part 2 body) with t :: _ => text_at (Some t) | [] => Gives "" end in
  let% x := type_of (S n) (if String.eqb type "*" then required else type) in
  Gives (margin n ++ "{" ++ newline ++ entry (S n) "name" (quoted name ++ ", ") ++ newline ++ x ++ margin n ++ "}").
Definition avro_fingerprint (n : nat) (body : tree) : fate string :=
  let% fp := symbol_at (part 0 body) in
  Gives (entry n "aliases" ("[ " ++ quoted fp ++ " ],") ++ newline).
(** All types must be in one group. *)
Definition avro_schema (n : nat) (body : tree) : fate string :=
  match tree_children body with
  | [g] =>
      let% xs := in_turn (fun j t =>
        let% x := element (inner n) (Some t) in
        Gives (if String.eqb x "" then "" else x ++ (if Nat.ltb j (length (elements g)) then "," else "") ++ newline)) 1 (tree_children g) in
      Gives (String.concat "" xs)
  | _ => Stops
  end.
Definition avro_class (n : nat) (body : tree) : fate string :=
  let% name := name_at (part 0 body) in
  let% _ := text_or_null_at (part 1 body) in
  let% _ := a_list (part 2 body) in
  let% alias := let% t := described_tree (part 3 body) in inner (S n) t in
  let% properties := in_turn (fun i t =>
    let% x := element (inner (S (S n))) (Some t) in
    Gives (x ++ (if Nat.ltb i (length (parts_of_list (part 4 body))) then "," else "") ++ newline)) 1 (members (part 4 body)) in
  let short := match after_last "." name with Some s => s | None => name end in
  let package := match before_last "." name with Some s => s | None => name end in
  Gives ("{" ++ newline ++ entry (S n) "type" (quoted "record" ++ ",") ++ newline ++
         entry (S n) "name" (quoted short ++ ",") ++ newline ++ entry (S n) "namespace" (quoted package ++ ",") ++ newline ++
         alias ++ entry (S n) "fields" "[" ++ newline ++ String.concat "" properties ++ margin (S n) ++ "]" ++ newline ++ "}").
(** Lists, maps, arrays and enums are left out. *)
Definition avro_parts (k : kind) (n : nat) (body : tree) : fate string :=
  match k with
  | Envelope => element (inner n) (part 1 body)
  | Schema_ => avro_schema n body
  | Fingerprint => avro_fingerprint n body
  | Property => avro_property n body
  | Class => avro_class n body
  | Container => Gives ""
  | Other => inner n body
  end.
Definition avro_element (n : nat) (t : tree) : fate string :=
  let% d := opened t in
  match d with
  | ByCode _ _ k body => avro_parts k n body
  | BySymbol s => Gives (margin n ++ "blob: bytes: " ++ count (String.length s) ++ newline)
  end.
End AvroParts.
Fixpoint avro (b n : nat) (t : tree) : fate string :=
  match b with 0 => Wild | S b' => avro_element (avro b') n t end.

(** ** The whole *)
Definition raw_dump (type_name : pn_type -> string) (t : tree) : fate string :=
  let% t := described_tree (Some t) in
  let% ls := raw type_name (S (height t)) 0 t in Gives (lay ls).
Definition avro_dump (t : tree) : fate string :=
  let% t := described_tree (Some t) in avro (S (height t)) 0 t.

(** ** Trees that are safe to dump *)
Definition is_element (o : option tree) : bool := match o with Some (Node ADescribed _) => true | _ => false end.
(** The code is known, and where an element is expected there is one. *)
Definition dumpable (t : tree) : bool :=
  match opened t with
  | Gives (ByCode _ _ k body) =>
      match k with
      | Envelope => is_element (part 0 body) && is_element (part 1 body)
      | Schema_ => forallb (fun t => is_element (Some t)) (flat_map tree_children (tree_children body))
      | Class => forallb (fun t => is_element (Some t)) (members (part 4 body))
      | Container => is_element (part 4 body)
      | Fingerprint | Property | Other => true
      end
  | Wild => false
  | _ => true
  end.
(** The type of a property can be taken apart: neither it nor a type it is made of is
    too short to tell if it is an array's. *)
Definition readable (t : tree) : bool :=
  match opened t with
  | Gives (ByCode _ _ Property body) =>
      match text_at (part 1 body) with
      | Gives type =>
          let required := match parts_of_list (part 2 body) with t :: _ => text_at (Some t) | [] => Gives "" end in
          match required with
          | Gives r => match type_of 0 (if String.eqb type "*" then r else type) with Wild => false | _ => true end
          | _ => true
          end
      | _ => true
      end
  | _ => true
  end.
(** A schema section has one group of types. *)
Definition one_group (t : tree) : bool :=
  match opened t with
  | Gives (ByCode _ _ Schema_ body) => Nat.eqb (length (tree_children body)) 1
  | _ => true
  end.
