(** What is on standard output after the envelope of a blob has been read, as a function of
    the decoded tree, and how that ends.  How it ends is as in SpecParse.v; the lines say
    which kind of element is being read, its names, and after each type all of the types
    so far. *)
From Verif Require Import Base OutputWriter SpecOutputWriter Proton SpecCursor TypeNames Ordering Schema SpecSchema Descriptors SpecDescriptors Factory Readers SpecReaders SpecAccept SpecReadScript SpecSchemaDump
  SpecDisplay SpecPrint SpecParse SpecFate SpecOutput Output SpecOutputReader OutputShow SpecOutputShow OutputParse.
Import List ListNotations.
Open Scope string_scope.

(** One after the other, each with the result of the one before. *)
Fixpoint following {A B} (f : A -> B -> heard A) (a : A) (l : list B) : heard A :=
  match l with
  | [] => silent (Gives a)
  | b :: l' => let^ a' := f a b in following f a' l'
  end.

Section Read.
(** The platform; what types of values are called, and their numbers; and what is written by
    functions that do not look into the blob (OutputParse.v). *)
Context (env : platform) (type_name : pn_type -> string) (type_number : pn_type -> Z) (also_told : tellings).
Definition count (n : nat) : string := number (Z.of_nat n).
Definition plainly {A} (r : ending A) : heard A := silent (of_ending r).
Definition besides {A} (text : string) (r : ending A) : heard A := (text, of_ending r).

(** All the types so far: levels, each with its types and an empty line. *)
Definition listing (groups : list (list notation)) : string :=
  String.concat "" (map (fun l => l ++ newline) (level_lines count (map (map n_name) groups))).

Definition there {A} (o : option tree) (f : tree -> heard A) : heard A :=
  match o with Some t => f t | None => silent (Raises RuntimeError) end.
(** A name that may be absent. *)
Definition word_or_null (o : option tree) : heard string := let^ _ := SpecOutput.line "STRING" in plainly (name_or_null_of o).

Section Elements.
Context (inner : tree -> heard element).
Definition property_told (body : tree) : heard element :=
  let^ _ := note env "FieldDescriptor.cxx" 33 "FIELD" in
  let^ name := plainly (text_of (part 0 body)) in
  let^ _ := note env "FieldDescriptor.cxx" 42 ("FIELD::name: """ ++ name ++ """") in
  let^ type := plainly (text_of (part 1 body)) in
  let^ _ := note env "FieldDescriptor.cxx" 49 ("FIELD::type: """ ++ type ++ """") in
  let^ requires := plainly (texts_of (part 2 body)) in
  let^ default := plainly (text_or_null_of (part 3 body)) in
  let^ label := plainly (text_or_null_of (part 4 body)) in
  let^ mandatory := plainly (truth_of (part 5 body)) in
  let^ multiple := plainly (truth_of (part 6 body)) in
  let^ f := besides (field_text also_told name type requires default label mandatory multiple)
              (property_of name type requires default label mandatory multiple) in
  silent (Gives (EField f)).
Definition fingerprint_told (body : tree) : heard element :=
  let^ _ := note env "ObjectDescriptor.cxx" 32 "DESCRIPTOR" in
  plainly (parse_fingerprint body).
Definition class_told (body : tree) : heard element :=
  let^ _ := note env "CompositeDescriptor.cxx" 42 "COMPOSITE" in
  let^ name := plainly (text_of (part 0 body)) in
  let^ label := plainly (text_or_null_of (part 1 body)) in
  let^ provides := plainly (texts_of (part 2 body)) in
  let^ e := there (part 3 body) inner in
  let^ fingerprint := plainly (a_fingerprint e) in
  let^ fields := in_turn (fun t => let^ e := inner t in plainly (a_property e)) (members (part 4 body)) in
  silent (Gives (EType (TComposite {| c_name := name; c_label := label; c_provides := provides; c_descriptor := fingerprint; c_fields := fields |}))).
Definition container_told (body : tree) : heard element :=
  let^ _ := note env "RestrictedDescriptor.cxx" 104 "RESTRICTED" in
  let^ name := word (part 0 body) in
  let^ label := word_or_null (part 1 body) in
  let^ _ := note env "RestrictedDescriptor.cxx" 112 ("  name: " ++ makePrim name ++ ", label: """ ++ label ++ """") in
  let^ provides := in_turn (fun t => let^ s := plainly (text_of (Some t)) in
                                     let^ _ := note env "RestrictedDescriptor.cxx" 120 ("  provides: " ++ s) in
                                     silent (Gives s)) (members (part 2 body)) in
  let^ source := word (part 3 body) in
  let^ _ := note env "RestrictedDescriptor.cxx" 128 ("source: " ++ source) in
  let^ e := there (part 4 body) inner in
  let^ fingerprint := plainly (a_fingerprint e) in
  let^ _ := note env "RestrictedDescriptor.cxx" 134 ("choices: " ++ node_shown type_name type_number (part 5 body)) in
  let^ choices := in_turn (fun t => let^ e := inner t in
                                    let^ c := plainly (a_choice e) in
                                    let^ _ := note env "RestrictedDescriptor.cxx" 143 (" choice: " ++ c) in
                                    silent (Gives c)) (members (part 5 body)) in
  let^ _ := note env "RestrictedDescriptor.cxx" 147 (node_shown type_name type_number (part 5 body)) in
  let^ r := besides (container_text also_told fingerprint (makePrim name) label provides source choices)
              (container_of fingerprint (makePrim name) label provides source choices) in
  silent (Gives (EType (TRestricted r))).
(** A type is read and put in its place. *)
Definition type_told (groups : list (list notation)) (t : tree) : heard (list (list notation)) :=
  let^ e := inner t in
  let^ x := plainly (a_type e) in
  let^ groups' := besides (insert_text also_told x groups) (result_of (insert notation dependsOn x groups)) in
  let^ _ := note env "SchemaDescriptor.cxx" 55 ("=======" ++ newline ++ listing groups' ++ "======") in
  silent (Gives groups').
(** In the end all types are written, one a line, with their fingerprints. *)
Definition type_line (t : notation) : string := at_line env "Schema.cxx" 47 ("Schema: " ++ n_descriptor t ++ " " ++ n_name t).
Definition schema_told (body : tree) : heard element :=
  let^ _ := note env "SchemaDescriptor.cxx" 35 "SCHEMA" in
  let^ groups := following (fun groups p =>
    let^ _ := note env "SchemaDescriptor.cxx" 48 ("  " ++ count (S (fst p)) ++ "/" ++ count (length (parts_of_list (Some body)))) in
    following type_told groups (tree_children (snd p))) [] (numbered (tree_children body)) in
  let^ _ := (String.concat "" (map type_line (List.concat groups)), Gives tt) in
  silent (Gives (ESchema {| s_types := groups |})).
(** Of the payload only the fingerprint is looked at. *)
Definition envelope_told (body : tree) : heard element :=
  let^ _ := note env "EnvelopeDescriptor.cxx" 106 "ENVELOPE" in
  let^ fingerprint := there (part 0 body) (fun payload =>
    match tree_atom payload with ADescribed => plainly (symbol_of (part 0 payload)) | _ => silent (Raises RuntimeError) end) in
  let^ e := there (part 1 body) inner in
  let^ s := plainly (a_schema e) in
  silent (Gives (EEnvelope {| e_schema := s; e_descriptor := fingerprint |})).
(** Elements that are not read. *)
Definition other_told (number : Z) (words : string) (body : tree) : heard element :=
  let^ _ := note env "AMQPDescriptors.cxx" number (words ++ node_shown type_name type_number (Some body)) in silent (Gives ENull).
Definition element_told (code : N) (body : tree) : heard element :=
  if N.eqb code 22 then silent (Raises RuntimeError)
  else if N.eqb code (vendor 1) then envelope_told body
  else if N.eqb code (vendor 2) then schema_told body
  else if N.eqb code (vendor 3) then fingerprint_told body
  else if N.eqb code (vendor 4) then property_told body
  else if N.eqb code (vendor 5) then class_told body
  else if N.eqb code (vendor 6) then container_told body
  else if N.eqb code (vendor 7) then plainly (parse_choice body)
  else if N.eqb code (vendor 8) then other_told 40 "REFERENCED OBJECT " body
  else if N.eqb code (vendor 9) then other_told 52 "TRANSFORM SCHEMA " body
  else if N.eqb code (vendor 10) then other_told 64 "TRANSFORM ELEMENT " body
  else if N.eqb code (vendor 11) then other_told 76 "TRANSFORM ELEMENT KEY" body
  else silent Wild.
End Elements.

(** [n] bounds the depth; any bound that is greater than the height of the tree will do. *)
Fixpoint parse_told (n : nat) (t : tree) : heard element :=
  match n with
  | 0 => silent Wild
  | S n' =>
      match t with
      | Node ADescribed (Node (AULong code) _ :: _) => there (part 1 t) (element_told (parse_told n') code)
      | _ => silent (Raises RuntimeError)
      end
  end.
Definition envelope_aloud (t : tree) : heard envelope :=
  match described_by t with
  | Some _ => let^ e := parse_told (S (height t)) t in match e with EEnvelope x => silent (Gives x) | _ => silent Wild end
  | None => silent Wild
  end.

(** All that inspecting a blob writes, when the factory is [cf], with the serialisers [rs]. *)
Definition inspected_all_aloud (double : N -> string) (answers : nat -> option string -> option tree -> heard string) (map_order entry_order : bool) (rs : list reader)
    (cf : factory) (t : tree) : heard string :=
  let^ e := envelope_aloud t in
  let^ _ := (process_text also_told (e_schema e) cf, prepare map_order (map reader_type rs) (List.concat (s_types (e_schema e)))) in
  match payload_type e with
  | None => silent Stops
  | Some n => payload_aloud env double answers entry_order rs e (n_name n) t
  end.
End Read.
