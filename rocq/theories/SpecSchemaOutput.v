(** What is on standard output after dumping the schema of a blob, besides the result,
    as a function of the decoded tree.  How the dump ends is SpecSchemaFate.v's; here
    parts are looked at in the same order, for the lines that the library writes on
    the way: one whenever something turned out to be a list, one before every name of
    a class or container, its label, and its source, and in the Avro form one for
    every element, and one more for some. *)
From Verif Require Import Base Proton SpecCursor SpecDescriptors SpecAccept SpecReadScript SpecParse SpecFate SpecOutput SpecSchemaFate.
Import List ListNotations.
Open Scope string_scope.

Section Heard.
(** Where the source files are (on the machine that compiled them). *)
Context (file : string -> string).
Notation heard_list := (list_line (file "proton_wrapper.cxx")).

Definition list_said (o : option tree) : heard tree :=
  let^ t := silent (a_list o) in let^ _ := heard_list in silent (Gives t).
Definition name_said (o : option tree) : heard string :=
  let^ _ := line "STRING" in silent (name_at o).
Definition name_or_null_said (o : option tree) : heard string :=
  let^ _ := line "STRING" in silent (name_or_null_at o).
Definition done {A} (r : fate A) : heard unit := let^ _ := silent r in silent (Gives tt).

Section Elements.
(** What is written for the elements inside. *)
Context (inner : tree -> heard unit).
Definition element_said (o : option tree) : heard unit :=
  let^ t := silent (element Gives o) in inner t.
Definition elements_said (ts : list tree) : heard unit :=
  let^ _ := SpecOutput.in_turn (fun t => element_said (Some t)) ts in silent (Gives tt).

(** ** The raw form *)
Definition raw_parts_said (k : kind) (body : tree) : heard unit :=
  match k with
  | Envelope =>
      let^ _ := heard_list in
      let^ _ := element_said (part 0 body) in
      element_said (part 1 body)
  | Schema_ =>
      let^ _ := heard_list in
      let^ _ := SpecOutput.in_turn (fun t => let^ g := list_said (Some t) in elements_said (tree_children g)) (tree_children body) in
      silent (Gives tt)
  | Fingerprint => let^ _ := heard_list in done (symbol_at (part 0 body))
  | Property => let^ _ := heard_list in done (raw_property 0 body)
  | Class =>
      let^ _ := heard_list in
      let^ _ := name_said (part 0 body) in
      let^ _ := name_or_null_said (part 1 body) in
      let^ interfaces := list_said (part 2 body) in
      let^ _ := silent (texts_at (Some interfaces)) in
      let^ fingerprint := silent (described_tree (part 3 body)) in
      let^ _ := inner fingerprint in
      elements_said (members (part 4 body))
  | Container =>
      let^ _ := heard_list in
      let^ _ := name_said (part 0 body) in
      let^ _ := name_or_null_said (part 1 body) in
      let^ _ := silent (texts_at (part 2 body)) in
      let^ _ := name_said (part 3 body) in
      element_said (part 4 body)
  | Other => inner body
  end.

(** ** The Avro form *)
Definition avro_parts_said (k : kind) (body : tree) : heard unit :=
  match k with
  | Envelope =>
      let^ _ := from (file "EnvelopeDescriptor.cxx") "76" "readAvro::Envelope" in
      let^ _ := heard_list in
      element_said (part 1 body)
  | Schema_ =>
      let^ _ := from (file "SchemaDescriptor.cxx") "108" "readAvro::Schema" in
      let^ _ := heard_list in
      match tree_children body with
      | [g] => elements_said (tree_children g)
      | _ => silent Stops
      end
  | Fingerprint =>
      let^ _ := from (file "ObjectDescriptor.cxx") "77" "readAvro::Object" in
      let^ _ := heard_list in
      done (symbol_at (part 0 body))
  | Property => let^ _ := heard_list in done (avro_property 0 body)
  | Class =>
      let^ _ := from (file "CompositeDescriptor.cxx") "165" "readAvro::Composite" in
      let^ _ := heard_list in
      let^ _ := name_said (part 0 body) in
      let^ _ := silent (text_or_null_at (part 1 body)) in
      let^ _ := list_said (part 2 body) in
      let^ fingerprint := silent (described_tree (part 3 body)) in
      let^ _ := inner fingerprint in
      elements_said (members (part 4 body))
  | Container => silent (Gives tt)
  | Other => inner body
  end.

(** An element is first found to be described by a code and a list; the code is looked
    up after that. *)
Definition opened_said (parts : kind -> tree -> heard unit) (t : tree) : heard unit :=
  match part 0 t with
  | Some (Node (AULong key) _) =>
      let^ body := list_said (part 1 t) in
      let^ (_, k) := silent (code_of key) in
      parts k body
  | Some (Node (ASymbol _) _) => silent (Gives tt)
  | _ => silent (Raises RuntimeError)
  end.
Definition raw_element_said (t : tree) : heard unit := opened_said raw_parts_said t.
Definition avro_element_said (t : tree) : heard unit :=
  let^ _ := from (file "AMQPDescriptor.cxx") "136" "readAvro::Descriptor" in
  opened_said avro_parts_said t.
End Elements.

(** [b] bounds the depth; any bound greater than the height of the tree will do. *)
Fixpoint raw_said (b : nat) (t : tree) : heard unit :=
  match b with 0 => silent Wild | S b' => raw_element_said (raw_said b') t end.
Fixpoint avro_said (b : nat) (t : tree) : heard unit :=
  match b with 0 => silent Wild | S b' => avro_element_said (avro_said b') t end.

(** ** The whole *)
Definition raw_lines (t : tree) : string :=
  fst (let^ t := silent (described_tree (Some t)) in raw_said (S (height t)) t).
Definition avro_lines (t : tree) : string :=
  fst (let^ t := silent (described_tree (Some t)) in avro_said (S (height t)) t).
End Heard.
