(** What the library should write while it makes the readers for a schema, and how that
    ends. *)
From Verif Require Import Base OutputWriter SpecOutputWriter SpecTypes TypeNames Schema Factory SpecOutput OutputReader SpecOutputReader SpecFate OutputProcess SpecOutputMake.
Import List ListNotations.
Open Scope string_scope.

(** The types there is a serialiser for, and what that calls itself. *)
Definition book : Type := list (string * string).
Definition primitive_book : book :=
  [("int", "Integer Serialiser"); ("long", "Long Serialiser"); ("double", "Double Serialiser"); ("boolean", "Boolean Serialiser");
   ("string", "String Serialiser"); ("float", "Float Serialiser"); ("binary", "Binary Serialiser")].

Section Aloud.
Context (env : platform).
Definition says (number : Z) (text : string) : heard unit := note env "CompositeFactoryInternal.cxx" number text.

(** A serialiser that is there is taken; otherwise one is made and entered. *)
Definition taken_or (b : book) (type : string) (made : heard (string * book)) : heard book :=
  match assoc type b with
  | Some name =>
      let^ _ := says 61 ("ComputeIfAbsent """ ++ type ++ """ - found it") in
      let^ _ := says 62 ("                """ ++ type ++ """ - RTN: " ++ name) in
      silent (Gives b)
  | None =>
      let^ _ := says 50 ("ComputeIfAbsent """ ++ type ++ """ - missing") in
      let^ (name, b') := made in
      let^ _ := says (span env 52 53) ("                """ ++ type ++ """ - RTN: " ++ name ++ " : " ++ type) in
      let^ _ := says 56 (type ++ " =?= " ++ type) in
      silent (Gives ((type, name) :: b'))
  end.
Definition primitive_aloud (b : book) (type : string) : heard book :=
  taken_or b type (silent match assoc type primitive_book with Some name => Gives (name, b) | None => Raises RuntimeError end).
Definition must_be_there (b : book) (type : string) : heard book :=
  silent match assoc type b with Some _ => Gives b | None => Raises RuntimeError end.

(** A property of the class [self]. *)
Definition property_aloud (self : string) (b : book) (f : field) : heard book :=
  if has_type f then
    let^ _ := says (span env 146 148) ("  Field: " ++ f_name f ++ ": """ ++ f_type f ++ """ {" ++ first_character (shown_type f) ++ "} " ++ field_type (f_kind f)) in
    match f_kind f with
    | PrimitiveField =>
        let^ _ := says 154 ("    Field " ++ f_name f ++ "[" ++ f_type f ++ "] is primitive") in
        primitive_aloud b (f_type f)
    | CustomField => must_be_there b (shown_type f)
    | _ => if String.eqb (shown_type f) self then let^ _ := says 172 "IT ME!!!!" in silent (Gives b) else must_be_there b (shown_type f)
    end
  else silent Wild.
Fixpoint one_by_one {A} (f : book -> A -> heard book) (b : book) (l : list A) : heard book :=
  match l with
  | [] => silent (Gives b)
  | x :: l' => let^ b' := f b x in one_by_one f b' l'
  end.
(** What a container holds. *)
Definition element_aloud (b : book) (type : string) : heard book :=
  let^ _ := says 223 ("fetchReaderForRestricted - " ++ type) in
  let^ _ := note env "Field.cxx" 141 ("typeIsPrimitive - " ++ type) in
  if primitive_name type then let^ _ := says 226 "It's primitive" in primitive_aloud b type else must_be_there b type.

Definition type_made_aloud (key_first : bool) (b : book) (t : notation) : heard (string * book) :=
  match t with
  | TComposite c =>
      let^ _ := says 132 ("processComposite - " ++ c_name c) in
      let^ b' := one_by_one (property_aloud (c_name c)) b (c_fields c) in
      silent (Gives ("Composite Serialiser", b'))
  | TRestricted r =>
      let^ _ := says 309 ("processRestricted - " ++ r_name r) in
      let^ b' :=
        match r_kind r with
        | list_t => let^ _ := says 277 ("Processing List - " ++ of0 r) in element_aloud b (of0 r)
        | enum_t => let^ _ := says 207 ("Processing Enum - " ++ r_name r) in silent (Gives b)
        | map_t =>
            let^ _ := says (span env 256 258) ("Processing Map - " ++ of0 r ++ " " ++ of1 r) in
            one_by_one element_aloud b (if key_first then [of0 r; of1 r] else [of1 r; of0 r])
        | array_t =>
            let^ _ := says 327 "  array_t" in
            let^ _ := says 293 ("Processing Array - " ++ r_name r ++ " " ++ of0 r) in element_aloud b (of0 r)
        end in
      silent (Gives ("Restricted Serialiser", b'))
  end.
Definition type_aloud (key_first : bool) (b : book) (t : notation) : heard book :=
  let^ _ := says 108 ("process::" ++ n_name t) in
  taken_or b (n_name t) (type_made_aloud key_first b t).
Definition making_aloud (key_first : bool) (b : book) (s : schema) : heard book :=
  let^ _ := says 91 "process schema" in one_by_one (type_aloud key_first) b (List.concat (s_types s)).

(** A factory whose serialisers are those in the book, [called] saying what installed ones
    call themselves; no name has been looked for in vain. *)
Definition keeps_book (called : nat -> string) (f : factory) (b : book) : Prop := forall type,
  match assoc type (types f) with
  | Some (Some i) => exists r, nth_error (heap f) i = Some r /\ assoc type b = Some (reader_name called r)
  | Some None => False
  | None => assoc type b = None
  end.

(** The serialisers that have been installed, the last one first. *)
Definition installed_book (called : nat -> string) (rs : list reader) : book := rev (map (fun r => (reader_type r, reader_name called r)) rs).

(** The outcome without the text, and the text there was is kept. *)
Definition alike {A} (o : outcome (factory * string) A) (o' : outcome factory A) (before : string) : Prop :=
  match o' with
  | Ok a f => exists text, o = Ok a (f, before ++ text)
  | Throw e f => exists text, o = Throw e (f, before ++ text)
  | Abort => o = Abort | UB => o = UB | Fuel => o = Fuel
  end.

(** All that can show: names and types. *)
Definition outline (t : notation) : notation :=
  match t with
  | TComposite c =>
      let property f :=
        {| f_kind := f_kind f; f_name := f_name f; f_type := f_type f; f_requires := firstn 1 (f_requires f); f_default := ""; f_label := "";
           f_mandatory := false; f_multiple := false; f_subTypes := [] |} in
      TComposite {| c_name := c_name c; c_label := ""; c_provides := []; c_descriptor := ""; c_fields := map property (c_fields c) |}
  | TRestricted r => TRestricted {| r_kind := r_kind r; r_name := r_name r; r_label := ""; r_provides := []; r_descriptor := ""; r_source := "";
                                    r_of := r_of r; r_choices := [] |}
  end.

(** How making the readers ends, and what it has written then. *)
Definition made_aloud (called : nat -> string) (before : string) (o : outcome (factory * string) unit) (h : heard book) : Prop :=
  match snd h with
  | Gives b => exists f, o = Ok tt (f, before ++ fst h) /\ keeps_book called f b
  | Raises e => exists f, o = Throw e (f, before ++ fst h)
  | Wild => o = UB
  | Stops => False
  end.
End Aloud.
