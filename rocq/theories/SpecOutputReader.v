(** What is on standard output after deserialising a blob, as a function of the decoded
    tree, and how it ends.  The lines are written while the library works: some for each
    object that is begun or ended, and four for each value, one of them with the value. *)
From Verif Require Readers.
From Verif Require Import Base Proton SpecDescriptors Writer Deserialise SpecAccept SpecReaders SpecDisplay SpecReadBack SpecFate SpecOutput OutputWriter SpecOutputWriter.
Import List ListNotations.
Open Scope string_scope.

(** The value of a primitive type in a place (C70); a text that is not there is not
    noticed. *)
Definition value_in (p : prim_type) (o : option tree) : fate prim_value :=
  match p, o with
  | CInt, Some (Node (AInt z) _) => Gives (OfInt z)
  | CLong, Some (Node (ALong z) _) => Gives (OfLong z)
  | CDouble, Some (Node (ADouble b) _) => Gives (OfDouble b)
  | CBool, Some (Node (ABool b) _) => Gives (OfBool b)
  | CFloat, Some (Node (AFloat b) _) => Gives (OfFloat b)
  | CChar, Some (Node (AChar n) _) =>
      let low := (Z.of_N n mod 256)%Z in Gives (OfChar (if (low <? 128)%Z then low else low - 256)%Z)
  | CString, Some (Node (AString s) _) => Gives (OfString (up_to_nul s))
  | CString, _ => Wild
  | _, _ => Raises RuntimeError
  end.
(** How the line with a value calls its type, and where it is. *)
Definition value_line (p : prim_type) : string * Z :=
  match p with
  | CInt => ("int", 58%Z) | CString => ("std::string", 77%Z) | CBool => ("bool", 96%Z)
  | CFloat => ("bool", 115%Z) | CDouble => ("double", 134%Z) | CLong => ("long", 153%Z) | CChar => ("char", 172%Z)
  end.
Definition code_in (o : option tree) : N := match o with Some (Node (AULong k) _) => k | _ => 0%N end.
(** Corda's names for its own codes. *)
Definition code_name (k : N) : string :=
  match find (fun c => N.eqb k (vendor (fst c)))
    [ (1%N, "ENVELOPE"); (2%N, "SCHEMA"); (3%N, "OBJECT_DESCRIPTOR"); (4%N, "FIELD"); (5%N, "COMPOSITE_TYPE"); (6%N, "RESTRICTED_TYPE");
      (7%N, "CHOICE"); (8%N, "REFERENCED_OBJECT"); (9%N, "TRANSFORM_SCHEMA"); (10%N, "TRANSFORM_ELEMENT"); (11%N, "TRANSFORM_ELEMENT_KEY") ] with
  | Some c => snd c
  | None => "UNKNOWN"
  end.

(** [text] is written as well at the end, whether or not something is thrown. *)
Definition closing {A} (h : heard A) (text : string) : heard A :=
  match snd h with Gives _ | Raises _ => (fst h ++ text, snd h) | _ => h end.

Section Told.
(** The types that each class reads, in order; and, chosen by the compiler and the
    libraries: the platform, proton's names and numbers of types, the names of C++ types. *)
Context (cs : classes) (env : platform) (type_name : pn_type -> string) (type_number : pn_type -> Z) (named : ctype -> string).

Definition at_line (source : string) (number : Z) (text : string) : string := SpecOutputWriter.line env source number text.
Definition note (source : string) (number : Z) (text : string) : heard unit := (at_line source number text, Gives tt).
Definition list_noted : heard unit := note "proton_wrapper.cxx" 299 "YEP! it's a list".
Definition must_be_list (o : option tree) : heard tree :=
  match o with Some (Node AList es) => let^ _ := list_noted in silent (Gives (Node AList es)) | _ => silent (Raises RuntimeError) end.
Definition must_be_described (o : option tree) : heard tree := silent (described_tree o).

(** Each property is announced before it is read. *)
Definition announced (ty : ctype) : heard unit := note "SerialiserFactory.h" 93 ("read - " ++ named ty).
(** A primitive value. *)
Definition told_value (ty : ctype) (p : prim_type) (pointer : bool) (o : option tree) : heard object :=
  let^ _ := note "SerialiserFactoryReaders.h" 50 ("read::Primitive::" ++ named ty) in
  let^ _ := note "SerialiserFactoryReaders.h" 40 "AutoPrim" in
  let^ _ := note "AMQPBlob.cxx" 386 "startPrim" in
  closing
    (let^ v := silent (value_in p o) in
     let^ _ := note "PrimToSerializer.h" (snd (value_line p)) ("PrimToSerializer<" ++ fst (value_line p) ++ ">::get - return " ++ text_of env v) in
     silent (Gives (if pointer then OPrimPtr v else OPrim v)))
    (at_line "SerialiserFactoryReaders.h" 45 "~AutoPrim").
(** An object or a vector; [inside] is told of the list it describes. *)
Definition told_parts (ty : ctype) (o : option tree) (inside : tree -> heard object) : heard object :=
  let^ _ := note "SerialiserFactoryReaders.h" 64 ("read::Composite::" ++ named ty) in
  let^ _ := note "SerialiserFactoryReaders.h" 70 "AutoComposite" in
  let^ _ := note "AMQPBlob.cxx" 358 "startComposite" in
  let^ t := must_be_described o in
  let code := code_in (part 0 t) in
  let^ _ := note "AMQPBlob.cxx" 362 ("startComposite::" ++ code_name code ++ " " ++ Readers.dec (Z.of_N code)) in
  let^ body := must_be_list (part 1 t) in
  let^ _ := note "AMQPBlob.cxx" 364 ("startComposite:: list sz " ++ Readers.dec (Z.of_nat (List.length (tree_children body)))) in
  closing (inside body)
    (at_line "SerialiserFactoryReaders.h" 75 "~AutoComposite" ++ at_line "AMQPBlob.cxx" 375 "endComposite").

(** What is in a place, read as a [ty].  [n] bounds the depth; any bound from the height
    of the tree on will do. *)
Fixpoint told (n : nat) (ty : ctype) (o : option tree) : heard object :=
  match n with
  | 0 => silent Wild
  | S n =>
      match ty with
      | RPrim p pointer => told_value ty p pointer o
      | RClass c pointer =>
          told_parts ty o (fun body =>
            let^ _ := (if pointer then note "ReadNonPrimitive.h" 55 ("read<" ++ named ty ++ ", true>")
                       else note "ReadNonPrimitive.h" (span env 35 36) ("read<" ++ named ty ++ ", is_ptr 0>")) in
            let^ xs := in_turn (fun p => let^ _ := announced (snd p) in told n (snd p) (part (fst p) body)) (numbered (cs c)) in
            silent (Gives (if pointer then OClassPtr c xs else OClass c xs)))
      | RVector pointer =>
          told_parts ty o (fun body =>
            let^ _ := (if pointer then note "ReadNonPrimitive.h" 55 ("read<" ++ named ty ++ ", true>")
                       else note "ReadNonPrimitive.h" 77 "read") in
            let^ _ := must_be_list (part 0 body) in
            silent Wild)
      end
  end.

(** A node by itself: the number of its type, in two columns, the name, and for some
    types the value, symbols letter by letter. *)
Definition columns (s : string) : string := match s with String _ EmptyString | EmptyString => " " ++ s | _ => s end.
Definition node_shown (o : option tree) : string :=
  let type := match o with Some t => atom_type (tree_atom t) | None => TInvalid end in
  columns (Readers.dec (type_number type)) ++ " " ++ type_name type ++
  match o with
  | Some (Node (AULong k) _) => " " ++ Readers.dec (Z.of_N k)
  | Some (Node AList es) => " #entries: " ++ Readers.dec (Z.of_nat (List.length es))
  | Some (Node (AString s) _) => " " ++ s
  | Some (Node (AInt z) _) => " " ++ Readers.dec z
  | Some (Node (ABool b) _) => " " ++ (if b then "true" else "false")
  | Some (Node (ASymbol s) _) =>
      " " ++ Readers.dec (Z.of_nat (String.length s)) ++ newline ++ "   -> " ++
      String.concat "" (map (fun c => String c " ") (list_ascii_of_string s))
  | _ => ""
  end.

(** A whole blob. *)
Definition told_blob (n : nat) (ty : ctype) (t : tree) : heard object :=
  let^ _ := note "SerialiserFactory.h" 109 ("deserialise:-:" ++ named ty) in
  let^ _ := note "AMQPBlob.cxx" 329 "readyPayload" in
  let^ t := must_be_described (Some t) in
  let code := code_in (part 0 t) in
  let^ _ := note "AMQPBlob.cxx" 336 ("KEY == " ++ Readers.dec (Z.of_N code)) in
  let^ _ := (if (code mod 2 ^ 32 =? 1)%N then silent (Gives tt)
             else note "AMQPBlob.cxx" 340 ("Strip Key " ++ Readers.dec (Z.of_N (code mod 2 ^ 32)) ++ " != 1")) in
  let^ body := must_be_list (part 1 t) in
  let^ p := must_be_described (part 0 body) in
  let^ _ := note "AMQPBlob.cxx" (span env 348 349)
              ("readyPayload::" ++ node_shown (part 0 p) ++ " " ++ code_name (code_in (part 0 p))) in
  told n ty (Some p).
End Told.

(** [o] is this, with [out] on standard output before. *)
Definition ends_as {A} (out : string) (o : outcome (data * string) A) (h : heard A) : Prop :=
  match snd h with
  | Gives x => exists d, o = Ok x (d, out ++ fst h)
  | Raises e => exists d, o = Throw e (d, out ++ fst h)
  | Stops => o = Abort
  | Wild => o = UB
  end.
(** Two runs end in the same way; the first has written something more. *)
Definition same_but_for_text {A} (o : outcome (data * string) A) (out : string) (o' : outcome data A) : Prop :=
  match o, o' with
  | Ok x (d, out'), Ok x' d' => x = x' /\ d = d' /\ begins out' out
  | Throw e (d, out'), Throw e' d' => e = e' /\ d = d' /\ begins out' out
  | Abort, Abort | UB, UB | Fuel, Fuel => True
  | _, _ => False
  end.
(** The primitive values in an object. *)
Fixpoint values_of (o : object) : list prim_value :=
  match o with
  | OPrim v | OPrimPtr v => [v]
  | OClass _ xs | OClassPtr _ xs => flat_map values_of xs
  end.
(** Each of the values is in the text, one after the other, at the end of a line. *)
Inductive in_returns (env : platform) : list prim_value -> string -> Prop :=
| none_left s : in_returns env [] s
| returned_next v vs a rest : in_returns env vs rest -> in_returns env (v :: vs) (a ++ "return " ++ text_of env v ++ newline ++ rest).
