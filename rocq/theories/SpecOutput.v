(** What is on standard output after dumping the data of a blob, as a function of the
    decoded tree, and how the dump ends.  The result comes last; before it are lines
    that the library writes while it works: two or three for every described value,
    one for every list, one for every map that is not empty and two for every entry. *)
From Verif Require Import Base Proton SpecReaders SpecAccept SpecSchemaDump SpecDisplay SpecRaw SpecParse SpecFate.
Import List ListNotations.
Open Scope string_scope.

(** Some text, and then a fate. *)
Definition heard (A : Type) : Type := (string * fate A)%type.
Definition and_then {A B} (h : heard A) (k : A -> heard B) : heard B :=
  match snd h with
  | Gives a => let r := k a in (fst h ++ fst r, snd r)
  | Raises e => (fst h, Raises e)
  | Stops => (fst h, Stops)
  | Wild => (fst h, Wild)
  end.
Notation "'let^' x := h 'in' k" := (and_then h (fun x => k)) (at level 200, x pattern, h at level 100, k at level 200).
Definition silent {A} (r : fate A) : heard A := ("", r).
Definition line (text : string) : heard unit := (text ++ newline, Gives tt).
Fixpoint in_turn {A B} (f : A -> heard B) (l : list A) : heard (list B) :=
  match l with
  | [] => silent (Gives [])
  | a :: l' => let^ b := f a in let^ bs := in_turn f l' in silent (Gives (b :: bs))
  end.

Section Heard.
(** Where two of the source files are (on the machine that compiled them); how the
    types of values are called and numbered; how numbers are written. *)
Context (blob_file wrapper_file : string) (type_name : pn_type -> string) (type_number : pn_type -> Z).
Context (double float : N -> string) (numeral : Z -> string).

Definition from (file number text : string) : heard unit := line ("[" ++ file ++ "::" ++ number ++ "] " ++ text).
Definition list_line : heard unit := from wrapper_file "299" "YEP! it's a list".
Definition type_line (number : string) (t : tree) : heard unit :=
  let ty := atom_type (tree_atom t) in from blob_file number ("  " ++ type_name ty ++ " " ++ numeral (type_number ty)).

(** [t], taken to be of the kind [k] (C72). *)
Fixpoint dumped (n : nat) (k : kind) (t : tree) : heard string :=
  match n with
  | 0 => silent Wild
  | S n =>
      match k with
      | a_single => silent (Gives (raw_value double float numeral (tree_atom t)))
      | a_list =>
          match tree_atom t with
          | AList =>
              let^ _ := list_line in
              let^ xs := in_turn (fun p => dumped n (kind_of p) p) (tree_children t) in
              silent (Gives (in_brackets "<<<Empty List>>>" xs))
          | _ => silent (Raises RuntimeError)
          end
      | a_map =>
          match tree_atom t with
          | AMap =>
              let^ _ := (if Nat.eqb (entries t) 0 then silent (Gives tt) else from blob_file "170" "MAP IS NOT EMPTY") in
              let^ xs := in_turn (fun i =>
                match part (3 * i) t, part (3 * i + 1) t, part (3 * i + 2) t with
                | Some a, Some b, Some c =>
                    let^ _ := type_line "179" a in
                    let^ x := dumped n (kind_of a) b in
                    let^ _ := type_line "188" b in
                    let^ y := dumped n (kind_of b) c in
                    silent (Gives (x ++ " : " ++ y))
                | _, _, _ => silent Wild
                end) (seq 0 (entries t)) in
              silent (Gives (in_brackets "<<<Empty Map>>>" xs))
          | _ => silent (Raises RuntimeError)
          end
      | a_described =>
          let^ _ := from blob_file "212" "dumpDescribed" in
          let^ _ := line "STRING" in
          let^ fp := silent (of_ending (name_of (part 0 t))) in
          let^ _ := from blob_file "217" ("  FINGERPRINT: " ++ fp) in
          match part 1 t with
          | Some body =>
              match kind_of body with
              | a_list | a_map => let^ x := dumped n (kind_of body) body in silent (Gives (fp ++ " : " ++ x))
              | _ => silent (Raises RuntimeError)
              end
          | None => silent (Raises RuntimeError)
          end
      end
  end.

(** The payload of an envelope.  [n] bounds the depth; any bound from the height of the
    tree on will do. *)
Definition data_dump (n : nat) (t : tree) : heard string :=
  match t with
  | Node ADescribed _ =>
      match part 0 t with
      | Some (Node (AULong key) _) =>
          if (key mod 2 ^ 32 =? 1)%N then
            match part 1 t with
            | Some (Node AList cs) =>
                let^ _ := list_line in
                match part 0 (Node AList cs) with
                | Some (Node ADescribed ds) => dumped n a_described (Node ADescribed ds)
                | _ => silent (Raises RuntimeError)
                end
            | _ => silent (Raises RuntimeError)
            end
          else silent Stops
      | _ => silent Stops
      end
  | _ => silent Wild
  end.
End Heard.

(** [o] is this, with [out] on standard output before and the cursor of the blob back
    at the start. *)
Definition outputs (t : tree) (out : string) (o : outcome (data * string) string) (h : heard string) : Prop :=
  match snd h with
  | Gives x => o = Ok x (decoded t, out ++ fst h)
  | Raises e => o = Throw e (decoded t, out ++ fst h)
  | Stops => o = Abort
  | Wild => o = UB
  end.

(** One text begins, or ends, with another. *)
Definition begins (s p : string) : Prop := exists r, s = p ++ r.
Definition ends (s p : string) : Prop := exists r, s = r ++ p.

(** Two runs end in the same way; the first has written more to standard output, and
    all of it before what the second has written. *)
Definition same_but_for_output (o : outcome (data * string) string) (out : string) (o' : outcome data string) : Prop :=
  match o, o' with
  | Ok x (d, out'), Ok x' d' => x = x' /\ d = d' /\ begins out' out
  | Throw e (d, out'), Throw e' d' => e = e' /\ d = d' /\ begins out' out
  | Abort, Abort | UB, UB | Fuel, Fuel => True
  | _, _ => False
  end.
