(** How inspecting a blob ends, for any blob at all, as a function of the decoded
    tree: what is shown, what is thrown, or that the program aborts.  There are no
    readers, no positions and no scopes here; parts are looked at in order, and the
    first that is not as expected decides.  Parts that are missing or surplus are
    treated as in SpecAccept.v, numbers of the wrong type as in SpecDisplay.v. *)
From Verif Require Import Base Proton SpecCursor TypeNames Schema SpecSchema Descriptors Factory Readers SpecAccept SpecDisplay SpecReadScript SpecParse.
Import List ListNotations.
Open Scope string_scope.

(** A failed assertion ends the program; [Wild] is undefined behaviour. *)
Inductive fate (A : Type) : Type := Gives (a : A) | Raises (e : exn) | Stops | Wild.
Arguments Gives {A} _. Arguments Raises {A} _. Arguments Stops {A}. Arguments Wild {A}.
Definition onward {A B} (r : fate A) (k : A -> fate B) : fate B :=
  match r with Gives a => k a | Raises e => Raises e | Stops => Stops | Wild => Wild end.
Notation "'let%' x := r 'in' k" := (onward r (fun x => k)) (at level 200, x pattern, r at level 100, k at level 200).
Definition of_ending {A} (r : ending A) : fate A :=
  match r with Got a => Gives a | Thrown e => Raises e | Undefined => Wild end.
Fixpoint every {A B} (f : A -> fate B) (l : list A) : fate (list B) :=
  match l with
  | [] => Gives []
  | a :: l' => let% b := f a in let% bs := every f l' in Gives (b :: bs)
  end.

(** ** Values *)
Definition inside (n : nat) (o : option tree) : option tree := match o with Some t => part n t | None => None end.
Definition described_tree (o : option tree) : fate tree :=
  match o with Some (Node ADescribed cs) => Gives (Node ADescribed cs) | _ => Raises RuntimeError end.
Definition parts_of_list (o : option tree) : list tree := match o with Some t => elements t | None => [] end.
Definition pairs_of_map (o : option tree) : nat := match o with Some t => entries t | None => 0 end.

Section Value.
(** How doubles and integers are written; whether the key of an entry is read before
    its value (C32); the types that are known; those of the schema; and the installed
    serialisers. *)
Context (double : N -> string) (numeral : Z -> string) (key_first : bool).
Context (known ts : list notation) (installed : string -> option (bool -> option tree -> fate string)).

Definition type_called (ty : string) : option notation := find (fun t => String.eqb (n_name t) ty) known.
Definition type_printed (fp : string) : option notation := find (fun t => String.eqb (n_descriptor t) fp) ts.

Definition primitive (ty : string) (o : option tree) : option (fate string) :=
  if String.eqb ty "int" then Some (Gives (numeral (integer o)))
  else if String.eqb ty "long" then Some (Gives (numeral (long o)))
  else if String.eqb ty "double" then Some (Gives (double (double_bits o)))
  else if String.eqb ty "boolean" then Some (Gives (if boolean o then "1" else "0"))
  else if String.eqb ty "string" then Some (let% s := of_ending (name_of o) in Gives ("""" ++ s ++ """"))
  else if String.eqb ty "float" then Some (Raises RuntimeError)
  else if String.eqb ty "binary" then Some (Gives ("<<<binary: " ++ numeral (Z.of_nat (String.length (bytes o))) ++ " bytes>>>"))
  else None.

(** [inner named ty o]: the fate of [o] as a value of type [ty]. *)
Section Inner.
Context (inner : bool -> string -> option tree -> fate string).
Definition property (body : tree) (p : nat * field) : fate string :=
  match property_type (snd p) with Some ty => inner true ty (part (fst p) body) | None => Wild end.
Definition object_of (c : composite) (o : option tree) : fate string :=
  match o with
  | Some (Node ANull _) => Gives "<<NULL>>"
  | _ =>
      let% t := described_tree o in
      let% fp := of_ending (symbol_of (part 0 t)) in
      match type_printed fp with
      | None => Raises RuntimeError
      | Some (TRestricted _) => Raises BadCast
      | Some (TComposite c') =>
          if Nat.eqb (length (c_fields c')) (length (c_fields c)) then
            match part 1 t with
            | Some (Node AList cs) =>
                let% xs := every (property (Node AList cs)) (numbered (c_fields c)) in
                Gives (braces (map (fun p => f_name (fst p) ++ " : " ++ snd p) (combine (c_fields c') xs)))
            | _ => Raises RuntimeError
            end
          else Stops
      end
  end.
(** The fingerprint may be that of any type. *)
Definition some_type (t : tree) : fate unit :=
  let% fp := of_ending (name_of (part 0 t)) in
  match type_printed fp with Some _ => Gives tt | None => Raises RuntimeError end.
Definition sequence_of (e : string) (o : option tree) : fate string :=
  let% t := described_tree o in
  let% _ := some_type t in
  let% xs := every (fun p => inner false e (Some p)) (parts_of_list (part 1 t)) in
  Gives (brackets xs).
Definition entry_of (k v : string) (body : option tree) (i : nat) : fate string :=
  if key_first then
    let% x := inner false k (inside (2 * i) body) in
    let% y := inner false v (inside (2 * i + 1) body) in Gives (x ++ " : " ++ y)
  else
    let% y := inner false v (inside (2 * i) body) in
    let% x := inner false k (inside (2 * i + 1) body) in Gives (x ++ " : " ++ y).
Definition mapping_of (k v : string) (o : option tree) : fate string :=
  let% t := described_tree o in
  let% _ := some_type t in
  let% xs := every (entry_of k v (part 1 t)) (seq 0 (pairs_of_map (part 1 t))) in
  Gives (braces xs).
End Inner.
Definition constant_of (o : option tree) : fate string :=
  let% t := described_tree o in
  let% _ := of_ending (name_of (part 0 t)) in
  of_ending (name_of (inside 0 (part 1 t))).

(** [n] bounds the depth; any bound greater than the height of the tree will do. *)
Fixpoint value (n : nat) (named : bool) (ty : string) (o : option tree) : fate string :=
  match n with
  | 0 => Wild
  | S n' =>
      match primitive ty o, installed ty, type_called ty with
      | Some r, _, _ => r
      | None, Some serialiser, _ => serialiser named o
      | None, None, Some (TComposite c) => object_of (value n') c o
      | None, None, Some (TRestricted r) =>
          match r_kind r, r_of r with
          | enum_t, _ => constant_of o
          | map_t, [k; v] => mapping_of (value n') k v o
          | (list_t | array_t), [e] => sequence_of (value n') e o
          | _, _ => Wild
          end
      | None, None, None => Wild
      end
  end.
End Value.

(** ** Schemas *)

(** The names an entry looks up, in order; a property of any type that does not say
    which has none. *)
Definition wanted (key_first : bool) (t : notation) : list (option string) :=
  match t with
  | TComposite c => map property_type (c_fields c)
  | TRestricted r =>
      match r_kind r with
      | enum_t => []
      | map_t => map Some (if key_first then r_of r else rev (r_of r))
      | _ => map Some (r_of r)
      end
  end.
(** A class may name itself. *)
Definition itself (t : notation) (k : string) : bool :=
  match t with TComposite c => String.eqb k (c_name c) | TRestricted _ => false end.
Definition primitives : list string := ["int"; "long"; "double"; "boolean"; "string"; "float"; "binary"].
Fixpoint look_up (have : list string) (t : notation) (ks : list (option string)) : fate unit :=
  match ks with
  | [] => Gives tt
  | None :: _ => Wild
  | Some k :: ks' => if itself t k || memb k primitives || memb k have then look_up have t ks' else Raises RuntimeError
  end.
(** The first entry of a name counts; [have] are the names known so far. *)
Fixpoint prepare (key_first : bool) (have : list string) (ts : list notation) : fate unit :=
  match ts with
  | [] => Gives tt
  | t :: ts' =>
      if memb (n_name t) have then prepare key_first have ts'
      else let% _ := look_up have t (wanted key_first t) in prepare key_first (n_name t :: have) ts'
  end.

(** ** Blobs *)
Definition envelope_of (t : tree) : fate envelope :=
  match described_by t with
  | Some _ => let% e := of_ending (parsed t) in match e with EEnvelope x => Gives x | _ => Wild end
  | None => Wild
  end.

(** A public key: as a property, anything described with bytes; never as an element. *)
Definition key_of (named : bool) (o : option tree) : fate string :=
  if named then
    let% t := described_tree o in
    match part 1 t with Some (Node (ABinary _) _) => Gives "<<<Public Key>>>" | _ => Raises RuntimeError end
  else Raises RuntimeError.
(** The serialisers [rs]; [answers which] says what the user's own do. *)
Definition serialiser_for (answers : nat -> bool -> option tree -> fate string) (rs : list reader) (ty : string) : option (bool -> option tree -> fate string) :=
  match find (fun r => String.eqb (reader_type r) ty) rs with
  | Some RPublicKey => Some key_of
  | Some (RCustom _ which) => Some (answers which)
  | _ => None
  end.

Section Inspect.
Context (double : N -> string) (answers : nat -> bool -> option tree -> fate string) (map_order entry_order : bool) (rs : list reader).

(** The type of the payload: of two with its fingerprint the one that is last. *)
Definition payload_type (e : envelope) : option notation :=
  find (fun t => String.eqb (n_descriptor t) (e_descriptor e)) (rev (List.concat (s_types (e_schema e)))).
Definition inspected (t : tree) : fate string :=
  let% e := envelope_of t in
  let ts := List.concat (s_types (e_schema e)) in
  let% _ := prepare map_order (map reader_type rs) ts in
  match payload_type e with
  | None => Stops
  | Some n =>
      match part 1 t with
      | Some (Node AList cs) =>
          if Nat.eqb (length cs) 3 then
            let% x := value double dec entry_order ts ts (serialiser_for answers rs) (height t) true (n_name n) (part 0 (Node AList cs)) in
            Gives ("{ Parsed : " ++ x ++ " }")
          else Stops
      | _ => Raises RuntimeError
      end
  end.
End Inspect.

(** ** Serialisers *)

(** The cursor is still among the same parts. *)
Definition beside (d d' : data) : Prop := ups d' = ups d /\ siblings (here d') = siblings (here d).
(** What a user's serialiser does depends only on what it finds and on whether that
    has a name, and it stays in its place. *)
Definition answers_as (rs : list reader) (custom : nat -> option string -> PM ivalue) (answers : nat -> bool -> option tree -> fate string) : Prop :=
  forall ty which, In (RCustom ty which) rs -> forall name d, on_level d ->
  match answers which (is_named name) (view d) with
  | Gives x => exists v, custom which name d = Ok v (pn_next d) /\ show v = labelled name x
  | Raises e => exists d', custom which name d = Throw e d' /\ beside d d'
  | Stops => custom which name d = Abort
  | Wild => custom which name d = UB
  end.

(** ** How the program ends *)
(** [o] is this fate, with the cursor of the blob back at the start. *)
Definition turns_out (t : tree) (o : outcome (data * factory) string) (r : fate string) : Prop :=
  match r with
  | Gives x => exists cf', o = Ok x (decoded t, cf')
  | Raises e => exists cf', o = Throw e (decoded t, cf')
  | Stops => o = Abort
  | Wild => o = UB
  end.

(** A part of a part, and so on. *)
Inductive somewhere : tree -> tree -> Prop :=
| here_itself t : somewhere t t
| further_in t k p q : part k t = Some p -> somewhere p q -> somewhere t q.

(** No type and no installed serialiser has the name of a primitive type. *)
Definition own_name (ty : string) : bool := negb (memb ty ("bool" :: primitives)).
Definition own_names (rs : list reader) (t : tree) : bool :=
  forallb own_name (map reader_type rs) &&
  match envelope_of t with Gives e => forallb own_name (map n_name (List.concat (s_types (e_schema e)))) | _ => true end.
