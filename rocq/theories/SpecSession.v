(** Inspecting one blob after another with the same factory: what the factory
    remembers of earlier blobs, and how each inspection ends.  As in SpecFate.v
    there are no readers, no pointers and no positions here. *)
From Verif Require Import Base Proton SpecCursor TypeNames Schema SpecSchema Descriptors Factory Readers Blob SpecAccept SpecDisplay SpecReadScript SpecParse SpecFate.
Import List ListNotations.
Open Scope string_scope.

(** The serialisers installed; the types learnt, oldest first; types that were
    needed and not there; and the name of the type last seen with a fingerprint, latest
    first. *)
Record memory : Type := Memory { m_installed : list reader; m_known : list notation; m_lacked : list string; m_prints : list (string * string) }.
Definition nothing : memory := Memory [] [] [] [].
Definition names (m : memory) : list string := map reader_type (m_installed m) ++ map n_name (m_known m).
Definition add (r : reader) (m : memory) : memory :=
  Memory (m_installed m ++ [r]) (m_known m) (filter (fun k => negb (String.eqb k (reader_type r))) (m_lacked m)) (m_prints m).
Definition know (t : notation) (m : memory) : memory := Memory (m_installed m) (m_known m ++ [t]) (m_lacked m) (m_prints m).
Definition lack (k : string) (m : memory) : memory := Memory (m_installed m) (m_known m) (if own_name k then k :: m_lacked m else m_lacked m) (m_prints m).
Definition print (t : notation) (m : memory) : memory := Memory (m_installed m) (m_known m) (m_lacked m) ((n_descriptor t, n_name t) :: m_prints m).
Definition print_of (m : memory) (fp : string) : option string := option_map snd (find (fun p => String.eqb (fst p) fp) (m_prints m)).

(** The first name that is not there. *)
Fixpoint missing (have : list string) (t : notation) (ks : list (option string)) : option string :=
  match ks with
  | Some k :: ks' => if itself t k || memb k primitives || memb k have then missing have t ks' else Some k
  | _ => None
  end.

Section Session.
Context (double : N -> string) (answers : nat -> bool -> option tree -> fate string) (map_order entry_order : bool).

(** The types of a schema are learnt in order, up to the first that cannot be. *)
Fixpoint learn (m : memory) (ts : list notation) : fate unit * memory :=
  match ts with
  | [] => (Gives tt, m)
  | t :: ts' =>
      if memb (n_name t) (m_lacked m) then (Wild, m)
      else if memb (n_name t) (names m) then learn (print t m) ts'
      else
        match look_up (names m) t (wanted map_order t), missing (names m) t (wanted map_order t) with
        | Gives _, _ => learn (print t (know t m)) ts'
        | r, Some k => (r, lack k m)
        | r, None => (r, m)
        end
  end.

(** The payload of [t] as a value of the type [ty]. *)
Definition payload (m : memory) (ts : list notation) (ty : string) (t : tree) : fate string :=
  match part 1 t with
  | Some (Node AList cs) =>
      if Nat.eqb (length cs) 3 then
        let% x := value double dec entry_order (m_known m) ts (serialiser_for answers (m_installed m)) (height t) true ty (part 0 (Node AList cs)) in
        Gives ("{ Parsed : " ++ x ++ " }")
      else Stops
  | _ => Raises RuntimeError
  end.
Definition look (m : memory) (t : tree) : fate string * memory :=
  match envelope_of t with
  | Gives e =>
      let ts := List.concat (s_types (e_schema e)) in
      let (r, m') := learn m ts in
      (let% _ := r in match print_of m' (e_descriptor e) with Some ty => payload m' ts ty t | None => Stops end, m')
  | Raises x => (Raises x, m)
  | Stops => (Stops, m)
  | Wild => (Wild, m)
  end.

(** What the user does.  Serialisers are installed for types that have none and are
    not known. *)
Inductive event : Type := Look (t : tree) | Equip (r : reader).
Fixpoint story (m : memory) (es : list event) : list (tree * fate string) :=
  match es with
  | [] => []
  | Equip r :: es' => story (add r m) es'
  | Look t :: es' =>
      let (r, m') := look m t in
      (t, r) :: match r with Gives _ | Raises _ => story m' es' | _ => [] end
  end.
Definition custom_reader (r : reader) : bool := match r with RPublicKey | RCustom _ _ => true | _ => false end.
Fixpoint orderly (m : memory) (es : list event) : bool :=
  match es with
  | [] => true
  | Equip r :: es' => custom_reader r && own_name (reader_type r) && negb (memb (reader_type r) (names m)) && orderly (add r m) es'
  | Look t :: es' => own_names [] t && orderly (snd (look m t)) es'
  end.
End Session.
Definition added (es : list event) : list reader := List.concat (map (fun e => match e with Equip r => [r] | Look _ => [] end) es).

(** ** The program *)
(** AMQPBlob.cxx:273-314 for one blob after another, each with the factory as the
    last one left it; CompositeFactoryInternal.cxx:359-366. *)
Fixpoint sitting (double : N -> string) (custom : nat -> option string -> PM ivalue) (map_order entry_order : bool) (fuel : nat)
    (es : list event) (cf : factory) : list (outcome (data * factory) string) :=
  match es with
  | [] => []
  | Equip r :: es' =>
      match installCustomSerialiser r cf with
      | Ok _ cf' => sitting double custom map_order entry_order fuel es' cf'
      | _ => []
      end
  | Look t :: es' =>
      let o := dumpContents double custom map_order entry_order fuel (decoded t, cf) in
      o :: match o with
           | Ok _ (_, cf') | Throw _ (_, cf') => sitting double custom map_order entry_order fuel es' cf'
           | _ => []
           end
  end.

(** ** Blobs that agree *)
Definition types_of_blob (t : tree) : list notation := match envelope_of t with Gives e => List.concat (s_types (e_schema e)) | _ => [] end.
(** The schema describes every type it names, with the serialisers [rs], and the type
    of the payload; or there is no schema. *)
Definition self_contained (map_order : bool) (rs : list reader) (t : tree) : Prop :=
  match envelope_of t with
  | Gives e => prepare map_order (map reader_type rs) (types_of_blob t) = Gives tt /\ payload_type e <> None
  | _ => True
  end.
Definition agree (ts us : list notation) : Prop := forall u v, In u ts -> In v us -> n_name u = n_name v -> u = v.
(** An aborted or undefined inspection is the last. *)
Fixpoint to_the_end {A} (l : list (A * fate string)) : list (A * fate string) :=
  match l with
  | [] => []
  | p :: l' => p :: match snd p with Gives _ | Raises _ => to_the_end l' | _ => [] end
  end.
