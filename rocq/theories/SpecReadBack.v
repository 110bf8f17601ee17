(** Which blobs can be deserialised, and as what, written independently of the
    code that reads them.  It is lenient: a property that is missing is taken to
    be the last one there is, surplus ones are ignored, and the fingerprint of an
    object is not looked at. *)
From Verif Require Import Base Proton Writer Deserialise SpecAccept SpecDisplay.
Import List ListNotations.
Open Scope string_scope.

(** Strings end at the first zero byte. *)
Fixpoint up_to_nul (s : string) : string :=
  match s with
  | String c s' => if Ascii.eqb c "000" then "" else String c (up_to_nul s')
  | EmptyString => ""
  end.
(** The char with this code: the lowest byte, read as a signed number. *)
Definition is_char (code : N) (z : Z) : Prop := (-128 <= z < 128)%Z /\ exists k : Z, (Z.of_N code = z + 256 * k)%Z.
(** [holds p a v]: the value [a] in a blob is a [p], namely [v]. *)
Inductive holds : prim_type -> atom -> prim_value -> Prop :=
| holds_int z : holds CInt (AInt z) (OfInt z)
| holds_long z : holds CLong (ALong z) (OfLong z)
| holds_double b : holds CDouble (ADouble b) (OfDouble b)
| holds_bool b : holds CBool (ABool b) (OfBool b)
| holds_float b : holds CFloat (AFloat b) (OfFloat b)
| holds_char n z : is_char n z -> holds CChar (AChar n) (OfChar z)
| holds_string s : holds CString (AString s) (OfString (up_to_nul s)).

Section ReadBack.
Context (cs : classes).
(** [reads_as t o x]: what is found in a place reads as the [t] object [x]. *)
Inductive reads_as : ctype -> option tree -> object -> Prop :=
| reads_prim p t v : holds p (tree_atom t) v -> reads_as (RPrim p false) (Some t) (OPrim v)
| reads_prim_pointer p t v : holds p (tree_atom t) v -> reads_as (RPrim p true) (Some t) (OPrimPtr v)
| reads_class c t body xs : tree_atom t = ADescribed -> part 1 t = Some body -> tree_atom body = AList ->
    Forall2 (fun p x => reads_as (snd p) (part (fst p) body) x) (numbered (cs c)) xs ->
    reads_as (RClass c false) (Some t) (OClass c xs)
| reads_class_pointer c t body xs : tree_atom t = ADescribed -> part 1 t = Some body -> tree_atom body = AList ->
    Forall2 (fun p x => reads_as (snd p) (part (fst p) body) x) (numbered (cs c)) xs ->
    reads_as (RClass c true) (Some t) (OClassPtr c xs).

(** [undefined t o]: the behaviour of reading it as a [t] is undefined.  The first
    thing that does not fit, at any depth, is something read as a string, or a
    vector whose first element is a list. *)
Inductive undefined : ctype -> option tree -> Prop :=
| undefined_string pointer o : (forall t s, o = Some t -> tree_atom t <> AString s) -> undefined (RPrim CString pointer) o
| undefined_vector pointer t body e : tree_atom t = ADescribed -> part 1 t = Some body -> tree_atom body = AList ->
    part 0 body = Some e -> tree_atom e = AList -> undefined (RVector pointer) (Some t)
| undefined_inside c pointer t body before ty after xs : tree_atom t = ADescribed -> part 1 t = Some body -> tree_atom body = AList ->
    cs c = (before ++ ty :: after)%list ->
    Forall2 (fun p x => reads_as (snd p) (part (fst p) body) x) (numbered before) xs ->
    undefined ty (part (length before) body) -> undefined (RClass c pointer) (Some t).
End ReadBack.

(** The payload of a blob: the first of the parts it describes. *)
Definition payload (t p : tree) : Prop :=
  tree_atom t = ADescribed /\ exists body, part 1 t = Some body /\ tree_atom body = AList /\ part 0 body = Some p /\ tree_atom p = ADescribed.
