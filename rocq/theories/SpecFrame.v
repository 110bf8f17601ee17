(** Specification for what inspection depends on in a factory that has been used
    before. *)
From Verif Require Import Base Proton TypeNames Schema SpecSchema CordaFile SpecFile Factory SpecFactory Readers SpecReaders Blob
  Writer SpecWriter SpecWriteRead Programs SpecPrograms Tools SpecTools.
Import List ListNotations.
Open Scope string_scope.

(** The types a schema describes, and those it names in doing so. *)
Definition mentioned (ts : list notation) (k : string) : Prop := exists t, In t ts /\ (n_name t = k \/ named_by t k).

(** The schemas seen before describe none of them, and no failed operation has
    left a null pointer for one of them. *)
Definition apart (h : list op) (f : factory) (ts : list notation) : Prop :=
  (forall u, In u (entries_of h) -> ~ mentioned ts (n_name u)) /\ forall k, mentioned ts k -> unpoisoned f k.

(** The same text or the same exception, and the same data afterwards. *)
Definition same_result (o o' : outcome (data * factory) string) : Prop :=
  match o, o' with
  | Ok s st, Ok s' st' => s = s' /\ fst st = fst st'
  | Throw e st, Throw e' st' => e = e' /\ fst st = fst st'
  | Abort, Abort | UB, UB | Fuel, Fuel => True
  | _, _ => False
  end.

(** The names that the schemas of a program can mention: of its types, and of
    primitive types. *)
Definition spoken_of (P : program) (k : string) : Prop :=
  In k (map java_of (types_of P)) \/ exists t, k = m_type t \/ k = java_of (Prim t).

(** The object is serialised, saved in a file and looked at with the
    blob-inspector, which shows the text or lets an exception escape. *)
Definition file_inspection (fmt : N -> string) (custom : nat -> option string -> PM ivalue) (root : item) (result : string + exn) : Prop :=
  forall decode encode fs map_order entry_order prog name blob w, entry_order = true \/ map_free (shown root) ->
  serialise_blob root new_writer = Ok blob w -> decodes decode encode blob ->
  fs name = saved encode blob -> fits (magic ++ String "000" (encode (forest blob))) ->
  exists n, forall fuel, n < fuel ->
  let r := blob_inspector decode fmt custom map_order entry_order fuel fs [prog; name] in
  match result with inl text => SpecTools.shows r text | inr _ => r = Terminated end.
