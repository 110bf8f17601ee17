(** What the programs in bin/reader-tests should print. *)
From Verif Require Import Base Proton SpecCursor CordaFile SpecFile Writer SpecTools Tools SpecAccept SpecReadBack ReaderTests.
Import List ListNotations.
Open Scope string_scope.

(** The text that consists of these lines. *)
Definition lines (ls : list string) : string := String.concat "" (map (fun l => l ++ String "010" "") ls).

(** The payload of the blob is an object with two properties that are integers. *)
Definition integers (t : tree) (a b : Z) : Prop :=
  exists p body, payload t p /\ part 1 p = Some body /\ tree_atom body = AList /\
    part_is 0 body (fun x => tree_atom x = AInt a) /\ part_is 1 body (fun x => tree_atom x = AInt b).

(** The object is saved in a file, and the program that reads a file prints this. *)
Definition read_from_file (root : item) (text : string) : Prop :=
  forall decode encode fuel fs prog name blob w,
  serialise_blob root new_writer = Ok blob w -> decodes decode encode blob -> fs name = saved encode blob ->
  fits (magic ++ String "000" (encode (forest blob))) -> heights (forest blob) <= fuel ->
  reader_test1 decode fuel fs [prog; name] = Exit 0 text false.
