(** Property theorems C95: how dumping the schema of a blob ends, for every blob.
    Specification: SpecSchemaFate.v. *)
From Coq Require Import Lia.
From Verif Require Import Base Proton ProtonProofs CordaFile SpecFile CordaFileProofs TypeNames Schema SpecSchema Descriptors SpecDescriptors Factory Readers Blob SchemaDump SpecSchemaDump
  Tools SpecTools ToolsProofs SpecAccept SpecDisplay SpecReadScript SpecParse ParseProofs SpecFate FateProofs SpecSchemaFate SchemaFateProofs.
Import List ListNotations.
Open Scope string_scope.

(** C95: the text, the exception, the failed assertion or the undefined behaviour is a
    function of the decoded tree, for both forms, and the cursor is where it was; the
    third form writes nothing. *)
Theorem C95_exactly : forall tn fuel l t r u, height t <= fuel ->
  let d := Data (At l t r) u in
  let ends target (how : fate string) :=
    dumpSchema tn fuel target d = match how with Gives x => Ok x d | Raises e => Throw e d | Stops => Abort | Wild => UB end in
  ends ToRaw (raw_dump tn t) /\ ends ToAvro (avro_dump t) /\ ends ToAmqp (let% _ := described_tree (Some t) in Gives "").
Proof.
  intros tn fuel l t r u Hf d ends. unfold ends. split; [|split].
  - pose proof (raw_exactly tn fuel l t r u Hf) as H. fold d in H. destruct (raw_dump tn t); cbn [leaves] in H; auto. destruct H as (y & H & ->). exact H.
  - pose proof (avro_exactly tn fuel l t r u Hf) as H. fold d in H. destruct (avro_dump t); cbn [leaves] in H; auto. destruct H as (y & H & ->). exact H.
  - destruct t as [[] cs]; reflexivity.
Qed.
Print Assumptions C95_exactly.

(** The raw form: no assertion fails and nothing but runtime errors is thrown.  It is
    defined where codes are known and elements are where they are expected. *)
Theorem C95_raw : forall tn fuel l t r u, height t <= fuel ->
  let o := dumpSchema tn fuel ToRaw (Data (At l t r) u) in
  o <> Abort /\ (forall e d, o = Throw e d -> e = RuntimeError) /\ (everywhere dumpable t = true -> o <> UB).
Proof.
  intros tn fuel l t r u Hf. cbv zeta. destruct (C95_exactly tn fuel l t r u Hf) as [E _]. rewrite E. clear E.
  assert (T : within (fun e => e = RuntimeError) False (everywhere dumpable t <> true) (raw_dump tn t)).
  { unfold raw_dump. apply within_bind; [now apply described_within|]. intros t' Ht. apply described_is in Ht. injection Ht as <-.
    apply within_bind; [|intros; exact I]. apply raw_within. lia. }
  destruct (raw_dump tn t) as [x|e| |]; cbn [within] in T; repeat split; try discriminate; try contradiction; try congruence; auto.
Qed.
Print Assumptions C95_raw.

(** The Avro form: it aborts only where a schema section does not have exactly one
    group of types, throws runtime errors and, for the names of maps without a comma,
    out_of_range, and is defined where, besides, the types of properties are clear. *)
Theorem C95_avro : forall tn fuel l t r u, height t <= fuel ->
  let o := dumpSchema tn fuel ToAvro (Data (At l t r) u) in
  (everywhere one_group t = true -> o <> Abort) /\ (forall e d, o = Throw e d -> e = RuntimeError \/ e = OutOfRange) /\
  (everywhere dumpable t = true -> everywhere readable t = true -> o <> UB).
Proof.
  intros tn fuel l t r u Hf. cbv zeta. destruct (C95_exactly tn fuel l t r u Hf) as (_ & E & _). rewrite E. clear E.
  assert (T : within (fun e => e = RuntimeError \/ e = OutOfRange) (everywhere one_group t <> true) (~ (everywhere dumpable t = true /\ everywhere readable t = true)) (avro_dump t)).
  { unfold avro_dump. apply within_bind; [now apply described_within; left|]. intros t' Ht. apply described_is in Ht. injection Ht as <-. apply avro_within. lia. }
  destruct (avro_dump t) as [x|e| |]; cbn [within] in T; repeat split; try discriminate; try contradiction; try congruence; auto.
Qed.
Print Assumptions C95_avro.

(** ** The tool *)
(** schema-dumper, given a file with plain data that decodes: a text and success, a
    message and failure, or a crash, decided by the tree. *)
Theorem C95_tool : forall decode tn fuel fs prog name body t,
  fs name = File (magic ++ String "000" body) -> SpecFile.fits (magic ++ String "000" body) -> decode body = Some t -> height t <= fuel ->
  let ends (how : fate string) := match how with
    | Gives x => Exit 0 (x ++ newline) false
    | Raises RuntimeError => Exit 1 "" true
    | Raises _ => Terminated
    | Stops => Aborted
    | Wild => Tools.Undefined
    end in
  schema_dumper decode tn fuel fs [prog; name; "raw"] = ends (raw_dump tn t) /\
  schema_dumper decode tn fuel fs [prog; name; "avro"] = ends (avro_dump t).
Proof.
  intros decode tn fuel fs prog name body t Hn Hf Hd Hfu ends.
  assert (G : forall mode, In mode modes -> schema_dumper decode tn fuel fs [prog; name; mode] = finish caught (dumpSchema tn fuel (target_of mode) (decoded t))).
  { intros mode Hm. exact (proj2 (proj2 (good_file decode (fun _ : N => "") (fun _ _ => ret (IText None "")) true true (fun _ => "") (fun _ => "") tn fuel fs prog name mode body t Hm Hn Hf Hd))). }
  destruct (C95_exactly tn fuel [] t [] [] Hfu) as (E1 & E2 & _).
  split; rewrite G by (cbn; auto); [change (target_of "raw") with ToRaw; change (decoded t) with (Data (At [] t []) []); rewrite E1; destruct (raw_dump tn t) as [x|[]| |]; reflexivity|].
  change (target_of "avro") with ToAvro. change (decoded t) with (Data (At [] t []) []). rewrite E2; destruct (avro_dump t) as [x|[]| |]; reflexivity.
Qed.
Print Assumptions C95_tool.

(** ** Examples *)
Definition a_property (type : string) (requires : list string) : tree :=
  field_tree {| w_name := "x"; w_type := type; w_requires := requires; w_default := None; w_label := None; w_mandatory := true; w_multiple := false |}.
Definition a_class (name : tree) (ps : list tree) : tree := described 5 (list_of [name; leaf ANull; list_of []; fingerprint_tree "fp" [leaf ANull]; list_of ps]).
Definition a_blob (groups : list tree) : tree :=
  described 1 (list_of [Node ADescribed [leaf (ASymbol "fp"); list_of []]; described 2 (list_of groups); leaf ANull]).
Definition tn (_ : pn_type) : string := "null".
Definition ok_blob (p : tree) : tree := a_blob [list_of [a_class (str "net.A") [p]]].
Definition safe (t : tree) : bool := everywhere dumpable t && everywhere readable t && everywhere one_group t.
Definition kind_of_end (r : fate string) : fate unit := let% _ := r in Gives tt.

(** The endings of both forms, and whether the conditions hold. *)
Example C95_ex : Forall (fun c => let '(t, r, a, s) := c in kind_of_end (raw_dump tn t) = r /\ kind_of_end (avro_dump t) = a /\ safe t = s)
  [ (ok_blob (a_property "int" []), Gives tt, Gives tt, true);
    (ok_blob (a_property "*" ["java.util.Map<string, int[]>"]), Gives tt, Gives tt, true);
    (* not even an element *)
    (leaf (AInt 1), Raises RuntimeError, Raises RuntimeError, true);
    (* a number for the name of a class; for the type of a property *)
    (a_blob [list_of [a_class (leaf (AInt 1)) []]], Raises RuntimeError, Raises RuntimeError, true);
    (ok_blob (described 4 (list_of [str "x"; leaf (AInt 1)])), Raises RuntimeError, Raises RuntimeError, true);
    (* a property that is nothing but name, type and required types: the Avro form needs no more *)
    (ok_blob (described 4 (list_of [str "x"; str "int"; list_of []])), Raises RuntimeError, Gives tt, true);
    (* a map without a comma *)
    (ok_blob (a_property "java.util.Map<int>" []), Gives tt, Raises OutOfRange, true);
    (* no group, two groups: the raw form shows them *)
    (a_blob [], Gives tt, Stops, false);
    (a_blob [list_of []; list_of []], Gives tt, Stops, false);
    (* names that are not clear *)
    (ok_blob (a_property "" []), Gives tt, Wild, false);
    (ok_blob (a_property "[]" []), Gives tt, Wild, false);
    (ok_blob (a_property "*" ["java.util.List<>"]), Gives tt, Wild, false);
    (ok_blob (a_property "*" []), Gives tt, Wild, false);
    (* a fingerprint without a second part: the first is taken for it; and without any *)
    (described 3 (list_of [leaf (ASymbol "f")]), Gives tt, Gives tt, true);
    (described 3 (list_of []), Raises RuntimeError, Raises RuntimeError, true);
    (* a code that is not known, a number in place of a property or a type *)
    (described 12 (list_of []), Wild, Wild, false);
    (ok_blob (leaf (AInt 1)), Wild, Wild, false);
    (a_blob [list_of [leaf (AInt 1)]], Wild, Wild, false);
    (* a constant of an enum is taken for an element described by its name *)
    (described 7 (list_of [str "A"]), Raises RuntimeError, Raises RuntimeError, true);
    (described 7 (list_of [leaf (ASymbol "A")]), Gives tt, Gives tt, true) ].
Proof.
  repeat lazymatch goal with |- Forall _ [] => apply Forall_nil | |- Forall _ (_ :: _) => apply Forall_cons; [split; [|split]; vm_compute; reflexivity|] end.
Qed.

(** So each condition is needed: without it the dump can abort, or be undefined. *)
Theorem C95_conditions_needed :
  (exists t, everywhere dumpable t = true /\ everywhere readable t = true /\ everywhere one_group t = false /\
     forall tn fuel l r u, height t <= fuel -> dumpSchema tn fuel ToAvro (Data (At l t r) u) = Abort) /\
  (exists t, everywhere dumpable t = true /\ everywhere readable t = false /\ everywhere one_group t = true /\
     forall tn fuel l r u, height t <= fuel -> dumpSchema tn fuel ToAvro (Data (At l t r) u) = UB) /\
  (exists t, everywhere dumpable t = false /\ everywhere readable t = true /\ everywhere one_group t = true /\
     forall tn fuel l r u target, target <> ToAmqp -> height t <= fuel -> dumpSchema tn fuel target (Data (At l t r) u) = UB).
Proof.
  split; [|split]; [exists (a_blob [])|exists (ok_blob (a_property "" []))|exists (described 12 (list_of []))];
    (split; [vm_compute; reflexivity|]; split; [vm_compute; reflexivity|]; split; [vm_compute; reflexivity|]).
  - intros tn fuel l r u H. destruct (C95_exactly tn fuel l _ r u H) as (_ & E & _). rewrite E. vm_compute. reflexivity.
  - intros tn fuel l r u H. destruct (C95_exactly tn fuel l _ r u H) as (_ & E & _). rewrite E. vm_compute. reflexivity.
  - intros tn fuel l r u target Ht H. destruct (C95_exactly tn fuel l _ r u H) as (E1 & E2 & _).
    destruct target; [rewrite E1; vm_compute; reflexivity|contradiction|rewrite E2; vm_compute; reflexivity].
Qed.
Print Assumptions C95_conditions_needed.

(** What is written, in full. *)
Example C95_ex_text :
  raw_dump tn (a_blob [list_of []; list_of []]) = Gives (String.concat newline
    ["DESCRIBED: "; "  key  : 14222930573189447681 :: 1 -> ENVELOPE"; "  list : entries: 3"; "    1]"; "      DESCRIBED: "; "        blob: bytes: 2"; "    2]";
     "      DESCRIBED: "; "        key  : 14222930573189447682 :: 2 -> SCHEMA"; "        list : entries: 2"; "          1/2] list: entries: 0";
     "          2/2] list: entries: 0"; ""]) /\
  avro_dump (ok_blob (a_property "int[]" [])) = Gives (String.concat newline
    ["{"; "  ""type"" : ""record"","; "  ""name"" : ""A"","; "  ""namespace"" : ""net"","; "  ""aliases"" : [ ""fp"" ],"; "  ""fields"" : [";
     "    {"; "      ""name"" : ""x"", "; "      ""type"" : ""array"","; "      ""items"" : int"; "    }"; "  ]"; "}"; ""]).
Proof. split; vm_compute; reflexivity. Qed.
