(** Property theorems C58 - C61: dumping the schema.
    Specification: SpecDescriptors.v (schema sections on the wire),
    SpecSchemaDump.v (the raw outline), SpecJson.v (JSON texts), SpecAvro.v (the
    Avro form).  [fuel] bounds the nesting that is explored, [tn] gives proton's
    names of the types. *)
From Verif Require Import Base Proton ProtonProofs SpecTypes TypeNamesProofs SpecDescriptors Readers SpecReaders SchemaDump SchemaDumpProofs
  SpecSchemaDump RawSchemaProofs SpecJson SpecAvro AvroJsonProofs.
Import List ListNotations.
Open Scope string_scope.

(** Two classes, a list type and an enum. *)
Definition property (n t : string) (rs : list string) : wire_field :=
  {| w_name := n; w_type := t; w_requires := rs; w_default := None; w_label := Some "lab";
     w_mandatory := true; w_multiple := false |}.
Definition pet : wire_class :=
  {| wc_name := "net.zoo.Pet"; wc_label := None; wc_provides := ["net.Animal"]; wc_fingerprint := "net.corda:aa+/==";
     wc_fields := [property "name" "string" []; property "owner" "net.Person" []; property "age" "*" ["int"]] |}.
Definition flock : wire_class :=
  {| wc_name := "net.zoo.Flock"; wc_label := None; wc_provides := []; wc_fingerprint := "net.corda:bb==";
     wc_fields := [property "place" "string" []; property "pets" "*" ["java.util.List<net.zoo.Pet>"]] |}.
Definition pets : wire_container :=
  {| wr_name := "java.util.List<net.zoo.Pet>"; wr_label := None; wr_provides := []; wr_source := "list";
     wr_fingerprint := "net.corda:cc=="; wr_choices := [] |}.
Definition colour (cs : list string) : wire_container :=
  {| wr_name := "net.zoo.Colour"; wr_label := None; wr_provides := []; wr_source := "list";
     wr_fingerprint := "net.corda:dd=="; wr_choices := cs |}.
Definition blob_of (g : list wire_type) : data :=
  decoded (envelope_tree (payload_tree "net.corda:aa+/==" [leaf ANull]) [g] [leaf ANull]).

(** C58.  The raw dump is exactly the outline of the schema ... *)
Theorem C58_raw_outline : forall tn fuel fp body groups more l r u, 3 <= fuel ->
  let d := Data (At l (envelope_tree (payload_tree fp body) groups more) r) u in
  dumpSchema tn fuel ToRaw d = Ok (lay (envelope_lines (tn TNull) fp groups (length more))) d.
Proof. exact raw_dump_shows. Qed.
Print Assumptions C58_raw_outline.

(** ... so that it names everything but the constants of enums. *)
Theorem C58_raw_mentions_partial : forall tn fuel fp body groups more l r u, 3 <= fuel ->
  let d := Data (At l (envelope_tree (payload_tree fp body) groups more) r) u in
  exists text, dumpSchema tn fuel ToRaw d = Ok text d /\
    forall g t s, In g groups -> In t g -> In s (type_facts t) -> occurs_in s text.
Proof. exact raw_dump_mentions. Qed.
Print Assumptions C58_raw_mentions_partial.

(** Enums that differ in their constants only look the same. *)
Theorem C58_constants_refuted : forall tn fuel fp body more l r u, 3 <= fuel ->
  forall c cs1 cs2,
  let enum cs := {| wr_name := wr_name c; wr_label := wr_label c; wr_provides := wr_provides c;
                    wr_source := wr_source c; wr_fingerprint := wr_fingerprint c; wr_choices := cs |} in
  let blob cs := Data (At l (envelope_tree (payload_tree fp body) [[WContainer (enum cs)]] more) r) u in
  exists text, dumpSchema tn fuel ToRaw (blob cs1) = Ok text (blob cs1) /\
               dumpSchema tn fuel ToRaw (blob cs2) = Ok text (blob cs2).
Proof. exact raw_dump_hides_constants. Qed.
Print Assumptions C58_constants_refuted.

Definition text_of {A} (r : outcome data A) (def : A) : A := match r with Ok a _ => a | _ => def end.
Example C58_ex : 
  text_of (dumpSchema (fun _ => "PN_NULL") 3 ToRaw (blob_of [WContainer (colour ["RED"])])) "" =
  "DESCRIBED: 
  key  : 14222930573189447681 :: 1 -> ENVELOPE
  list : entries: 3
    1]
      DESCRIBED: 
        blob: bytes: 16
    2]
      DESCRIBED: 
        key  : 14222930573189447682 :: 2 -> SCHEMA
        list : entries: 1
          1/1] list: entries: 1
            1:1/1] 
              DESCRIBED: 
                key  : 14222930573189447686 :: 6 -> RESTRICTED_TYPE
                list : entries: 6
                  1] String: Name: net.zoo.Colour
                  2] String: Label: 
                  3] List: Provides: [ ]
                  4] String: Source: list
                  5] Descriptor:
                    DESCRIBED: 
                      key  : 14222930573189447683 :: 3 -> OBJECT_DESCRIPTOR
                      list : entries: 2
                        1/2] net.corda:dd==
                        2/2]  1 PN_NULL
".
Proof. vm_compute. reflexivity. Qed.
Example C58_ex2 : In "java.util.List<net.zoo.Pet>" (type_facts (WClass flock)) /\ In "net.Animal" (type_facts (WClass pet)).
Proof. vm_compute. tauto. Qed.

(** C59, for any data whatsoever. *)
Theorem C59_schema_dump_restores : forall tn fuel target d, heights (forest d) <= fuel ->
  match dumpSchema tn fuel target d with
  | Ok _ d' | Throw _ d' => d' = d
  | Fuel => False
  | _ => True
  end.
Proof. exact dumpSchema_keeps. Qed.
Print Assumptions C59_schema_dump_restores.

(** What is not a described element is rejected, as is a described element
    whose descriptor is neither a code nor a symbol. *)
Theorem C59_malformed_throws : forall tn fuel target d, target <> ToAmqp ->
  is_described d = false \/ (exists l a body cs r u, d = Data (At l (Node ADescribed (Node a body :: cs)) r) u /\
                             atom_type a <> TULong /\ atom_type a <> TSymbol) ->
  exists e, dumpSchema tn fuel target d = Throw e d.
Proof. exact dumpSchema_malformed. Qed.
Print Assumptions C59_malformed_throws.

(** Some dumps come to an end with a text, some with an exception. *)
Example C59_ex : forall tn, let d := blob_of [WContainer pets; WClass pet] in
  heights (forest d) <= 15 /\ (exists text, dumpSchema tn 15 ToRaw d = Ok text d) /\
  (exists text, dumpSchema tn 15 ToAvro d = Ok text d) /\
  dumpSchema tn 15 ToRaw (decoded (described 1 (str "x"))) = Throw RuntimeError (decoded (described 1 (str "x"))) /\
  is_described (decoded (str "x")) = false.
Proof.
  intros tn d. split; [vm_compute; repeat constructor|]. split; [|split; [|split; reflexivity]].
  - eexists. vm_compute. reflexivity.
  - eexists. vm_compute. reflexivity.
Qed.

(** C60 holds for a schema that has one class, at the end, all of whose
    properties are of single type ... *)
Theorem C60_single_class_partial : forall tn fuel payload rs c more l r u, 3 <= fuel ->
  simple_class c -> has "." (wc_name c) ->
  let d := Data (At l (envelope_tree payload [(map WContainer rs ++ [WClass c])%list] more) r) u in
  exists text, dumpSchema tn fuel ToAvro d = Ok text d /\ describes text c.
Proof. exact avro_one_class. Qed.
Print Assumptions C60_single_class_partial.

(** ... and with more classes the text of each is as it should be. *)
Theorem C60_listing_partial : forall tn fuel payload g more l r u, 3 <= fuel ->
  Forall (fun t => match t with WClass c => simple_class c /\ has "." (wc_name c) | WContainer _ => True end) g ->
  let d := Data (At l (envelope_tree payload [g] more) r) u in
  exists text, dumpSchema tn fuel ToAvro d = Ok text d /\ listing g text.
Proof. exact avro_listing. Qed.
Print Assumptions C60_listing_partial.

(** It is false of any schema in which a class is followed by another type, *)
Theorem C60_several_types_refuted : forall tn fuel payload rs c rest more l r u, 3 <= fuel ->
  simple_class c -> has "." (wc_name c) -> rest <> [] ->
  ~ exists text d' j,
      dumpSchema tn fuel ToAvro (Data (At l (envelope_tree payload [(map WContainer rs ++ WClass c :: rest)%list] more) r) u)
      = Ok text d' /\ json_text j text.
Proof. exact avro_two_not_json. Qed.
Print Assumptions C60_several_types_refuted.

(** and of any whose first class has a list, map or array property. *)
Theorem C60_collections_refuted : forall tn fuel payload rs c rest w ws1 ws2 more l r u, 3 <= fuel ->
  wc_fields c = (ws1 ++ w :: ws2)%list -> Forall simple_property ws1 ->
  tame (wc_name c) -> tame (wc_fingerprint c) -> tame (w_name w) -> collection (property_type w) ->
  ~ exists text d' j,
      dumpSchema tn fuel ToAvro (Data (At l (envelope_tree payload [(map WContainer rs ++ WClass c :: rest)%list] more) r) u)
      = Ok text d' /\ json_text j text.
Proof. exact avro_collection_not_json. Qed.
Print Assumptions C60_collections_refuted.

(** So exactly these schemas, of all whose names need no escaping and whose properties are of
    single type or collections, have a JSON text. *)
Theorem C60_exactly : forall tn fuel payload g more l r u, 3 <= fuel -> Forall plain_type g ->
  ((exists text d' j, dumpSchema tn fuel ToAvro (Data (At l (envelope_tree payload [g] more) r) u) = Ok text d' /\ json_text j text) <->
   (exists rs c, g = (map WContainer rs ++ [WClass c])%list /\ Forall simple_property (wc_fields c))).
Proof. exact avro_exactly. Qed.
Print Assumptions C60_exactly.

Ltac tame_tac := repeat constructor; try discriminate; vm_compute; repeat constructor.
Ltac single_tac := unfold single; repeat split; try discriminate;
  first [intros [x E]; discriminate E | intros H; apply finishes_rev in H as [x E]; vm_compute in E; discriminate E].
Example C60_ex : simple_class pet /\ has "." (wc_name pet) /\
  Forall simple_property [property "place" "string" []] /\ collection (property_type (property "pets" "*" ["java.util.List<net.zoo.Pet>"])).
Proof.
  split; [|split; [vm_compute; tauto|split]].
  - split; [tame_tac|]. split; [tame_tac|]. repeat (apply Forall_cons || apply Forall_nil); (split; [tame_tac|split; [tame_tac|]]); single_tac.
  - repeat constructor; try single_tac; tame_tac.
  - left. exists "", (TListOf (TName "net.zoo.Pet")). split; [constructor|]. split.
    + repeat constructor; try (vm_compute; intuition discriminate); intros [x E]; discriminate E.
    + split; [reflexivity|]. split; [discriminate|]. cbn [bare_inside]. split; [single_tac|].
      split; [vm_compute; intuition discriminate|]. exists "z"%char. split; vm_compute; intuition discriminate.
Qed.
Example C60_ex_exactly : Forall plain_type [WContainer pets; WClass pet; WClass flock].
Proof.
  destruct C60_ex as ((T1 & T2 & F) & H & F' & K). constructor; [exact I|]. constructor; [|constructor; [|constructor]].
  - split; [exact T1|]. split; [exact T2|]. split; [exact H|]. eapply Forall_impl; [|exact F]. intros w Hw. now left.
  - split; [tame_tac|]. split; [tame_tac|]. split; [vm_compute; tauto|]. cbn [wc_fields flock]. inversion F'; subst. constructor; [now left|]. constructor; [|constructor].
    right. split; [tame_tac|exact K].
Qed.
(** The text of the class; the bare name. *)
Example C60_ex2 : forall tn, text_of (dumpSchema tn 3 ToAvro (blob_of [WContainer pets; WClass flock])) "" =
"{
  ""type"" : ""record"",
  ""name"" : ""Flock"",
  ""namespace"" : ""net.zoo"",
  ""aliases"" : [ ""net.corda:bb=="" ],
  ""fields"" : [
    {
      ""name"" : ""place"", 
      ""type"" : ""string""
    },
    {
      ""name"" : ""pets"", 
      ""type"" : ""array"",
      ""items"" : net.zoo.Pet
    }
  ]
}
".
Proof. intros tn. vm_compute. reflexivity. Qed.

(** C61 is false: the package of a class without package is its own name; *)
Theorem C61_no_package_refuted : forall tn fuel payload rs c rest more l r u text d', 3 <= fuel -> ~ has "." (wc_name c) ->
  dumpSchema tn fuel ToAvro (Data (At l (envelope_tree payload [(map WContainer rs ++ WClass c :: rest)%list] more) r) u) = Ok text d' ->
  occurs_in (quoted "namespace" ++ " : " ++ quoted (wc_name c)) text.
Proof. exact avro_no_package'. Qed.
Print Assumptions C61_no_package_refuted.

(** a wildcard property without required types has undefined behaviour; *)
Theorem C61_wildcard_refuted : forall tn fuel payload rs c rest w ws more l r u, 3 <= fuel ->
  wc_fields c = w :: ws -> property_type w = "" ->
  dumpSchema tn fuel ToAvro (Data (At l (envelope_tree payload [(map WContainer rs ++ WClass c :: rest)%list] more) r) u) = UB.
Proof. exact avro_no_type. Qed.
Print Assumptions C61_wildcard_refuted.

(** and any number of groups but one fails an assertion. *)
Theorem C61_groups_refuted : forall tn fuel payload groups more l r u, 3 <= fuel -> length groups <> 1 ->
  dumpSchema tn fuel ToAvro (Data (At l (envelope_tree payload groups more) r) u) = Abort.
Proof. exact avro_groups. Qed.
Print Assumptions C61_groups_refuted.

(** The AMQP form is always empty. *)
Theorem C61_amqp_form_refuted : forall tn fuel d, is_described d = true -> dumpSchema tn fuel ToAmqp d = Ok "" d.
Proof. exact dumpSchema_amqp. Qed.
Print Assumptions C61_amqp_form_refuted.

Definition thing : wire_class :=
  {| wc_name := "Thing"; wc_label := None; wc_provides := []; wc_fingerprint := "f"; wc_fields := [property "n" "int" []] |}.
Example C61_ex : forall tn, ~ has "." (wc_name thing) /\
  (exists text, dumpSchema tn 3 ToAvro (blob_of [WClass thing]) = Ok text (blob_of [WClass thing])) /\
  property_type (property "a" "*" []) = "" /\ length [[WClass thing]; [WClass pet]] <> 1.
Proof.
  intros tn. split; [vm_compute; intuition discriminate|]. split; [eexists; vm_compute; reflexivity|].
  split; [reflexivity|discriminate].
Qed.
