(** C103: whether blob-inspector and data-dumper print JSON.  Specification: SpecJson.v
    and SpecToolJson.v. *)
From Coq Require Import Lia.
From Verif Require Import SpecTypes Base Proton ProtonProofs CordaFile TypeNames Schema SpecSchema SpecOrdering SchemaProofs Descriptors SpecDescriptors
  Factory SpecFactory FactoryProofs Readers Blob SchemaDump Tools SpecJson SpecAvro JsonProofs AvroJsonProofs SpecAccept SpecDisplay SpecRaw
  SpecReaders ReadersProofs InspectProofs RawProofs PropRaw PropReaders PropTools SpecToolJson ToolJsonProofs.
Import List ListNotations.
Open Scope string_scope.

(** C103 fails: nothing that blob-inspector prints is JSON, whatever the file is, *)
Theorem C103_inspector_refuted : forall decode double custom map_order entry_order fuel fs argv out said, labels custom ->
  blob_inspector decode double custom map_order entry_order fuel fs argv = Exit 0 out said -> forall j, ~ json_text j out.
Proof.
  intros decode double custom mo kf fuel fs argv out said L H j.
  assert (X : forall d, finish uncaught (inspector_dump double custom mo kf fuel d) = Exit 0 out said -> ~ json_text j out).
  { intros d. unfold finish, inspector_dump. unfold bind at 1. destruct (on_factory _ _) as [u [d' cf]| | | |]; try discriminate.
    destruct (dumpContents _ _ _ _ _ _) as [x st| | | |] eqn:E; try discriminate. unfold printed_line. intros [= <- _].
    destruct (shown_parsed _ _ _ _ _ _ _ _ L E) as [s ->]. rewrite !TypeNamesProofs.app_assoc_s. apply spoilt_not_json, parsed_spoilt. }
  revert H. unfold blob_inspector, with_blob. destruct argv as [|a [|b [|c l]]]; try discriminate.
  destruct (fs b) as [|n|s]; [discriminate|..]; (destruct (open_ _ _); try discriminate; destruct (decodable _); [|discriminate]; destruct (AMQPBlob_ _ _); try discriminate; apply X).
Qed.
Print Assumptions C103_inspector_refuted.

(** and nor is anything that dumpContents returns. *)
Theorem C103_contents_refuted : forall double custom map_order entry_order fuel d cf x st, labels custom ->
  dumpContents double custom map_order entry_order fuel (d, cf) = Ok x st -> forall j, ~ json_text j x.
Proof.
  intros double custom mo kf fuel d cf x st L E j. destruct (shown_parsed _ _ _ _ _ _ _ _ L E) as [s ->]. apply spoilt_not_json, parsed_spoilt.
Qed.
Print Assumptions C103_contents_refuted.

(** What is printed for the payload itself is JSON exactly if there is no property in
    it, no null, binary value or enum constant, and all keys are strings; then it is
    the right JSON.  Missing: values that are not [ordinary]. *)
Theorem C103_payload_partial : forall double custom map_order entry_order fuel groups x v,
  Forall readable_type (List.concat groups) -> height (envelope_tree (encode v) groups [x]) < fuel ->
  exists ts, Forall2 type_means (List.concat groups) ts /\ Forall entry_ok ts /\
    forall t, regular ts -> listed ts -> closed new_factory ts ->
      (forall u, In u ts -> SpecTypes.primitive_name (n_name u) = false) -> distinct_fingerprints ts ->
      In t ts -> conforms ts (n_name t) v -> fingerprint_of v = Some (n_descriptor t) -> entry_order = true \/ map_free v -> ordinary double v ->
      let blob := decoded (envelope_tree (encode v) groups [x]) in
      exists cf text,
      dumpContents double custom map_order entry_order fuel (blob, new_factory) = Ok ("{ Parsed : " ++ text ++ " }") (blob, cf) /\
      (nameless v -> json_text (as_json double dec v) text) /\
      (~ nameless v -> forall j, ~ json_text j text).
Proof.
  intros double custom mo kf fuel groups x v H1 H2. destruct (dump_faithful_fresh double custom mo kf fuel groups x v H1 H2) as (ts & A & B & C).
  exists ts. split; [exact A|]. split; [exact B|]. intros t X1 X2 X3 X4 X5 X6 X7 X8 X9 O. destruct (C t X1 X2 X3 X4 X5 X6 X7 X8 X9) as [cf E].
  exists cf, (printed double dec v). split; [exact E|]. split; [intros N; now apply value_json, nameless_json|].
  intros N j J. apply N, (value_json_exactly double v O). eauto.
Qed.
Print Assumptions C103_payload_partial.

(** A map from strings to lists of numbers, and an object. *)
Definition counts : value := VMap "f" [(VString "a", VList "g" [VInt 1; VInt (-20)]); (VString "b", VList "g" [])].
Example C103_ex_payload : forall double, ordinary double counts /\ nameless counts /\
  printed double dec counts = "{ ""a"" : [ 1, -20 ], ""b"" : [  ] }" /\
  as_json double dec counts = JObject [("a", JArray [JNumber "1"; JNumber "-20"]); ("b", JArray [])] /\
  ordinary double v_mixed /\ ~ nameless v_mixed.
Proof.
  intros double. split; [cbn; repeat split; repeat constructor; cbn; try lia; discriminate|]. split; [cbn; tauto|]. do 2 (split; [reflexivity|]). split.
  - cbn. repeat split; try (intros K; repeat destruct K as [K|K]; try discriminate; contradiction); try (repeat constructor; cbn; try lia; discriminate).
    exists "B"%char. split; [now left|]. intros K. cbn in K. repeat destruct K as [K|K]; try discriminate; contradiction.
  - cbn. discriminate.
Qed.

(** C103 fails for data-dumper: unless the fingerprint of the payload begins like a
    JSON array, what it prints is not JSON. *)
Theorem C103_dumper_refuted : forall double float fuel t p fp x d, height t <= fuel ->
  in_envelope t p -> part_is 0 p (calls fp) -> ~ like_an_array fp ->
  dumpData double float fuel (decoded t) = Ok x d -> forall j, ~ json_text j x.
Proof.
  intros double float fuel t p fp x d H P F N E j.
  destruct (proj1 (C72_raw_exactly double float fuel t x H) (ex_intro _ d E)) as (p' & P' & S).
  assert (p' = p) as ->.
  { destruct P as (_ & _ & b & A1 & _ & A2 & _), P' as (_ & _ & b' & B1 & _ & B2 & _). congruence. }
  inversion S as [| | |? fp' body y C1 C2 C3 C4]; subst.
  assert (fp' = fp) as ->.
  { destruct F as (k & K1 & K2), C1 as (k' & L1 & L2). assert (k' = k) as -> by congruence. unfold calls, says in K2, L2.
    destruct K2, L2; congruence. }
  assert (Y : exists z, y = z ++ " ]").
  { inversion C4; subst; try (exfalso; destruct C3 as [C3|C3]; congruence); unfold in_brackets; rewrite <- TypeNamesProofs.app_assoc_s; eauto. }
  destruct Y as [z ->]. now apply raw_not_json.
Qed.
Print Assumptions C103_dumper_refuted.

(** The condition is needed: these are well-formed, and the second is JSON. *)
Definition odd_payload : tree := payload_tree "[""" [list_of [str """, [ 1 ]"]].
Example C103_ex_dumper : forall double float,
  in_envelope (around (vendor 1) payload_inside) payload_inside /\ part_is 0 payload_inside (calls "fp") /\ ~ like_an_array "fp" /\
  dumpData double float 7 (decoded (around (vendor 1) payload_inside)) =
    Ok "fp : [ 7, [ <<<Empty List>>> ], [ [ x, true ] : [ x, true ] ] ]" (decoded (around (vendor 1) payload_inside)) /\
  dumpData double float 7 (decoded (around (vendor 1) odd_payload)) = Ok "["" : [ "", [ 1 ] ]" (decoded (around (vendor 1) odd_payload)) /\
  json_text (JArray [JString " : [ "; JArray [JNumber "1"]]) "["" : [ "", [ 1 ] ]".
Proof.
  intros double float. destruct (C72_ex double float) as (_ & A & _ & B). split; [exact A|].
  split; [exists (Node (ASymbol "fp") []); split; [reflexivity|now right]|]. split.
  { intros (w & r & Hw & E). destruct w; [discriminate|]. injection E as <- E. pose proof (Forall_inv Hw) as [|[|[|]]]; discriminate. }
  split; [exact B|]. split; [reflexivity|]. apply value_json.
  apply (VArray [JString " : [ "; JArray [JNumber "1"]] """ : [ "", [ 1 ] ").
  apply (EMore _ "" """ : [ """ "" _ " [ 1 ] "); [constructor| |constructor|].
  - apply (tame_value " : [ "). repeat constructor; cbn; try lia; discriminate.
  - apply (ELast _ " " "[ 1 ]" " "); [repeat constructor| |repeat constructor]. apply (array_text [JNumber "1"] ["1"]). repeat constructor. exact (dec_number 1).
Qed.

(** What it prints after the fingerprint is JSON if there are only numbers, booleans
    and nulls, and no list is empty.  Missing: strings, objects, lists with a
    fingerprint, and maps. *)
Theorem C103_raw_partial : forall double float fuel fp es more, es <> [] -> Forall (numbers double float) es ->
  height (raw_tree (RawDescribed fp es)) <= fuel ->
  let blob := decoded (raw_blob (raw_tree (RawDescribed fp es)) more) in
  exists text, dumpData double float fuel blob = Ok (fp ++ " : " ++ text) blob /\
    json_text (JArray (map (raw_json double float dec) es)) text.
Proof.
  intros double float fuel fp es more Hn N H blob. exists (in_brackets "<<<Empty List>>>" (map (raw_text double float dec) es)). split.
  - apply (raw_faithful double float fuel fp es more); [|exact H]. cbn [all_simple]. apply fold_Forall. eapply Forall_impl; [|exact N].
    clear. fix rec 1. intros [a|es|fp es] H; [destruct a; try contradiction; exact I| |destruct H]. cbn [all_simple numbers] in *. destruct H as [_ H].
    induction es as [|e es IH]; [exact I|]. split; [apply rec, H|apply IH, H].
  - apply value_json, (numbers_json double float (RawList es)). split; [exact Hn|]. now apply fold_Forall.
Qed.
Print Assumptions C103_raw_partial.

Example C103_ex_raw : forall double float,
  let es := [RawValue (AInt 3); RawList [RawValue (ABool true); RawValue ANull]] in
  Forall (numbers double float) es /\ height (raw_tree (RawDescribed "fp" es)) <= 5 /\
  map (raw_json double float dec) es = [JNumber "3"; JArray [JTrue; JNull]] /\
  dumpData double float 5 (decoded (raw_blob (raw_tree (RawDescribed "fp" es)) [])) =
    Ok "fp : [ 3, [ true, null ] ]" (decoded (raw_blob (raw_tree (RawDescribed "fp" es)) [])).
Proof.
  intros double float es. split; [repeat constructor; discriminate|]. split; [vm_compute; lia|]. split; reflexivity.
Qed.
(** The object of C64 is printed. *)
Example C103_ex : forall fmt mo, exists out, labels (fun _ _ => throw RuntimeError) /\
  blob_inspector owner_decode fmt (fun _ _ => throw RuntimeError) mo true 20 owner_files ["blob-inspector"; "o"] = Exit 0 out false.
Proof.
  intros fmt mo. eexists. split; [intros which n d v d' H; discriminate|]. exact (proj1 (C64_ex_text fmt _ mo fmt fmt)).
Qed.
