(** Property theorems C30 - C37, C51, C52: inspecting a blob with dumpContents,
    and dumping one without its schema with dumpData.
    Specification: SpecReaders.v (values, their wire form and their text).
    [fmt] is the C++ library's text for a double and [custom] what serialisers
    installed by the user do; [mo] and [kf] are the unspecified orders of
    evaluation (Factory.v, Readers.v).  [fuel] bounds the nesting that is
    explored: any number above the height of the blob will do. *)
From Verif Require Import SpecTypes Base Proton ProtonProofs TypeNames Schema SpecSchema SpecOrdering SchemaProofs Descriptors SpecDescriptors
  Factory SpecFactory FactoryProofs Readers SpecReaders Blob ReadersProofs InspectProofs RawProofs.
Import List ListNotations.
Open Scope string_scope.

(** C30, for a read position anywhere in any data. *)
Theorem C30_inspection_restores : forall fmt custom mo kf, (forall which name, stays_put (custom which name)) ->
  forall fuel d cf, isAt d -> belowc fuel d ->
  match dumpContents fmt custom mo kf fuel (d, cf) with
  | Ok _ (d', _) => d' = d
  | Throw _ (d', _) => d' = d
  | Fuel => False
  | _ => True
  end.
Proof. exact contents_restored. Qed.
Print Assumptions C30_inspection_restores.

(** A blob whose payload makes inspection throw when it is deep inside. *)
Example C30_ex : let d := decoded (blob_with "string" (leaf ANull)) in
  isAt d /\ belowc 12 d /\ forall fmt custom mo kf, exists e cf,
    dumpContents fmt custom mo kf 12 (d, new_factory) = Throw e (d, cf).
Proof.
  split; [exact I|]. split; [vm_compute; repeat constructor|]. intros. eexists _, _. vm_compute. reflexivity.
Qed.

(** C31: with a factory of any history.  The only thing that can go wrong is
    that the factory cannot process the schema (C24). *)
Theorem C31_inspection_faithful : forall fmt custom mo kf fuel groups x v h cf,
  Forall readable_type (List.concat groups) -> height (envelope_tree (encode v) groups [x]) < fuel ->
  run mo h new_factory cf ->
  exists ts s, Forall2 type_means (List.concat groups) ts /\ Permutation.Permutation (List.concat (s_types s)) ts /\
    forall t,
      (forall u, In u ts -> SpecTypes.primitive_name (n_name u) = false) -> consistent h ts -> distinct_fingerprints ts ->
      In t ts -> conforms ts (n_name t) v -> fingerprint_of v = Some (n_descriptor t) -> kf = true \/ map_free v ->
      let blob := decoded (envelope_tree (encode v) groups [x]) in
      dumpContents fmt custom mo kf fuel (blob, cf)
      = match process mo s cf with
        | Ok _ cf' => Ok ("{ Parsed : " ++ printed fmt dec v ++ " }") (blob, cf')
        | Throw e cf' => Throw e (blob, cf')
        | Abort => Abort | UB => UB | Fuel => Fuel
        end.
Proof. exact dump_faithful. Qed.
Print Assumptions C31_inspection_faithful.

(** C31: with a factory all of whose operations succeeded so far, and a schema
    listed in one of the orders of C14 (dependencies first or last, among others) that names no type without an entry, here
    or in the factory. *)
Theorem C31_ordered_inspection_faithful : forall fmt custom mo kf fuel groups x v h cf,
  Forall readable_type (List.concat groups) -> height (envelope_tree (encode v) groups [x]) < fuel ->
  run_well mo h new_factory cf ->
  exists ts, Forall2 type_means (List.concat groups) ts /\ Forall entry_ok ts /\
    forall t, regular ts -> listed ts -> closed cf ts ->
      (forall u, In u ts -> SpecTypes.primitive_name (n_name u) = false) -> consistent h ts -> distinct_fingerprints ts ->
      In t ts -> conforms ts (n_name t) v -> fingerprint_of v = Some (n_descriptor t) -> kf = true \/ map_free v ->
      exists cf',
      dumpContents fmt custom mo kf fuel (decoded (envelope_tree (encode v) groups [x]), cf)
      = Ok ("{ Parsed : " ++ printed fmt dec v ++ " }") (decoded (envelope_tree (encode v) groups [x]), cf').
Proof. exact dump_faithful_well. Qed.
Print Assumptions C31_ordered_inspection_faithful.

(** C31: with a fresh factory and a self-contained schema, listed in
    one of the orders of C14. *)
Theorem C31_fresh_inspection_faithful : forall fmt custom mo kf fuel groups x v,
  Forall readable_type (List.concat groups) -> height (envelope_tree (encode v) groups [x]) < fuel ->
  exists ts, Forall2 type_means (List.concat groups) ts /\ Forall entry_ok ts /\
    forall t, regular ts -> listed ts -> closed new_factory ts ->
      (forall u, In u ts -> SpecTypes.primitive_name (n_name u) = false) -> distinct_fingerprints ts ->
      In t ts -> conforms ts (n_name t) v -> fingerprint_of v = Some (n_descriptor t) -> kf = true \/ map_free v ->
      exists cf',
      dumpContents fmt custom mo kf fuel (decoded (envelope_tree (encode v) groups [x]), new_factory)
      = Ok ("{ Parsed : " ++ printed fmt dec v ++ " }") (decoded (envelope_tree (encode v) groups [x]), cf').
Proof. exact dump_faithful_fresh. Qed.
Print Assumptions C31_fresh_inspection_faithful.

(** Numbers read back to what they were. *)
Theorem C31_numerals_read_back : forall z, exists i,
  DecimalString.NilZero.int_of_string (dec z) = Some i /\ Z.of_int i = z.
Proof. exact numerals_read_back. Qed.
Print Assumptions C31_numerals_read_back.

Example C31_ex : Forall readable_type (List.concat [wires_mixed]) /\ Forall2 type_means (List.concat [wires_mixed]) ts_mixed /\
  regular ts_mixed /\ listed ts_mixed /\ closed new_factory ts_mixed /\ distinct_fingerprints ts_mixed /\
  conforms ts_mixed "net.A" v_mixed.
Proof.
  destruct ts_mixed_first as [H H']. assert (listed ts_mixed) by now apply first_listed. split; [apply mixed_readable|]. split; [apply mixed_means|].
  auto using ts_mixed_closed, mixed_distinct, mixed_conforms.
Qed.
Example C31_ex_text : forall fmt custom mo, exists cf,
  dumpContents fmt custom mo true 20 (decoded (envelope_tree (encode v_mixed) [wires_mixed] [leaf ANull]), new_factory)
  = Ok "{ Parsed : { m : { ""k"" : [ { n : 7 }, <<NULL>>, { n : -12 } ], ""l"" : [  ] }, e : B } }"
       (decoded (envelope_tree (encode v_mixed) [wires_mixed] [leaf ANull]), cf).
Proof. intros fmt custom [|]; eexists; vm_compute; reflexivity. Qed.

(** C32 holds when the compiler evaluates the key first (as clang does) ...
    Missing: compilers that do not. *)
Theorem C32_maps_in_order_partial : forall fmt custom mo fuel groups x v h cf,
  Forall readable_type (List.concat groups) -> height (envelope_tree (encode v) groups [x]) < fuel ->
  run mo h new_factory cf ->
  exists ts s, Forall2 type_means (List.concat groups) ts /\ Permutation.Permutation (List.concat (s_types s)) ts /\
    forall t,
      (forall u, In u ts -> SpecTypes.primitive_name (n_name u) = false) -> consistent h ts -> distinct_fingerprints ts ->
      In t ts -> conforms ts (n_name t) v -> fingerprint_of v = Some (n_descriptor t) ->
      let blob := decoded (envelope_tree (encode v) groups [x]) in
      dumpContents fmt custom mo true fuel (blob, cf)
      = match process mo s cf with
        | Ok _ cf' => Ok ("{ Parsed : " ++ printed fmt dec v ++ " }") (blob, cf')
        | Throw e cf' => Throw e (blob, cf')
        | Abort => Abort | UB => UB | Fuel => Fuel
        end.
Proof.
  intros fmt custom mo fuel groups x v h cf H1 H2 H3.
  destruct (dump_faithful fmt custom mo true fuel groups x v h cf H1 H2 H3) as (ts & s & A & B & C). exists ts, s. split; [exact A|]. split; [exact B|].
  intros t X1 X2 X3 X4 X5 X6. exact (C t X1 X2 X3 X4 X5 X6 (or_introl eq_refl)).
Qed.
Print Assumptions C32_maps_in_order_partial.

(** ... and fails when it evaluates the value first (as gcc does): a map with
    the entry (a, b) is shown as if it had the entry (b, a). *)
Theorem C32_maps_swapped_refuted : forall fmt custom mo fuel a b, 6 <= fuel -> exists cf,
  let blob := decoded (envelope_tree (encode (string_map a b)) [[string_map_type]] [leaf ANull]) in
  dumpContents fmt custom mo false fuel (blob, new_factory) = Ok ("{ Parsed : " ++ printed fmt dec (string_map b a) ++ " }") (blob, cf).
Proof. exact map_swapped. Qed.
Print Assumptions C32_maps_swapped_refuted.

Example C32_ex : forall fmt, printed fmt dec (string_map "k" "v") = "{ ""k"" : ""v"" }" /\ printed fmt dec (string_map "v" "k") = "{ ""v"" : ""k"" }".
Proof. split; reflexivity. Qed.

(** C33 holds for properties of a class (see also C31, whose values may be
    null).  Missing: all other types. *)
Theorem C33_null_object_partial : forall fmt custom kf f s fuel ty ks name d, is_null d = true ->
  exists v, dump fmt custom kf f s (S fuel) (RComposite ty ks) name d = Ok v (pn_next d) /\ show v = labelled name "<<NULL>>".
Proof. exact null_class. Qed.
Print Assumptions C33_null_object_partial.

(** C33 fails: a null number is shown as zero, a null binary as no bytes, and a
    null string, list, array, map or enum makes inspection throw. *)
Theorem C33_null_value_refuted : forall fmt custom mo kf fuel, 6 <= fuel ->
  prints_as fmt custom mo kf fuel "int" (leaf ANull) "0" /\
  prints_as fmt custom mo kf fuel "long" (leaf ANull) "0" /\
  prints_as fmt custom mo kf fuel "double" (leaf ANull) (fmt 0%N) /\
  prints_as fmt custom mo kf fuel "boolean" (leaf ANull) "0" /\
  prints_as fmt custom mo kf fuel "binary" (leaf ANull) "<<<binary: 0 bytes>>>" /\
  refuses fmt custom mo kf fuel "string" (leaf ANull) /\
  (forall f s r name d, is_null d = true ->
     match r with REnum _ _ | RList _ _ | RArray _ _ | RMap _ _ _ => True | _ => False end ->
     dump fmt custom kf f s fuel r name d = Throw RuntimeError (pn_next d)).
Proof.
  intros fmt custom mo kf fuel H. split; [exact (sample_int fmt custom mo kf fuel ANull [] H)|].
  split; [exact (sample_long fmt custom mo kf fuel ANull [] H)|]. split; [exact (sample_double fmt custom mo kf fuel ANull [] H)|].
  split; [exact (sample_boolean fmt custom mo kf fuel ANull [] H)|]. split; [exact (sample_binary fmt custom mo kf fuel ANull [] H)|].
  split; [exact (sample_string fmt custom mo kf fuel ANull [] H)|].
  intros f s r name d Hd Hr. destruct fuel as [|fuel]; [inversion H|]. now apply null_container.
Qed.
Print Assumptions C33_null_value_refuted.

Example C33_ex : is_null (decoded (leaf ANull)) = true.
Proof. reflexivity. Qed.

(** C34 holds for strings, up to symbols.  Missing: the other types. *)
Theorem C34_wrong_type_partial : forall fmt custom mo kf fuel a cs, 6 <= fuel ->
  (forall s, a <> AString s) -> (forall s, a <> ASymbol s) -> refuses fmt custom mo kf fuel "string" (Node a cs).
Proof.
  intros fmt custom mo kf fuel a cs H H1 H2. pose proof (sample_string fmt custom mo kf fuel a cs H) as S.
  destruct a; try exact S; [elim (H1 s)|elim (H2 s)]; reflexivity.
Qed.
Print Assumptions C34_wrong_type_partial.

(** C34 fails: whatever else is stored, of any type, is shown as zero (or as no
    bytes), and a symbol is shown as a string. *)
Theorem C34_wrong_type_refuted : forall fmt custom mo kf fuel a cs, 6 <= fuel ->
  ((forall z, a <> AInt z) -> prints_as fmt custom mo kf fuel "int" (Node a cs) "0") /\
  ((forall z, a <> ALong z) -> prints_as fmt custom mo kf fuel "long" (Node a cs) "0") /\
  ((forall b, a <> ADouble b) -> prints_as fmt custom mo kf fuel "double" (Node a cs) (fmt 0%N)) /\
  ((forall b, a <> ABool b) -> prints_as fmt custom mo kf fuel "boolean" (Node a cs) "0") /\
  ((forall s, a <> ABinary s) -> prints_as fmt custom mo kf fuel "binary" (Node a cs) "<<<binary: 0 bytes>>>") /\
  (forall s, a = ASymbol s -> prints_as fmt custom mo kf fuel "string" (Node a cs) ("""" ++ s ++ """")).
Proof.
  intros fmt custom mo kf fuel a cs H.
  pose proof (sample_int fmt custom mo kf fuel a cs H) as S1. pose proof (sample_long fmt custom mo kf fuel a cs H) as S2.
  pose proof (sample_double fmt custom mo kf fuel a cs H) as S3. pose proof (sample_boolean fmt custom mo kf fuel a cs H) as S4.
  pose proof (sample_binary fmt custom mo kf fuel a cs H) as S5. pose proof (sample_string fmt custom mo kf fuel a cs H) as S6.
  repeat split.
  - intros N. destruct a; try exact S1. now elim (N z).
  - intros N. destruct a; try exact S2. now elim (N z).
  - intros N. destruct a; try exact S3. now elim (N bits).
  - intros N. destruct a; try exact S4. now elim (N b).
  - intros N. destruct a; try exact S5. now elim (N s).
  - intros s ->. exact S6.
Qed.
Print Assumptions C34_wrong_type_refuted.

(** C35 holds for six types.  Missing: float and char. *)
Theorem C35_primitives_partial : forall fmt custom mo kf fuel ty v, 6 <= fuel ->
  In ty ["int"; "long"; "double"; "boolean"; "string"; "binary"] -> conforms [] ty v ->
  prints_as fmt custom mo kf fuel ty (encode v) (printed fmt dec v).
Proof. exact sample_good. Qed.
Print Assumptions C35_primitives_partial.

(** C35 fails: floats and chars can be serialised (see C38), but inspecting them
    throws, whatever the value. *)
Theorem C35_float_char_refuted : forall fmt custom mo kf fuel t, 6 <= fuel ->
  refuses fmt custom mo kf fuel "float" t /\ refuses fmt custom mo kf fuel "char" t.
Proof. intros. split; [now apply sample_float|now apply sample_char]. Qed.
Print Assumptions C35_float_char_refuted.

Example C35_ex : conforms [] "int" (VInt (-3)) /\ conforms [] "string" (VString "x").
Proof. split; constructor. Qed.

(** C36 *)
Theorem C36_balanced : forall fmt custom mo kf,
  (forall which name, stays_put (custom which name)) ->
  (forall which name d v d', custom which name d = Ok v d' -> exists b, show v = labelled name b /\ balanced b) ->
  (forall b, no_bracket (fmt b)) ->
  forall fuel blob cf text st, payload_clean blob -> height blob < fuel ->
  (forall e, read_envelope fuel (decoded blob) = Ok e (decoded blob) -> names_clean (List.concat (s_types (e_schema e)))) ->
  dumpContents fmt custom mo kf fuel (decoded blob, cf) = Ok text st -> balanced text.
Proof. exact contents_balanced. Qed.
Print Assumptions C36_balanced.

Example C36_ex : payload_clean (envelope_tree (encode v_mixed) [wires_mixed] [leaf ANull]) /\ names_clean ts_mixed /\ ~ balanced "{ [ }".
Proof.
  split; [cbn; tauto|]. split.
  - intros c fd Hc Hfd. destruct Hc as [E|[E|[E|[E|[E|[]]]]]]; try discriminate E; injection E as <-.
    + destruct Hfd as [<- |[]]. cbn. auto.
    + destruct Hfd as [<- |[<- |[]]]; cbn; auto.
  - apply not_balanced_ex.
Qed.

(** C37: the same factory, after anything else has been done with it. *)
Theorem C37_inspect_again : forall fmt custom mo kf, (forall which name, stays_put (custom which name)) ->
  forall fuel blob h0 cf text st cf1 h cf2, height blob < fuel ->
  run mo h0 new_factory cf -> dumpContents fmt custom mo kf fuel (decoded blob, cf) = Ok text (st, cf1) -> run mo h cf1 cf2 ->
  (forall e, read_envelope fuel (decoded blob) = Ok e (decoded blob) ->
     Forall proper (List.concat (s_types (e_schema e))) /\
     one_name_per_fingerprint (entries_of h0 ++ List.concat (s_types (e_schema e)) ++ entries_of h)) ->
  exists cf3, dumpContents fmt custom mo kf fuel (decoded blob, cf2) = Ok text (decoded blob, cf3).
Proof. exact inspect_again. Qed.
Print Assumptions C37_inspect_again.

(** C37: two factories of any history; payloads that do not conform to the
    schema are included. *)
Theorem C37_inspect_elsewhere : forall fmt custom mo kf fuel d e h cf h' cf' cf1 cf1',
  read_envelope fuel d = Ok e d -> 
  let ts := List.concat (s_types (e_schema e)) in
  Forall proper ts -> closed new_factory ts -> one_name_per_fingerprint ts -> (exists t, In t ts /\ n_descriptor t = e_descriptor e) ->
  run mo h new_factory cf -> run mo h' new_factory cf' -> consistent h ts -> consistent h' ts ->
  process mo (e_schema e) cf = Ok tt cf1 -> process mo (e_schema e) cf' = Ok tt cf1' ->
  same_outcome (dumpContents fmt custom mo kf fuel (d, cf)) (dumpContents fmt custom mo kf fuel (d, cf')).
Proof. exact inspect_elsewhere. Qed.
Print Assumptions C37_inspect_elsewhere.

(** The schema of the blob of C31, on a fresh factory and on one that has the
    schema of another class and a custom serialiser. *)
Example C37_ex : forall mo, exists e f1 f2 f3,
  read_envelope 20 (decoded (envelope_tree (encode v_mixed) [wires_mixed] [leaf ANull])) =
    Ok e (decoded (envelope_tree (encode v_mixed) [wires_mixed] [leaf ANull])) /\
  (exists t, In t (List.concat (s_types (e_schema e))) /\ n_descriptor t = e_descriptor e) /\
  Forall (fun t => In t ts_mixed) (List.concat (s_types (e_schema e))) /\
  run mo [Install RPublicKey; Process (schema_of [[class_of "net.C" [field_of "d" "int" []]]])] new_factory f1 /\
  consistent [Install RPublicKey; Process (schema_of [[class_of "net.C" [field_of "d" "int" []]]])] ts_mixed /\
  process mo (e_schema e) new_factory = Ok tt f2 /\ process mo (e_schema e) f1 = Ok tt f3.
Proof. exact elsewhere_ex. Qed.

(** C51: any payload of values, lists and described lists, whatever follows it
    in the envelope. *)
Theorem C51_raw_dump_faithful : forall double float fuel fp es more,
  all_simple (RawDescribed fp es) -> height (raw_tree (RawDescribed fp es)) <= fuel ->
  let blob := decoded (raw_blob (raw_tree (RawDescribed fp es)) more) in
  dumpData double float fuel blob = Ok (raw_text double float dec (RawDescribed fp es)) blob.
Proof. exact raw_faithful. Qed.
Print Assumptions C51_raw_dump_faithful.

(** C51: data and position are restored for any data at all. *)
Theorem C51_raw_dump_restores : forall double float fuel d, isAt d -> belowc fuel d ->
  match dumpData double float fuel d with
  | Ok _ d' => d' = d
  | Throw _ d' => d' = d
  | Fuel => False
  | _ => True
  end.
Proof. exact dumpData_restored. Qed.
Print Assumptions C51_raw_dump_restores.

Example C51_ex : forall double float,
  let r := RawDescribed "fp" [RawValue (AInt (-5)); RawList []; RawDescribed "q" [RawValue (AString "s"); RawList [RawValue (ABool true)]]] in
  all_simple r /\ height (raw_tree r) <= 6 /\
  raw_text double float dec r = "fp : [ -5, [ <<<Empty List>>> ], q : [ s, [ true ] ] ]".
Proof. intros. split; [cbn; tauto|]. split; [vm_compute; repeat constructor|reflexivity]. Qed.

(** C52 fails: of a map of single values x0, x1, x2, .. (keys and values in turn)
    the entries x1 : x2, x4 : x5, .. are shown, the last element standing in for
    what is beyond the end. *)
Theorem C52_raw_maps_refuted : forall double float fuel fp xs more,
  2 <= fuel -> Forall simple xs -> Nat.Even (List.length xs) ->
  let blob := decoded (raw_blob (raw_map fp xs) more) in
  dumpData double float fuel blob = Ok (fp ++ " : " ++ raw_map_text double float dec xs) blob.
Proof. exact raw_map_prints. Qed.
Print Assumptions C52_raw_maps_refuted.

(** C52 fails: the only entry of a map is shown without its key. *)
Theorem C52_raw_entry_refuted : forall double float fuel fp k v more, 2 <= fuel -> simple k -> simple v ->
  let blob := decoded (raw_blob (raw_map fp [k; v]) more) in
  dumpData double float fuel blob =
  Ok (fp ++ " : " ++ in_brackets "" [raw_value double float dec v ++ " : " ++ raw_value double float dec v]) blob.
Proof. exact raw_single. Qed.
Print Assumptions C52_raw_entry_refuted.

(** C52 holds for the empty map.  Missing: all others. *)
Theorem C52_raw_empty_map_partial : forall double float fuel fp more, 2 <= fuel ->
  let blob := decoded (raw_blob (raw_map fp []) more) in
  dumpData double float fuel blob = Ok (fp ++ " : [ <<<Empty Map>>> ]") blob.
Proof. intros double float fuel fp more H. apply (raw_map_prints double float fuel fp [] more H); [constructor|now exists 0]. Qed.
Print Assumptions C52_raw_empty_map_partial.

Example C52_ex : forall double float, let xs := [AString "a"; AInt 1; AString "b"; AInt 2; AString "c"; AInt 3] in
  Forall simple xs /\ Nat.Even (List.length xs) /\ raw_map_text double float dec xs = "[ 1 : b, c : 3, 3 : 3 ]".
Proof. intros. split; [repeat constructor|]. split; [exists 3; reflexivity|reflexivity]. Qed.
