(** Property theorems C99: the memory reading asks for.
    Specification: SpecCopies.v.  Model: Copies.v, the readers and the
    deserialiser with a list of the sizes of the copies that were made and lost,
    and with the number of objects made with [new]. *)
From Verif Require Import SpecTypes Base Proton ProtonProofs TypeNames Schema SpecSchema SpecOrdering SchemaProofs Descriptors SpecDescriptors DescriptorsProofs
  Factory SpecFactory FactoryProofs Readers SpecReaders Blob ReadersProofs InspectProofs DisplayProofs PropDisplay Writer SpecWriter WriterProofs
  Deserialise SpecDeserialise DeserialiseProofs PropDeserialise Copies SpecCopies CopiesProofs CopiesExact CopiesReadProofs.
Import List ListNotations.
Open Scope string_scope.

(** ** Inspecting *)

(** Counting changes nothing: for any data, read position, factory and outcome. *)
Theorem C99_same_result : forall fmt custom mo kf fuel d cf l,
  match c_dumpContents fmt custom mo kf fuel (d, cf, l) with
  | Ok a (st, l') => dumpContents fmt custom mo kf fuel (d, cf) = Ok a st /\ exists w, l' = (l ++ w)%list
  | Throw e (st, l') => dumpContents fmt custom mo kf fuel (d, cf) = Throw e st /\ exists w, l' = (l ++ w)%list
  | Abort => dumpContents fmt custom mo kf fuel (d, cf) = Abort
  | UB => dumpContents fmt custom mo kf fuel (d, cf) = UB
  | Fuel => dumpContents fmt custom mo kf fuel (d, cf) = Fuel
  end.
Proof. exact same_contents. Qed.
Print Assumptions C99_same_result.

(** C99 holds for every blob, well-formed or not, when nothing the factory has
    been told of has to do with binary values.  Missing: binary values. *)
Theorem C99_no_binary_partial : forall fmt custom mo kf fuel d h cf l, run mo h new_factory cf -> Forall without_binary h ->
  (forall e d', read_envelope fuel d = Ok e d' -> Forall no_binary (List.concat (s_types (e_schema e)))) ->
  match c_dumpContents fmt custom mo kf fuel (d, cf, l) with
  | Ok _ (_, l') | Throw _ (_, l') => l' = l
  | _ => True
  end.
Proof. exact none_copied. Qed.
Print Assumptions C99_no_binary_partial.

(** C99 fails for binary values: each time an object is inspected, all of its
    binary values are copied and the copies lost, and nothing else.  (The
    hypotheses are those of C31.) *)
Theorem C99_binaries_refuted : forall fmt custom mo kf fuel groups x v h cf,
  Forall readable_type (List.concat groups) -> height (envelope_tree (encode v) groups [x]) < fuel ->
  run mo h new_factory cf ->
  exists ts s, Forall2 type_means (List.concat groups) ts /\ Permutation.Permutation (List.concat (s_types s)) ts /\
    forall t cf' n l,
      (forall u, In u ts -> SpecTypes.primitive_name (n_name u) = false) -> consistent h ts -> distinct_fingerprints ts ->
      In t ts -> conforms ts (n_name t) v -> fingerprint_of v = Some (n_descriptor t) -> kf = true \/ map_free v ->
      process mo s cf = Ok tt cf' -> exists cf'',
      c_again fmt custom mo kf n fuel (decoded (envelope_tree (encode v) groups [x]), cf, l)
      = Ok (repeat ("{ Parsed : " ++ printed fmt dec v ++ " }") n)
           (decoded (envelope_tree (encode v) groups [x]), cf'', l ++ List.concat (repeat (binaries v) n))%list.
Proof. exact binaries_lost. Qed.
Print Assumptions C99_binaries_refuted.

(** C99 fails for public keys (the blob of C69). *)
Theorem C99_key_refuted : forall fmt custom mo kf fuel fp bits l, 9 <= fuel -> exists cf cf', run_well mo [Install RPublicKey] new_factory cf /\
  c_dumpContents fmt custom mo kf fuel (decoded (key_blob fp bits), cf, l)
  = Ok "{ Parsed : { k : <<<Public Key>>> } }" (decoded (key_blob fp bits), cf', l ++ [String.length bits])%list.
Proof.
  intros fmt custom mo kf fuel fp bits l H; do 9 (destruct fuel as [|fuel]; [Lia.lia|]); clear H. do 2 eexists.
  split; [econstructor; [split; [exact I|reflexivity]|vm_compute; reflexivity|constructor]|].
  destruct mo, kf; vm_compute; reflexivity.
Qed.
Print Assumptions C99_key_refuted.

(** An object with a binary property and a list of objects with one each. *)
Definition wires_binary : list wire_type :=
  [ wire_class_of "net.B" [plain_field "b" "binary" []];
    wire_container_of "java.util.List<net.B>" "list" [];
    wire_class_of "net.A" [plain_field "l" "*" ["java.util.List<net.B>"]; plain_field "k" "binary" []] ].
Definition ts_binary : list notation :=
  [ class_of "net.B" [field_of "b" "binary" []];
    restricted_of "java.util.List<net.B>" "list" [];
    class_of "net.A" [field_of "l" "*" ["java.util.List<net.B>"]; field_of "k" "binary" []] ].
Definition of_bytes (s : string) : value := VObject "net.corda:net.B" [("b", VBinary s)].
Definition v_binary : value := VObject "net.corda:net.A"
  [("l", VList "net.corda:java.util.List<net.B>" [of_bytes "abc"; VNull; of_bytes ""]); ("k", VBinary "12345")].
Example C99_ex_sizes : binaries v_binary = [3; 0; 5].
Proof. reflexivity. Qed.
Example C99_ex : Forall readable_type (List.concat [wires_binary]) /\ Forall2 type_means (List.concat [wires_binary]) ts_binary /\
  distinct_fingerprints ts_binary /\ conforms ts_binary "net.A" v_binary /\ map_free v_binary.
Proof.
  split; [|split; [|split; [|split]]].
  - repeat apply Forall_cons; try apply Forall_nil.
    + split; [|reflexivity]. constructor; [|constructor]. split; [left; reflexivity|discriminate].
    + left. exists "", (TListOf (TName "net.B")). repeat split; try discriminate; [constructor|].
      constructor; [|constructor]. split; [apply plainb_spec; vm_compute; reflexivity|not_boxed].
    + split; [|reflexivity]. constructor; [|constructor; [|constructor]].
      * split; [|discriminate]. apply acceptable_iff. right; right; right; left. split; [reflexivity|]. split; [eexists; eexists; split; reflexivity|].
        repeat constructor. eexists. vm_compute. reflexivity.
      * split; [left; reflexivity|discriminate].
  - repeat apply Forall2_cons; try apply Forall2_nil.
    + repeat split. constructor; [|constructor]. repeat split. exists "b", "binary", [], "", "", true, false. vm_compute. reflexivity.
    + left. exists "", (TListOf (TName "net.B")). split; [constructor|]. split; [|repeat split].
      constructor; [|constructor]. split; [apply plainb_spec; vm_compute; reflexivity|not_boxed].
    + repeat split. constructor; [|constructor; [|constructor]]; repeat split.
      * exists "l", "*", ["java.util.List<net.B>"], "", "", true, false. vm_compute. reflexivity.
      * exists "k", "binary", [], "", "", true, false. vm_compute. reflexivity.
  - apply distinct_nodup. let x := eval vm_compute in (map n_descriptor ts_binary) in change (NoDup x).
    repeat constructor; simpl; intuition discriminate.
  - set (l := match restricted_of "java.util.List<net.B>" "list" [] with TRestricted r => r | _ =>
      {| r_descriptor := ""; r_name := ""; r_label := ""; r_provides := []; r_source := ""; r_kind := list_t; r_of := []; r_choices := [] |} end).
    vm_compute in l.
    set (b := {| c_name := "net.B"; c_label := ""; c_provides := []; c_descriptor := "net.corda:net.B"; c_fields := [field_of "b" "binary" []] |}).
    assert (B : forall s, conforms ts_binary "net.B" (of_bytes s)).
    { intros s. apply (conf_object ts_binary b); [now left|]. constructor; [|constructor]. split; [reflexivity|]. eexists. split; [reflexivity|]. constructor. }
    eapply (conf_object ts_binary {| c_name := "net.A"; c_label := ""; c_provides := []; c_descriptor := "net.corda:net.A";
      c_fields := [field_of "l" "*" ["java.util.List<net.B>"]; field_of "k" "binary" []] |}); [right; right; now left|].
    constructor; [|constructor; [|constructor]]; (split; [reflexivity|]); eexists; (split; [reflexivity|]); [|constructor].
    apply (conf_list ts_binary l "net.B"); auto; [right; now left|].
    constructor; [apply B|constructor; [apply (conf_null ts_binary b); now left|constructor; [apply B|constructor]]].
  - cbn. tauto.
Qed.
Example C99_ex_run : forall fmt custom mo kf, exists cf,
  c_again fmt custom mo kf 2 20 (decoded (envelope_tree (encode v_binary) [wires_binary] [leaf ANull]), new_factory, [])
  = Ok (repeat "{ Parsed : { l : [ { b : <<<binary: 3 bytes>>> }, <<NULL>>, { b : <<<binary: 0 bytes>>> } ], k : <<<binary: 5 bytes>>> } }" 2)
       (decoded (envelope_tree (encode v_binary) [wires_binary] [leaf ANull]), cf, [3; 0; 5; 3; 0; 5]).
Proof. intros fmt custom [|] kf; eexists; vm_compute; reflexivity. Qed.
(** The schema of C31's example, with a factory that has seen another schema. *)
Example C99_ex_none : let s := {| s_types := [[class_of "net.C" [field_of "d" "int" []]]] |} in
  Forall without_binary [Process s] /\ Forall no_binary ts_mixed /\ exists cf, run true [Process s] new_factory cf.
Proof.
  split; [|split].
  - constructor; [|constructor]. cbn. constructor; [|constructor]. intros fd [<- |[]]; discriminate.
  - repeat constructor; cbn; try (intros fd [<- |[<- |[]]]; discriminate); try (intros fd [<- |[]]; discriminate); vm_compute; intuition discriminate.
  - eexists. eapply run_cons; [|left; vm_compute; reflexivity|apply run_nil].
    change (Forall proper [class_of "net.C" [field_of "d" "int" []]]). entries_proper.
Qed.

(** ** Deserialising *)

(** Counting changes nothing, for any data and type; and when an object is
    returned, every object made is behind one of its pointers. *)
Theorem C99_owned : forall cs fuel t d n,
  match c_deserialise cs fuel t (d, n) with
  | Ok o (d', n') => deserialise cs fuel t d = Ok o d' /\ n' = n + pointers o
  | Throw e (d', n') => deserialise cs fuel t d = Throw e d' /\ n <= n'
  | Abort => deserialise cs fuel t d = Abort
  | UB => deserialise cs fuel t d = UB
  | Fuel => deserialise cs fuel t d = Fuel
  end.
Proof. exact same_object. Qed.
Print Assumptions C99_owned.

(** C99 holds for classes without pointers, whatever the data.  Missing:
    exceptions when a class has pointers. *)
Theorem C99_no_pointers_partial : forall cs fuel t d n, pointer_free cs t ->
  match c_deserialise cs fuel t (d, n) with
  | Ok _ (_, n') | Throw _ (_, n') => n' = n
  | _ => True
  end.
Proof. exact none_made. Qed.
Print Assumptions C99_no_pointers_partial.

(** C99 fails when reading ends with an exception: all objects made so far are
    lost, and for a pointer to a primitive the one just made, too.  (The
    hypotheses are those of C47: a value of the wrong kind, at any depth; C45 and
    C46 are among them.) *)
Theorem C99_exception_refuted : forall cs t root k fuel n,
  abandoned cs (fun t i => (~ right_kind t i /\ well_formed i) /\ reads_string t = false) t root k ->
  well_formed root -> is_target root = true -> no_clash root -> height (wire root) <= fuel ->
  exists blob w d, serialise_blob root new_writer = Ok blob w /\ c_deserialise cs fuel t (blob, n) = Throw RuntimeError (d, n + k).
Proof. exact pointers_lost. Qed.
Print Assumptions C99_exception_refuted.

(** Every case of C47 has such a number. *)
Theorem C99_every_exception : forall cs bad t i, first_wrong cs bad t i <-> exists k, abandoned cs bad t i k.
Proof. exact abandoned_iff. Qed.
Print Assumptions C99_every_exception.

(** A person whose last property is null: the pet and the bool are lost. *)
Example C99_ex_lost : let root := person None in
  abandoned sample_classes (fun t i => (~ right_kind t i /\ well_formed i) /\ reads_string t = false) (RClass "net.Person" false) root 2 /\
  well_formed root /\ is_target root = true /\ no_clash root /\ height (wire root) <= 5.
Proof.
  destruct (person_ok None I) as (W & N & T). split; [|split; [exact W|split; [exact T|split; [exact N|vm_compute; repeat constructor]]]].
  pose proof person_reads as P. unfold person_back in P. inversion P as [| |c n fp ps os B E1 E2 E3|]; subst.
  inversion B as [|t1 ts1 i1 is1 o1 os1 B1 B2]; subst. inversion B2 as [|t2 ts2 i2 is2 o2 os2 B3 B4]; subst.
  inversion B4 as [|t3 ts3 i3 is3 o3 os3 B5 B6]; subst.
  apply (abandoned_inside sample_classes _ "net.Person" "net.Person" "f:person" _
    [RPrim CInt false; RPrim CString false; RClass "net.Pet" true] (RPrim CBool true) []
    [IPrim (OfInt 44); IPrim (OfString "Ann"); IPointer (Some pet)] (IPrimPtr CBool None) []
    [OPrim (OfInt 44); OPrim (OfString "Ann"); OClassPtr "net.Pet" [OPrim (OfString "Rex"); OPrim (OfChar (-3))]] 1);
    [reflexivity|reflexivity| |apply abandoned_primitive; repeat split; cbn; try discriminate; auto].
  repeat (apply back_cons; [eassumption|]). apply back_nil.
Qed.
Example C99_ex_owned : pointers person_back = 2 /\ pointer_free sample_classes (RClass "net.Box" false) /\ ~ pointer_free sample_classes (RClass "net.Person" false).
Proof.
  split; [reflexivity|]. split.
  - constructor. intros t [<- |[<- |[]]]; constructor.
  - intros H. inversion H as [|c X|]; subst. specialize (X (RPrim CBool true)). cbn in X. specialize (X ltac:(tauto)). inversion X.
Qed.
