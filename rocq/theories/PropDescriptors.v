(** Property theorems C18 - C23, C53, C55: descriptor codes, schema sections
    and the data wrapper's assertions.  Specification: SpecDescriptors.v (the
    wire format as trees, and what the entries mean). *)
From Coq Require Import Permutation.
From Verif Require Import Base Proton ProtonProofs TypeNames SpecTypes MakePrimProofs Ordering Schema SpecSchema
  SchemaProofs Descriptors SpecDescriptors DescriptorsProofs.
Import List ListNotations.
Open Scope string_scope.

(** C18.  [vendor n] is 0xc562 in the top 16 bits over [n]. *)
Theorem C18_codes_survive : forall n, (n < 2 ^ 32)%N ->
  corda_code n = vendor n /\ stripCorda (corda_code n) = n.
Proof. intros n H. destruct (codes_survive n H). auto. Qed.
Print Assumptions C18_codes_survive.

Theorem C18_documented_codes : forall n s,
  In (n, s) [ (1%N, "ENVELOPE"); (2%N, "SCHEMA"); (3%N, "OBJECT_DESCRIPTOR"); (4%N, "FIELD");
    (5%N, "COMPOSITE_TYPE"); (6%N, "RESTRICTED_TYPE"); (7%N, "CHOICE");
    (8%N, "REFERENCED_OBJECT"); (9%N, "TRANSFORM_SCHEMA"); (10%N, "TRANSFORM_ELEMENT");
    (11%N, "TRANSFORM_ELEMENT_KEY") ] ->
  describedToString (vendor n) = s /\ describedToString32 n = s /\
  exists d, registered (vendor n) = Some d /\ d_symbol d = s.
Proof. exact described_known. Qed.
Print Assumptions C18_documented_codes.

(** 22 is proton's own code for "described"; it has an entry too. *)
Theorem C18_other_codes : forall v, (forall n, (1 <= n <= 11)%N -> v <> vendor n) ->
  describedToString v = "UNKNOWN" /\ (v <> 22%N -> registered v = None).
Proof.
  intros v H. apply described_unknown. intros n s Hin. apply H. simpl in Hin.
  repeat destruct Hin as [Hin|Hin]; try contradiction; injection Hin as <- _; split; discriminate.
Qed.
Print Assumptions C18_other_codes.

Example C18_ex : vendor 5 = 14222930573189447685%N /\ stripCorda 14222930573189447685 = 5%N.
Proof. split; vm_compute; reflexivity. Qed.

(** C19: what the writer emits is the documented tree, and the tree, wherever
    it is in a blob, is parsed into the property it describes. *)
Theorem C19_field_written : forall w, w_default w <> None -> w_label w <> None ->
  field_makeProton (w_name w) (w_type w) (w_requires w) (text (w_default w)) (text (w_label w))
                   (w_mandatory w) (w_multiple w) = decoded (field_tree w).
Proof. exact written_field. Qed.
Print Assumptions C19_field_written.

Theorem C19_field_parsed : forall fuel w l r u, acceptable w ->
  exists f, dispatchDescribed (S fuel) (Data (At l (field_tree w) r) u)
            = Ok (EField f) (Data (At l (field_tree w) r) u) /\ field_means w f.
Proof. exact field_parsed. Qed.
Print Assumptions C19_field_parsed.

(** The required types of a primitive property do not survive. *)
Theorem C19_required_types_refuted : exists w f,
  dispatchDescribed 1 (decoded (field_tree w)) = Ok (EField f) (decoded (field_tree w)) /\
  f_requires f <> w_requires w.
Proof.
  exists {| w_name := "x"; w_type := "int"; w_requires := ["y"]; w_default := None; w_label := None;
            w_mandatory := true; w_multiple := false |}.
  eexists. split; [unfold decoded; rewrite (field_parses 0); reflexivity|discriminate].
Qed.
Print Assumptions C19_required_types_refuted.

Definition ex_field : wire_field := {| w_name := "xs"; w_type := "*";
  w_requires := ["java.util.Map<int, java.util.List<string>>"]; w_default := Some "d"; w_label := None;
  w_mandatory := true; w_multiple := false |}.
Example C19_ex : acceptable ex_field.
Proof.
  apply acceptable_iff. right; right; right; left. split; [reflexivity|]. split; [eexists; eexists; split; reflexivity|].
  repeat constructor. eexists. vm_compute. reflexivity.
Qed.

(** C20 *)
Theorem C20_class_written : forall c, wc_label c <> None ->
  composite_makeProton (wc_name c) (wc_provides c) (wc_fingerprint c)
    (map (fun w => decoded (field_tree w)) (wc_fields c)) (text (wc_label c)) = decoded (class_tree c).
Proof. exact written_class. Qed.
Print Assumptions C20_class_written.

Theorem C20_class_parsed : forall fuel c l r u, Forall acceptable (wc_fields c) ->
  exists x, dispatchDescribed (S (S fuel)) (Data (At l (class_tree c) r) u)
            = Ok (EType (TComposite x)) (Data (At l (class_tree c) r) u) /\ class_means c x.
Proof. exact class_parsed. Qed.
Print Assumptions C20_class_parsed.

Definition ex_class : wire_class := {| wc_name := "net.corda.Party"; wc_label := Some ""; wc_provides := ["a.B"; "c.D"];
  wc_fingerprint := "net.corda:abc=="; wc_fields := [ex_field; ex_field] |}.
Example C20_ex : Forall acceptable (wc_fields ex_class).
Proof. apply Forall_forall. simpl. intros w [<-|[<-|[]]]; exact C19_ex. Qed.

(** C21 *)
Theorem C21_container_written : forall c, wr_label c = Some "" -> wr_provides c = [] -> wr_choices c = [] ->
  restricted_makeProton (wr_name c) (wr_source c) (wr_fingerprint c) = decoded (container_tree c).
Proof. exact written_container. Qed.
Print Assumptions C21_container_written.

Theorem C21_container_parsed : forall fuel g e c l r u, blanks g -> readable e -> (forall n, e <> TName n) ->
  wr_name c = print g e -> wr_source c = source_of e -> wr_choices c = [] ->
  exists x, dispatchDescribed (S (S fuel)) (Data (At l (container_tree c) r) u)
            = Ok (EType (TRestricted x)) (Data (At l (container_tree c) r) u) /\ container_means g e c x.
Proof. exact container_parsed. Qed.
Print Assumptions C21_container_parsed.

Example C21_ex : readable (TMapOf (TName "java.lang.Integer") (TListOf (TName "net.corda.Party"))).
Proof.
  assert (P : forall n, plainb n = true -> plain n) by exact plainb_spec.
  constructor; [|constructor; [|constructor]]; (split; [apply P; vm_compute; reflexivity|]).
  - left. left. reflexivity.
  - right. exact unrelated_party.
Qed.

(** C22: classes, lists, maps, enums and arrays, in any number of groups. *)
Theorem C22_envelope_written : forall payload ws,
  envelope_makeProton (decoded payload) (schema_makeProton (map (fun t => decoded (type_tree t)) ws))
  = decoded (envelope_tree payload [ws] [leaf ANull]).
Proof. exact written_envelope. Qed.
Print Assumptions C22_envelope_written.

Theorem C22_type_parsed : forall fuel w l r u, readable_type w ->
  exists t, dispatchDescribed (S (S fuel)) (Data (At l (type_tree w) r) u)
            = Ok (EType t) (Data (At l (type_tree w) r) u) /\ type_means w t.
Proof. exact type_parsed. Qed.
Print Assumptions C22_type_parsed.

Theorem C22_envelope_parsed : forall fuel fp body groups more l r u, Forall readable_type (List.concat groups) ->
  exists e ts,
    dispatchDescribed (S (S (S (S fuel)))) (Data (At l (envelope_tree (payload_tree fp body) groups more) r) u)
    = Ok (EEnvelope e) (Data (At l (envelope_tree (payload_tree fp body) groups more) r) u) /\
    e_descriptor e = fp /\ Forall2 type_means (List.concat groups) ts /\
    Permutation (List.concat (s_types (e_schema e))) ts.
Proof. exact envelope_parsed. Qed.
Print Assumptions C22_envelope_parsed.

Example C22_ex : Forall readable_type
  [ WClass ex_class;
    WContainer {| wr_name := "java.util.List<net.corda.Party>"; wr_label := None; wr_provides := []; wr_source := "list";
                  wr_fingerprint := "f"; wr_choices := [] |};
    WContainer {| wr_name := "net.E"; wr_label := None; wr_provides := []; wr_source := "list";
                  wr_fingerprint := "g"; wr_choices := ["A"; "B"] |};
    WContainer {| wr_name := "net.E[]"; wr_label := None; wr_provides := []; wr_source := "list";
                  wr_fingerprint := "h"; wr_choices := [] |} ].
Proof.
  constructor; [|constructor; [|constructor; [|constructor; [|constructor]]]].
  - split; [|reflexivity]. apply Forall_forall. simpl. intros w [<-|[<-|[]]]; (split; [exact C19_ex|discriminate]).
  - left. exists "", (TListOf (TName "net.corda.Party")). repeat split; try discriminate; [constructor|].
    constructor; [|constructor]. split; [apply plainb_spec; vm_compute; reflexivity|].
    right. exact unrelated_party.
  - right; left. split; [reflexivity|discriminate].
  - right; right. split; [reflexivity|]. split; [reflexivity|]. exists "net.E". split.
    + unfold has; simpl; intuition discriminate.
    + left. vm_compute. reflexivity.
Qed.

(** C23.  What is true: something that is not described, or whose descriptor is
    not a number, or is proton's own code, makes parsing throw; fingerprints
    and enum constants are parsed or rejected whatever their body is.
    Missing: everything the refutations below show. *)
Theorem C23_malformed_throws_partial : forall fuel l r u,
  (forall t, tree_atom t <> ADescribed ->
     dispatchDescribed (S fuel) (Data (At l t r) u) = Throw RuntimeError (Data (At l t r) u)) /\
  (forall cs, match cs with Node (AULong _) _ :: _ => False | _ => True end ->
     dispatchDescribed (S fuel) (Data (At l (Node ADescribed cs) r) u)
     = Throw RuntimeError (Data (At l (Node ADescribed cs) r) u)) /\
  (forall cs more, exists d,
     dispatchDescribed (S fuel) (Data (At l (Node ADescribed (Node (AULong 22) cs :: more)) r) u)
     = Throw RuntimeError d) /\
  (forall code body, code = 3%N \/ code = 7%N ->
     (exists e d, dispatchDescribed (S fuel) (Data (At l (described code body) r) u) = Ok e d) \/
     (exists e d, dispatchDescribed (S fuel) (Data (At l (described code body) r) u) = Throw e d)).
Proof.
  intros fuel l r u. split; [|split; [|split]].
  - intros t Ht. exact (not_described_throws fuel l t r u Ht).
  - intros cs H. exact (bad_code_throws fuel l cs r u H).
  - intros cs more. eexists. exact (generic_code_throws fuel l cs more r u).
  - intros code body H.
    assert (K : defined (dispatchDescribed (S fuel) (Data (At l (described code body) r) u))).
    { destruct H as [-> | ->]; [apply fingerprint_defined|apply choice_defined]. }
    destruct (dispatchDescribed (S fuel) (Data (At l (described code body) r) u)); eauto; destruct K.
Qed.
Print Assumptions C23_malformed_throws_partial.

(** Every code that is not registered: a null pointer is dereferenced. *)
Theorem C23_unknown_code_refuted : forall fuel l code cs more r u, registered code = None ->
  dispatchDescribed (S fuel) (Data (At l (Node ADescribed (Node (AULong code) cs :: more)) r) u) = UB.
Proof. exact unknown_code_ub. Qed.
Print Assumptions C23_unknown_code_refuted.

Example C23_ex_unknown : registered 12%N = None.
Proof. vm_compute. reflexivity. Qed.

(** A known code in the wrong place (a property where a class's fingerprint is
    expected): a pointer is cast to a class it does not point to. *)
Theorem C23_wrong_code_refuted : exists t, dispatchDescribed 2 (Data (At [] t []) []) = UB /\
  exists name w, acceptable w /\
    t = described 5 (list_of [str name; leaf ANull; list_of []; field_tree w]).
Proof.
  eexists. split; [|exists "net.A", ex_field; split; [exact C19_ex|reflexivity]].
  destruct (acceptable_result ex_field C19_ex) as (f & Hf & _).
  exact (wrong_kind_ub 0 [] "net.A" None [] ex_field [] f [] [] Hf).
Qed.
Print Assumptions C23_wrong_code_refuted.

(** A property with an empty type name reads out of range. *)
Theorem C23_empty_type_refuted : exists w, w_type w = "" /\
  dispatchDescribed 5 (Data (At [] (field_tree w) []) []) = UB.
Proof. destruct empty_type_ub as (t & H & ->). eexists. split; [|exact H]. reflexivity. Qed.
Print Assumptions C23_empty_type_refuted.

(** C53: each assertion with the type it asserts. *)
Theorem C53_assertions_exact : forall att ty,
  In (att, ty) [ (attest_is_described, TDescribed); (attest_is_int, TInt); (attest_is_binary, TBinary);
                 (attest_is_bool, TBool); (attest_is_float, TFloat); (attest_is_long, TLong);
                 (attest_is_char, TChar); (attest_is_double, TDouble); (attest_is_list, TList);
                 (is_map, TMap); (is_ulong, TULong); (is_symbol, TSymbol) ] ->
  forall l t r u,
    (atom_type (tree_atom t) = ty -> att (Data (At l t r) u) = Ok tt (Data (At l t r) u)) /\
    (atom_type (tree_atom t) <> ty -> att (Data (At l t r) u) = Throw RuntimeError (Data (At l t r) u)).
Proof.
  intros att ty H. simpl in H. repeat destruct H as [H|H]; try contradiction; injection H as <- <-; exact (require_exact _).
Qed.
Print Assumptions C53_assertions_exact.

(** The string assertion accepts everything unless nulls are allowed. *)
Theorem C53_string_assertion : forall allowNull l t r u,
  attest_is_string allowNull (Data (At l t r) u) = Ok tt (Data (At l t r) u) <->
  (allowNull = false \/ atom_type (tree_atom t) = TString \/ atom_type (tree_atom t) = TNull).
Proof. exact attest_string_exact. Qed.
Print Assumptions C53_string_assertion.

Theorem C53_string_assertion_refuted : exists t, atom_type (tree_atom t) <> TString /\
  attest_is_string false (Data (At [] t []) []) = Ok tt (Data (At [] t []) []).
Proof. exists (leaf (AInt 1)). split; [discriminate|reflexivity]. Qed.
Print Assumptions C53_string_assertion_refuted.

(** The type tests say yes exactly for a value of the type, and no where there is none. *)
Theorem C53_tests_exact : forall test ty, In (test, ty) [ (is_described, TDescribed); (is_bool, TBool); (is_null, TNull) ] ->
  (forall l t r u, test (Data (At l t r) u) = true <-> atom_type (tree_atom t) = ty) /\
  (forall l u, test (Data (Before l) u) = false).
Proof.
  intros test ty H. split; [intros l [a cs] r u|intros l u]; cbn [In] in H; repeat destruct H as [H|H]; try contradiction; injection H as <- <-;
    try reflexivity; destruct a; split; intros E; (reflexivity || discriminate).
Qed.
Print Assumptions C53_tests_exact.

(** A value counts as primitive unless it is made of other values, null or a timestamp ... *)
Theorem C53_primitive_exact : forall l t r u,
  Proton.is_primitive (Data (At l t r) u) = false <-> In (atom_type (tree_atom t)) [TDescribed; TArray; TList; TMap; TNull; TTimestamp].
Proof.
  intros l [a cs] r u. destruct a; cbn; split; intros H; try discriminate; try reflexivity; try tauto;
    repeat destruct H as [H|H]; try contradiction; discriminate.
Qed.
Print Assumptions C53_primitive_exact.
(** ... although both are primitive types of AMQP 1.0 (part 1.1). *)
Theorem C53_primitive_refuted : exists t t', atom_type (tree_atom t) = TNull /\ atom_type (tree_atom t') = TTimestamp /\
  forall x, x = t \/ x = t' -> forall l r u, Proton.is_primitive (Data (At l x r) u) = false.
Proof. exists (leaf ANull), (leaf (ATimestamp 1)). split; [reflexivity|]. split; [reflexivity|]. now intros x [-> | ->]. Qed.
Print Assumptions C53_primitive_refuted.
Example C53_ex_tests : is_null (Data (At [] (leaf ANull) [leaf (AInt 1)]) []) = true /\ is_bool (Data (At [leaf ANull] (leaf (AInt 1)) []) []) = false /\
  Proton.is_primitive (Data (At [] (leaf (AULong 7)) []) []) = true /\ Proton.is_primitive (Data (At [] (Node AList [leaf (AInt 1)]) []) []) = false.
Proof. repeat split. Qed.

(** C55: whatever is found where a schema element is expected - the recursion
    bound is never the reason for stopping. *)
Theorem C55_position_kept : forall fuel l t r u, height t < fuel ->
  match dispatchDescribed fuel (Data (At l t r) u) with
  | Ok _ d => d = Data (At l t r) u
  | Throw _ d => d = Data (At l t r) u
  | Abort => True
  | UB => True
  | Fuel => False
  end.
Proof. exact dispatch_restores. Qed.
Print Assumptions C55_position_kept.

(** A class whose third property has a boolean for a name: the exception leaves
    six nested scopes. *)
Definition ex_broken : tree :=
  described 5 (list_of [str "net.A"; leaf ANull; list_of []; fingerprint_tree "f" [];
        list_of [field_tree ex_field; field_tree ex_field; described 4 (list_of [leaf (ABool true)])]]).
Example C55_ex : dispatchDescribed 20 (decoded ex_broken) = Throw RuntimeError (decoded ex_broken).
Proof. vm_compute. reflexivity. Qed.
