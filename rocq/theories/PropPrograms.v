(** Property theorems C75, C76, C77, C78: the objects of a program.
    Specification: SpecPrograms.v, SpecWriterTests.v, SpecWriteRead.v ([shown]),
    SpecWriter.v ([wire]). *)
From Coq Require Import Sorting.Sorted.
From Verif Require Import Base Proton ProtonProofs TypeNames SpecTypes Schema SpecSchema SpecOrdering SchemaProofs Descriptors SpecDescriptors Factory SpecFactory
  Readers SpecReaders Blob ReadersProofs SpecDisplay DisplayProofs SpecInstalled
  Writer SpecWriter WriterProofs SpecWriteRead WriteReadProofs Programs SpecPrograms ProgramsProofs ProgramChecks HiddenProofs DecideProofs
  WriterTests SpecWriterTests WriterTestsProofs.
Import List ListNotations.
Open Scope string_scope.

(** C75.  The schema that an object is written with consists of the types that
    occur in it, in alphabetical order, each described as it is declared. *)
Theorem C75_schema : forall P T root,
  in_order P -> In T (types_of P) -> of_type P T root -> well_formed root ->
  exists w us, occurring P root us /\
    serialise_blob root new_writer = Ok (decoded (envelope_tree (wire root) [map (entry_of P) us] [leaf ANull])) w.
Proof. exact schema_written. Qed.
Print Assumptions C75_schema.

Example C75_ex : in_order program8 /\ of_type program8 (class "CompositeList") (object8 [("1", 2%N)]) /\ well_formed (object8 [("1", 2%N)]) /\
  occurring program8 (object8 [("1", 2%N)]) [class "Composite"; class "CompositeList"; Vector (class "Composite")] /\
  entry_of program8 (class "Composite") =
    WClass {| wc_name := "Composite"; wc_label := Some ""; wc_provides := []; wc_fingerprint := "Composite123";
              wc_fields := [ {| w_name := "m_a"; w_type := "string"; w_requires := []; w_default := Some ""; w_label := Some ""; w_mandatory := false; w_multiple := false |};
                             {| w_name := "m_b"; w_type := "double"; w_requires := []; w_default := Some ""; w_label := Some ""; w_mandatory := false; w_multiple := false |} ] |}.
Proof.
  split; [apply orderlyb_ok; reflexivity|]. split; [apply type8|]. split; [cbn; tauto|]. split; [some_types|reflexivity].
Qed.

(** C76.  Whether an object can be inspected depends only on the types that
    occur in it: all objects with the same types are written with the same
    schema, and they are all shown, or inspecting each fails in the same way. *)
Theorem C76_same_types : forall fmt custom mo kf P T r h cf,
  in_order P -> shows P -> In T (types_of P) -> of_type P T r -> nulls_ok (class_names r) r ->
  run mo h new_factory cf -> unrelated_history h r ->
  exists ws us (processed : outcome factory unit), occurring P r us /\ ws = map (entry_of P) us /\
    forall T' root, In T' (types_of P) -> of_type P T' root -> nulls_ok (class_names root) root ->
      (forall n, In n (names_in root) <-> In n (names_in r)) -> kf = true \/ map_free (shown root) ->
      let blob := decoded (envelope_tree (wire root) [ws] [leaf ANull]) in
      (exists w, serialise_blob root new_writer = Ok blob w) /\
      forall fuel, height (envelope_tree (wire root) [ws] [leaf ANull]) < fuel ->
      dumpContents fmt custom mo kf fuel (blob, cf)
      = match processed with
        | Ok _ cf' => Ok ("{ Parsed : " ++ printed fmt dec (shown root) ++ " }") (blob, cf')
        | Throw e cf' => Throw e (blob, cf')
        | Abort => Abort | UB => UB | Fuel => Fuel
        end.
Proof. exact same_types. Qed.
Print Assumptions C76_same_types.

(** Two objects of one program with the same types, and one with fewer. *)
Example C76_ex : in_order program8 /\ shows program8 /\
  (forall l, of_type program8 (class "CompositeList") (object8 l) /\ forall classes, nulls_ok classes (object8 l)) /\
  (forall n, In n (names_in (object8 [("1", 2%N); ("4", 5%N)])) <-> In n (names_in (object8 [("7", 8%N)]))) /\
  ~ In "Composite" (names_in (object8 [])).
Proof.
  split; [apply orderlyb_ok; reflexivity|]. split; [showing|]. split; [intros l; split; [apply type8|intros; apply nulls8]|].
  split; [intros n; vm_compute; tauto|vm_compute; intuition discriminate].
Qed.

(** C77.  Objects of a program are shown if the types that occur in them are
    listed in order.  Missing: other orders (see C49), pointers that are null. *)
Theorem C77_shown_partial : forall fmt custom mo kf P T root h cf,
  in_order P -> shows P -> In T (types_of P) -> of_type P T root -> nulls_ok (class_names root) root ->
  elements_known root -> kf = true \/ map_free (shown root) -> run_well mo h new_factory cf -> unrelated_history h root ->
  exists w us, let tree := envelope_tree (wire root) [map (entry_of P) us] [leaf ANull] in
    occurring P root us /\ serialise_blob root new_writer = Ok (decoded tree) w /\
    forall fuel, height tree < fuel ->
    exists ts, Forall2 type_means (map (entry_of P) us) ts /\
      ((forall t, In t ts -> ~ uses t t) -> listed ts ->
       exists cf', dumpContents fmt custom mo kf fuel (decoded tree, cf)
                   = Ok ("{ Parsed : " ++ printed fmt dec (shown root) ++ " }") (decoded tree, cf')).
Proof. exact typed_shown. Qed.
Print Assumptions C77_shown_partial.

(** But an object that holds a float or a char, or a vector or map of bool or
    char (even an empty one), can be serialised and cannot be inspected. *)
Theorem C77_without_text_refuted : forall fmt custom tells mo kf P T root h cf x,
  in_order P -> In T (types_of P) -> of_type P T root -> well_formed root ->
  custom_as custom tells -> run mo h new_factory cf -> only_installed h root ->
  kf = true \/ (forall q, In q (parts root) -> match q with IMap _ _ _ => False | _ => True end) ->
  In x (parts root) -> without_text P x ->
  exists w ws, let blob := decoded (envelope_tree (wire root) [ws] [leaf ANull]) in
    serialise_blob root new_writer = Ok blob w /\ schema_for root ws /\
    forall fuel text st', height (envelope_tree (wire root) [ws] [leaf ANull]) < fuel ->
      dumpContents fmt custom mo kf fuel (blob, cf) <> Ok text st'.
Proof. exact hidden. Qed.
Print Assumptions C77_without_text_refuted.

Definition flags : program := program_of [("Flags", ("f:flags", [("on", Vector (Prim CBool))]))] [(Vector (Prim CBool), "f:bools")].
Definition no_flags : item := object flags "Flags" [vector flags (Prim CBool) []].
Example C77_ex_bool : in_order flags /\ of_type flags (class "Flags") no_flags /\ well_formed no_flags /\
  (forall q, In q (parts no_flags) -> match q with IMap _ _ _ => False | _ => True end) /\
  exists x, In x (parts no_flags) /\ without_text flags x.
Proof.
  split; [apply orderlyb_ok; reflexivity|]. split; [cbn; tauto|]. split; [cbn; tauto|].
  split; [intros q [<- |[<- |[]]]; exact I|]. exists (vector flags (Prim CBool) []). split; [right; now left|].
  exists (Prim CBool). split; [now left|]. split; [right; now left|reflexivity].
Qed.
Example C77_ex_float : in_order program4 /\ of_type program4 (class "Outer") (object4 101 "b" true 1 2) /\
  well_formed (object4 101 "b" true 1 2) /\ exists x, In x (parts (object4 101 "b" true 1 2)) /\ without_text program4 x.
Proof.
  split; [apply orderlyb_ok; reflexivity|]. split; [cbn; intuition (auto; discriminate)|]. split; [cbn; tauto|].
  exists (IPrim (OfFloat 2)). split; [cbn; tauto|cbn; auto].
Qed.
Definition pair : program :=
  program_of [("Inner", ("f:i", [("m_a", Prim CInt)])); ("Outer", ("f:o", [("m_a", class "Inner"); ("m_b", Pointer (class "Inner"))]))] [].
Definition pair_object : item :=
  object pair "Outer" [object pair "Inner" [int 1]; IPointer (Some (object pair "Inner" [int 2]))].
Example C77_ex_ordered : in_order pair /\ shows pair /\ of_type pair (class "Outer") pair_object /\
  nulls_ok (class_names pair_object) pair_object /\ elements_known pair_object /\ occurring pair pair_object [class "Inner"; class "Outer"] /\
  exists ts, Forall2 type_means (map (entry_of pair) [class "Inner"; class "Outer"]) ts /\
    (forall t, In t ts -> ~ uses t t) /\ listed ts.
Proof.
  split; [apply orderlyb_ok; reflexivity|]. split; [showing|]. split; [cbn; intuition (auto; discriminate)|].
  split; [cbn; intuition (auto; discriminate)|]. split.
  { split; [intros e _ H|intros k v _ _ H]; cbn in H; intuition discriminate. }
  split; [some_types|]. set (ws := map (entry_of pair) [class "Inner"; class "Outer"]). exists (all_results ws).
  assert (H : regular (all_results ws) /\ dependencies_first uses (all_results ws)) by (apply first_check; vm_compute; reflexivity).
  destruct H as [H1 H2]. split; [|split; [apply H1|now apply first_listed]]. apply all_results_means.
  apply Forall_forall. intros w Hw. eapply Forall_forall in Hw; [exact Hw|].
  repeat apply Forall_cons; try apply Forall_nil; (split; [|reflexivity]); cbn; repeat apply Forall_cons; try apply Forall_nil; (split; [|discriminate]).
  - left. reflexivity.
  - apply DescriptorsProofs.acceptable_iff. right; left. split; [reflexivity|discriminate].
  - apply DescriptorsProofs.acceptable_iff. right; left. split; [reflexivity|discriminate].
Qed.

(** C78.  The programs in bin/writer-tests, for all arguments of the constructors
    ([inspection]: with a new factory). *)
Theorem C78_test1 : forall fmt custom val, inspection fmt custom (object1 val)
  (inl ("{ Parsed : { m_val : " ++ dec val ++ ", m_val2 : " ++ dec (val + 50) ++ " } }")).
Proof. exact test1. Qed.
Print Assumptions C78_test1.
Theorem C78_test2 : forall fmt custom a b c, inspection fmt custom (object2 a b c)
  (inl ("{ Parsed : { m_a : " ++ dec a ++ ", m_b : " ++ dec b ++ ", m_c : " ++ dec c ++ " } }")).
Proof. exact test2. Qed.
Print Assumptions C78_test2.
Theorem C78_test3 : forall fmt custom a b, inspection fmt custom (object3 a b)
  (inl ("{ Parsed : { m_a : """ ++ a ++ """, m_b : """ ++ b ++ """ } }")).
Proof. exact test3. Qed.
Print Assumptions C78_test3.
Theorem C78_test4_refuted : forall fmt custom a b c d e, inspection fmt custom (object4 a b c d e) (inr RuntimeError).
Proof. exact test4. Qed.
Print Assumptions C78_test4_refuted.
Theorem C78_test5 : forall fmt custom a b rest, inspection fmt custom (object5 a b rest)
  (inl ("{ Parsed : " ++ text5 a b rest ++ " }")).
Proof. exact test5. Qed.
Print Assumptions C78_test5.
Theorem C78_test6 : forall fmt custom l, inspection fmt custom (object6 l)
  (inl ("{ Parsed : { m_list : [ " ++ String.concat ", " (map quoted l) ++ " ] } }")).
Proof. exact test6. Qed.
Print Assumptions C78_test6.
Theorem C78_test7 : forall fmt custom l, inspection fmt custom (object7 l)
  (inl ("{ Parsed : { m_list : [ " ++ String.concat ", " (map dec l) ++ " ] } }")).
Proof. exact test7. Qed.
Print Assumptions C78_test7.
Theorem C78_test8 : forall fmt custom l, l <> [] -> inspection fmt custom (object8 l)
  (inl ("{ Parsed : { m_list : [ " ++ String.concat ", " (map (text8 fmt) l) ++ " ] } }")).
Proof. exact test8. Qed.
Print Assumptions C78_test8.
Theorem C78_test8_empty_refuted : forall fmt custom, inspection fmt custom (object8 []) (inr RuntimeError).
Proof. exact test8_empty. Qed.
Print Assumptions C78_test8_empty_refuted.
Theorem C78_test9 : forall fmt custom l, l <> [] -> inspection fmt custom (object9 l)
  (inl ("{ Parsed : { m_list : [ " ++ String.concat ", " (map text9 l) ++ " ] } }")).
Proof. exact test9. Qed.
Print Assumptions C78_test9.
Theorem C78_test9_empty_refuted : forall fmt custom, inspection fmt custom (object9 []) (inr RuntimeError).
Proof. exact test9_empty. Qed.
Print Assumptions C78_test9_empty_refuted.
Theorem C78_test10 : forall fmt custom m, inspection fmt custom (object10 m)
  (inl ("{ Parsed : { m_map : { " ++ String.concat ", " (map (fun kv => dec (fst kv) ++ " : " ++ dec (snd kv)) m) ++ " } } }")).
Proof. exact test10. Qed.
Print Assumptions C78_test10.
Theorem C78_test11 : forall fmt custom m, m <> [] -> inspection fmt custom (object11 m)
  (inl ("{ Parsed : { m_map : { " ++ String.concat ", " (map (fun kv => dec (fst kv) ++ " : { m_a : """ ++ snd kv ++ """ }") m) ++ " } } }")).
Proof. exact test11. Qed.
Print Assumptions C78_test11.
Theorem C78_test11_empty_refuted : forall fmt custom, inspection fmt custom (object11 []) (inr RuntimeError).
Proof. exact test11_empty. Qed.
Print Assumptions C78_test11_empty_refuted.
Theorem C78_test12 : forall fmt custom m, (exists k is, In (k, is) m /\ is <> []) -> inspection fmt custom (object12 m)
  (inl ("{ Parsed : { m_map : { " ++
        String.concat ", " (map (fun kv => dec (fst kv) ++ " : [ " ++ String.concat ", " (map text12 (snd kv)) ++ " ]") m) ++ " } } }")).
Proof. exact test12. Qed.
Print Assumptions C78_test12.
Theorem C78_test12_empty_refuted : forall fmt custom m, (forall k is, In (k, is) m -> is = []) -> inspection fmt custom (object12 m) (inr RuntimeError).
Proof. exact test12_empty. Qed.
Print Assumptions C78_test12_empty_refuted.

(** The objects of main.cxx. *)
Example C78_ex : text5 100 "two hundred" [(300%Z, "four hundred"); (500%Z, "siz hundred")] =
    "{ m_a : 100, m_b : ""two hundred"", m_c : { m_a : 300, m_b : ""four hundred"", m_c : { m_a : 500, m_b : ""siz hundred"", m_c : <<NULL>> } } }" /\
  String.concat ", " (map text9 [[1; 2; 3]; [4; 5; 6]; [7; 8; 9]]%Z) = "[ 1, 2, 3 ], [ 4, 5, 6 ], [ 7, 8, 9 ]" /\
  (exists k is, In (k, is) [(1%Z, [("a", [2; 3; 4]%Z); ("b", [5; 6; 7]%Z)]); (8%Z, [("c", [9; 10; 11]%Z); ("d", [12; 13; 14]%Z)])] /\ is <> []) /\
  exists blob w, serialise_blob (object1 100) new_writer = Ok blob w /\
    exists cf, dumpContents (fun _ => "") (fun _ _ => throw LogicError) true true 40 (blob, new_factory)
               = Ok "{ Parsed : { m_val : 100, m_val2 : 150 } }" (blob, cf).
Proof.
  split; [reflexivity|]. split; [reflexivity|]. split; [do 2 eexists; split; [now left|discriminate]|].
  do 2 eexists. split; [vm_compute; reflexivity|]. eexists. vm_compute. reflexivity.
Qed.
