(** What inspecting the objects of bin/writer-tests gives. *)
From Coq Require Import Sorting.Sorted Permutation Lia.
From Verif Require Import Base Proton ProtonProofs TypeNames SpecTypes TypeNamesProofs MakePrimProofs Ordering Schema SpecSchema SchemaProofs
  SpecOrdering Descriptors SpecDescriptors DescriptorsProofs
  Factory SpecFactory FactoryProofs Readers SpecReaders Blob ReadersProofs
  Writer SpecWriter WriterProofs SpecWriteRead WriteReadProofs ManyProofs Programs SpecPrograms ProgramsProofs ProgramChecks DecideProofs WriterTests SpecWriterTests.
Import List ListNotations.
Open Scope string_scope.

Definition decide (P : program) (us : list cpp) (mo : bool) : outcome factory unit :=
  match inserts notation dependsOn (all_results (map (entry_of P) us)) [] with
  | Ret levels => process mo (Schema.schema_of levels) new_factory
  | _ => Fuel
  end.

Theorem decided fmt custom P T root us r :
  in_order P -> shows P -> In T (types_of P) -> of_type P T root -> nulls_ok (class_names root) root -> occurring P root us ->
  (forall mo, match r with
              | None => exists cf, decide P us mo = Ok tt cf
              | Some e => exists cf, decide P us mo = Throw e cf
              end) ->
  inspection fmt custom root
    (match r with None => inl ("{ Parsed : " ++ printed fmt dec (shown root) ++ " }") | Some e => inr e end).
Proof.
  intros HP HSh HT HR HN HO HD mo kf Hm.
  pose proof (typed_can_inspect P HP HSh T root HT HR HN) as HC. pose proof HC as (HW & HTg & HNc & HI & _).
  destruct (serialise_correct root) as (w & ws & E & HS); auto. { destruct root; try discriminate; reflexivity. }
  destruct (schema_exact P HP T root HT HR ws HS) as (us' & Hus & Ews).
  assert (us' = us) as -> by (eapply occurring_unique; eauto; tauto). subst ws.
  do 2 eexists. split; [exact E|]. exists (height (envelope_tree (wire root) [map (entry_of P) us] [leaf ANull])). intros fuel Hfuel.
  destruct (inspect_result fmt custom mo kf root (map (entry_of P) us) [] new_factory fuel HC Hm (run_nil _ _)) as (levels & Hi & D); auto.
  { split; [intros u []|intros q []]. }
  specialize (HD mo). unfold decide in HD. rewrite Hi in HD. cbv zeta in D. rewrite D.
  destruct r; destruct HD as (cf & ->); eauto.
Qed.

(** The types in alphabetical order, all of which occur. *)
Lemma all_occur P root us : (forall u, In u us <-> In u (types_of P)) -> ascending (map java_of us) = true ->
  (forall u, In u us -> In (java_of u) (names_in root)) -> occurring P root us.
Proof.
  intros H1 H2 H3. split; [intros u; rewrite <- H1; split; [auto|tauto]|].
  apply ascending_ok in H2. clear - H2. induction us as [|u us IH]; [constructor|]. cbn in H2. inversion H2 as [|? ? A B]; subst.
  constructor; [auto|]. rewrite Forall_map in B. exact B.
Qed.
Lemma shown_decided fmt custom P T root us text :
  in_order P -> shows P -> In T (types_of P) -> of_type P T root -> nulls_ok (class_names root) root -> occurring P root us ->
  (forall mo, exists cf, decide P us mo = Ok tt cf) -> "{ Parsed : " ++ printed fmt dec (shown root) ++ " }" = text ->
  inspection fmt custom root (inl text).
Proof. intros. subst text. eapply (decided fmt custom P T root us None); eauto. Qed.
Lemma throws_decided fmt custom P T root us e :
  in_order P -> shows P -> In T (types_of P) -> of_type P T root -> nulls_ok (class_names root) root -> occurring P root us ->
  (forall mo, exists cf, decide P us mo = Throw e cf) ->
  inspection fmt custom root (inr e).
Proof. intros. eapply (decided fmt custom P T root us (Some e)); eauto. Qed.

Ltac outcomes := intros []; eexists; vm_compute; reflexivity.
Ltac showing := repeat (apply Forall_cons; [cbn; repeat (apply Forall_cons || split); cbn; try apply Forall_nil; intuition discriminate|]); apply Forall_nil.
Ltac text v := match goal with |- context [shown ?r] => change (shown r) with v end;
  cbn [printed map fst snd String.concat append]; rewrite ?app_assoc_s; cbn [append]; rewrite ?app_assoc_s; reflexivity.
Ltac program prog n ts := eapply shown_decided with (P := prog) (T := class n) (us := ts);
  [ apply orderlyb_ok; reflexivity | showing | cbn; tauto | cbn; intuition (auto; discriminate) | cbn; intuition (auto; discriminate)
   | apply all_occur; [intros u; cbn; tauto|reflexivity|cbn; intuition (subst; cbn; auto)] | outcomes |].

Theorem test1 fmt custom val : inspection fmt custom (object1 val)
  (inl ("{ Parsed : { m_val : " ++ dec val ++ ", m_val2 : " ++ dec (val + 50) ++ " } }")).
Proof. program program1 "DeSerialiseMe" [class "DeSerialiseMe"]. text (VObject "DSM123" [("m_val", VInt val); ("m_val2", VInt (val + 50))]). Qed.
Theorem test2 fmt custom a b c : inspection fmt custom (object2 a b c)
  (inl ("{ Parsed : { m_a : " ++ dec a ++ ", m_b : " ++ dec b ++ ", m_c : " ++ dec c ++ " } }")).
Proof. program program2 "DeSerialiseMe" [class "DeSerialiseMe"]. text (VObject "DSM123" [("m_a", VInt a); ("m_b", VInt b); ("m_c", VInt c)]). Qed.
Theorem test3 fmt custom a b : inspection fmt custom (object3 a b)
  (inl ("{ Parsed : { m_a : """ ++ a ++ """, m_b : """ ++ b ++ """ } }")).
Proof. program program3 "DeSerialiseMe" [class "DeSerialiseMe"]. text (VObject "DSM123" [("m_a", VString a); ("m_b", VString b)]). Qed.

Lemma all_of {A} (R : A -> Prop) l : (forall x, In x l -> R x) -> fold_right (fun x Q => R x /\ Q) True l.
Proof. induction l as [|x l IH]; cbn; auto. Qed.
Ltac elements := apply all_of; let x := fresh in intros x Hx; apply in_map_iff in Hx as (? & <- & ?).
Ltac head prog n ts := eapply shown_decided with (P := prog) (T := class n) (us := ts);
  [ apply orderlyb_ok; reflexivity | showing | cbn; tauto | | | | outcomes |].
Ltac head_throws prog n ts := eapply throws_decided with (P := prog) (T := class n) (us := ts);
  [ apply orderlyb_ok; reflexivity | showing | cbn; tauto | | | | outcomes ].
Lemma some_occur P root us : (forall u, In u us -> In u (types_of P) /\ In (java_of u) (names_in root)) ->
  (forall u, In u (types_of P) -> In (java_of u) (names_in root) -> In u us) -> ascending (map java_of us) = true -> occurring P root us.
Proof.
  intros H1 H2 H3. split; [intros u; split; [auto|intros [? ?]; auto]|].
  apply ascending_ok in H3. clear - H3. induction us as [|u us IH]; [constructor|]. cbn in H3. inversion H3 as [|? ? A B]; subst.
  constructor; [auto|]. rewrite Forall_map in B. exact B.
Qed.
Ltac listed_types := repeat match goal with H : _ \/ _ |- _ => destruct H as [<- |H] | H : False |- _ => destruct H end.
Ltac some_types := apply some_occur; [intros u Hu; cbn in Hu; listed_types; (split; [cbn; tauto|vm_compute; tauto])
  |intros u Hu Hn; cbn in Hu; listed_types; vm_compute in Hn; cbn; try tauto; exfalso; intuition discriminate|reflexivity].
Ltac everything := apply all_occur; [intros u; cbn; tauto|reflexivity|].

(** Test 5. *)
Lemma type5 rest : forall a b, of_type program5 (class "Recursive") (object5 a b rest).
Proof.
  induction rest as [|[a' b'] rest IH]; intros a b; cbn; [intuition (auto; discriminate)|].
  repeat split; auto; try discriminate.
Qed.
Lemma nulls5 classes rest : In "Recursive" classes -> forall a b, nulls_ok classes (object5 a b rest).
Proof.
  intros H. induction rest as [|[a' b'] rest IH]; intros a b; cbn; [intuition (auto; discriminate)|].
  repeat split; auto; try discriminate.
Qed.
Lemma printed5 fmt rest : forall a b, printed fmt dec (shown (object5 a b rest)) = text5 a b rest.
Proof.
  induction rest as [|[a' b'] rest IH]; intros a b.
  - change (shown (object5 a b [])) with (VObject "Outer-123" [("m_a", VInt a); ("m_b", VString b); ("m_c", VNull)]).
    cbn [printed map fst snd String.concat append text5]. rewrite ?app_assoc_s. cbn [append]. rewrite ?app_assoc_s. reflexivity.
  - change (shown (object5 a b ((a', b') :: rest))) with (VObject "Outer-123" [("m_a", VInt a); ("m_b", VString b); ("m_c", shown (object5 a' b' rest))]).
    cbn [printed map fst snd String.concat append text5]. rewrite IH. rewrite ?app_assoc_s. cbn [append]. rewrite ?app_assoc_s. reflexivity.
Qed.
Theorem test5 fmt custom a b rest : inspection fmt custom (object5 a b rest) (inl ("{ Parsed : " ++ text5 a b rest ++ " }")).
Proof.
  head program5 "Recursive" [class "Recursive"].
  - apply type5.
  - apply nulls5. destruct rest as [|[]]; now left.
  - everything. intros u [<- |[]]. destruct rest as [|[]]; now left.
  - now rewrite printed5.
Qed.

(** Tests 6 and 7. *)
Theorem test6 fmt custom l : inspection fmt custom (object6 l)
  (inl ("{ Parsed : { m_list : [ " ++ String.concat ", " (map quoted l) ++ " ] } }")).
Proof.
  head program6 "ContainsList" [class "ContainsList"; Vector (Prim CString)].
  - cbn. repeat split. elements. now split.
  - cbn. repeat split; try discriminate. elements. exact I.
  - everything. cbn. intuition (subst; cbn; auto).
  - change (shown (object6 l)) with (VObject "Contains-List-123" [("m_list", VList "vector-of-string" (map shown (map str l)))]).
    cbn [printed map fst snd String.concat]. rewrite !map_map. change (fun x => printed fmt dec (shown (str x))) with quoted.
    cbn [append]. rewrite ?app_assoc_s. reflexivity.
Qed.
Theorem test7 fmt custom l : inspection fmt custom (object7 l)
  (inl ("{ Parsed : { m_list : [ " ++ String.concat ", " (map dec l) ++ " ] } }")).
Proof.
  head program7 "ContainsList" [class "ContainsList"; Vector (Prim CInt)].
  - cbn. repeat split. elements. now split.
  - cbn. repeat split; try discriminate. elements. exact I.
  - everything. cbn. intuition (subst; cbn; auto).
  - change (shown (object7 l)) with (VObject "ContainsList-123" [("m_list", VList "int-vector" (map shown (map int l)))]).
    cbn [printed map fst snd String.concat]. rewrite !map_map. change (fun x => printed fmt dec (shown (int x))) with dec.
    cbn [append]. rewrite ?app_assoc_s. reflexivity.
Qed.

(** Test 8. *)
Lemma type8 l : of_type program8 (class "CompositeList") (object8 l).
Proof. cbn. repeat split. elements. cbn. intuition (auto; discriminate). Qed.
Lemma nulls8 classes l : nulls_ok classes (object8 l).
Proof. cbn. repeat split; try discriminate. elements. cbn. intuition (auto; discriminate). Qed.
Theorem test8 fmt custom l : l <> [] -> inspection fmt custom (object8 l)
  (inl ("{ Parsed : { m_list : [ " ++ String.concat ", " (map (text8 fmt) l) ++ " ] } }")).
Proof.
  intros Hl. head program8 "CompositeList" [class "Composite"; class "CompositeList"; Vector (class "Composite")].
  - apply type8.
  - apply nulls8.
  - everything. destruct l as [|c l]; [easy|]. cbn. intuition (subst; cbn; auto).
  - change (shown (object8 l)) with (VObject "CompositeList123" [("m_list", VList "Composite123Vector"
      (map shown (map (fun c => object program8 "Composite" [str (fst c); double (snd c)]) l)))]).
    cbn [printed map fst snd String.concat]. rewrite !map_map.
    rewrite (map_ext _ (text8 fmt)).
    + cbn [append]. rewrite ?app_assoc_s. reflexivity.
    + intros [s b]. cbn. unfold text8. cbn. now rewrite ?app_assoc_s.
Qed.
Theorem test8_empty fmt custom : inspection fmt custom (object8 []) (inr RuntimeError).
Proof.
  head_throws program8 "CompositeList" [class "CompositeList"; Vector (class "Composite")].
  - apply type8.
  - apply nulls8.
  - some_types.
Qed.

(** Test 9. *)
Lemma type9 l : of_type program9 (class "ListOfLists") (object9 l).
Proof. cbn. repeat split. elements. cbn. repeat split. elements. now split. Qed.
Lemma nulls9 classes l : nulls_ok classes (object9 l).
Proof. cbn. repeat split; try discriminate. elements. cbn. elements. exact I. Qed.
Theorem test9 fmt custom l : l <> [] -> inspection fmt custom (object9 l)
  (inl ("{ Parsed : { m_list : [ " ++ String.concat ", " (map text9 l) ++ " ] } }")).
Proof.
  intros Hl. head program9 "ListOfLists" [class "ListOfLists"; Vector (Prim CInt); Vector (Vector (Prim CInt))].
  - apply type9.
  - apply nulls9.
  - everything. destruct l as [|c l]; [easy|]. cbn. intuition (subst; cbn; auto).
  - change (shown (object9 l)) with (VObject "LOL123" [("m_list", VList "ListIntList2"
      (map shown (map (fun l => vector program9 (Prim CInt) (map int l)) l)))]).
    cbn [printed map fst snd String.concat]. rewrite !map_map.
    rewrite (map_ext _ text9).
    + cbn [append]. rewrite ?app_assoc_s. reflexivity.
    + intros k. unfold vector. cbn [shown printed]. rewrite !map_map. reflexivity.
Qed.
Theorem test9_empty fmt custom : inspection fmt custom (object9 []) (inr RuntimeError).
Proof.
  head_throws program9 "ListOfLists" [class "ListOfLists"; Vector (Vector (Prim CInt))].
  - apply type9.
  - apply nulls9.
  - some_types.
Qed.

(** Test 10. *)
Theorem test10 fmt custom m : inspection fmt custom (object10 m)
  (inl ("{ Parsed : { m_map : { " ++ String.concat ", " (map (fun kv => dec (fst kv) ++ " : " ++ dec (snd kv)) m) ++ " } } }")).
Proof.
  head program10 "MapIntInt" [class "MapIntInt"; Map (Prim CInt) (Prim CInt)].
  - cbn. repeat split. elements. cbn. auto.
  - cbn. repeat split; try discriminate. elements. cbn. auto.
  - everything. cbn. intuition (subst; cbn; auto).
  - change (shown (object10 m)) with (VObject "MapIntInt" [("m_map", VMap "MAP2-int-int"
      (map (fun kv => (shown (fst kv), shown (snd kv))) (map (fun kv => (int (fst kv), int (snd kv))) m)))]).
    cbn [printed map fst snd String.concat]. rewrite !map_map. cbn [append]. rewrite ?app_assoc_s. reflexivity.
Qed.

(** Test 11. *)
Lemma type11 l : of_type program11 (class "DeSerialiseMe") (object11 l).
Proof. cbn. repeat split. elements. cbn. intuition (auto; discriminate). Qed.
Lemma nulls11 classes l : nulls_ok classes (object11 l).
Proof. cbn. repeat split; try discriminate. elements. cbn. intuition (auto; discriminate). Qed.
Theorem test11 fmt custom m : m <> [] -> inspection fmt custom (object11 m)
  (inl ("{ Parsed : { m_map : { " ++ String.concat ", " (map (fun kv => dec (fst kv) ++ " : { m_a : """ ++ snd kv ++ """ }") m) ++ " } } }")).
Proof.
  intros Hl. head program11 "DeSerialiseMe" [class "DeSerialiseMe"; class "Inner"; Map (Prim CInt) (class "Inner")].
  - apply type11.
  - apply nulls11.
  - everything. destruct m as [|c l]; [easy|]. cbn. intuition (subst; cbn; auto).
  - change (shown (object11 m)) with (VObject "FP-DSM" [("m_map", VMap "FP-MapItoInner"
      (map (fun kv => (shown (fst kv), shown (snd kv))) (map (fun kv => (int (fst kv), object program11 "Inner" [str (snd kv)])) m)))]).
    cbn [printed map fst snd String.concat]. rewrite !map_map.
    rewrite (map_ext _ (fun kv => dec (fst kv) ++ " : { m_a : """ ++ snd kv ++ """ }")).
    + cbn [append]. rewrite ?app_assoc_s. reflexivity.
    + intros [k s]. cbn. f_equal. now rewrite ?app_assoc_s.
Qed.
Theorem test11_empty fmt custom : inspection fmt custom (object11 []) (inr RuntimeError).
Proof.
  head_throws program11 "DeSerialiseMe" [class "DeSerialiseMe"; Map (Prim CInt) (class "Inner")].
  - apply type11.
  - apply nulls11.
  - some_types.
Qed.

(** Test 12. *)
Lemma type12 l : of_type program12 (class "DeSerialiseMe") (object12 l).
Proof.
  cbn. repeat split. elements. cbn. repeat split. elements. cbn. repeat split; try discriminate. elements. now split.
Qed.
Lemma nulls12 classes l : nulls_ok classes (object12 l).
Proof.
  cbn. repeat split; try discriminate. elements. cbn. repeat split. elements. cbn. repeat split; try discriminate. elements. exact I.
Qed.
(** Which of its types occur. *)
Lemma names_inner12 is : map (fun o => fst (fst o)) (flat_map occurrences (map inner12 is)) = flat_map (fun _ => ["Inner"; "java.util.List<int>"]) is.
Proof.
  induction is as [|[s l] is IH]; [reflexivity|].
  change (map (fun o => fst (fst o)) (occurrences (inner12 (s, l)) ++ flat_map occurrences (map inner12 is))
          = ["Inner"; "java.util.List<int>"] ++ flat_map (fun _ => ["Inner"; "java.util.List<int>"]) is)%list.
  rewrite (map_app _ (occurrences (inner12 (s, l))) (flat_map occurrences (map inner12 is))).
  refine (f_equal2 (@app string) _ IH). cbn. rewrite app_nil_r. f_equal. f_equal. clear. induction l; [reflexivity|assumption].
Qed.
Lemma names12 m : names_in (object12 m) =
  "DeSerialiseMe" :: "java.util.Map<int,java.util.List<Inner>>" ::
  flat_map (fun kv => "java.util.List<Inner>" :: flat_map (fun _ => ["Inner"; "java.util.List<int>"]) (snd kv)) m.
Proof.
  unfold names_in.
  change (occurrences (object12 m)) with
    (("DeSerialiseMe", "FP-DSM", Class)
     :: ("java.util.Map<int,java.util.List<Inner>>", "FP-PANTS", Container "map")
         :: flat_map (fun kv => (occurrences (fst kv) ++ occurrences (snd kv))%list)
              (map (fun kv => (int (fst kv), vector program12 (class "Inner") (map inner12 (snd kv)))) m) ++ []).
  rewrite app_nil_r. cbn [map fst]. f_equal. f_equal. induction m as [|[k is] m IH]; [reflexivity|].
  change (map (fun o => fst (fst o)) (("java.util.List<Inner>", "FP-InnerVector", Container "list") :: flat_map occurrences (map inner12 is) ++
      flat_map (fun kv => (occurrences (fst kv) ++ occurrences (snd kv))%list)
              (map (fun kv => (int (fst kv), vector program12 (class "Inner") (map inner12 (snd kv)))) m))
    = (("java.util.List<Inner>" :: flat_map (fun _ => ["Inner"; "java.util.List<int>"]) is) ++
      flat_map (fun kv => "java.util.List<Inner>" :: flat_map (fun _ => ["Inner"; "java.util.List<int>"]) (snd kv)) m))%list.
  rewrite app_comm_cons, map_app. refine (f_equal2 (@app string) _ IH).
  change ("java.util.List<Inner>" :: map (fun o => fst (fst o)) (flat_map occurrences (map inner12 is))
          = "java.util.List<Inner>" :: flat_map (fun _ => ["Inner"; "java.util.List<int>"]) is).
  f_equal. apply names_inner12.
Qed.
Theorem test12 fmt custom m : (exists k is, In (k, is) m /\ is <> []) -> inspection fmt custom (object12 m)
  (inl ("{ Parsed : { m_map : { " ++
        String.concat ", " (map (fun kv => dec (fst kv) ++ " : [ " ++ String.concat ", " (map text12 (snd kv)) ++ " ]") m) ++ " } } }")).
Proof.
  intros Hl. head program12 "DeSerialiseMe"
    [class "DeSerialiseMe"; class "Inner"; Vector (class "Inner"); Vector (Prim CInt); Map (Prim CInt) (Vector (class "Inner"))].
  - apply type12.
  - apply nulls12.
  - destruct Hl as (k & is & Hk & Hi). everything. rewrite names12. intros u Hu. cbn [In] in Hu.
    assert (F : forall n, In n ["java.util.List<Inner>"; "Inner"; "java.util.List<int>"] ->
      In n (flat_map (fun kv => "java.util.List<Inner>" :: flat_map (fun _ => ["Inner"; "java.util.List<int>"]) (snd kv)) m)).
    { intros n Hn. apply in_flat_map. exists (k, is). split; [exact Hk|]. destruct is as [|i is]; [easy|]. cbn in Hn |- *. tauto. }
    listed_types; [now left|right; right; apply F; vm_compute; tauto..|right; now left].
  - change (shown (object12 m)) with (VObject "FP-DSM" [("m_map", VMap "FP-PANTS"
      (map (fun kv => (shown (fst kv), shown (snd kv))) (map (fun kv => (int (fst kv), vector program12 (class "Inner") (map inner12 (snd kv)))) m)))]).
    cbn [printed map fst snd String.concat]. rewrite !map_map.
    rewrite (map_ext _ (fun kv => dec (fst kv) ++ " : [ " ++ String.concat ", " (map text12 (snd kv)) ++ " ]")).
    + cbn [append]. rewrite ?app_assoc_s. reflexivity.
    + intros [k is]. unfold vector. cbn [shown printed fst snd int prim_shown]. rewrite !map_map.
      rewrite (map_ext _ text12); [reflexivity|]. intros [s l]. unfold inner12, text12, text9. cbn. rewrite !map_map. cbn. repeat (cbn [append]; rewrite ?app_assoc_s). reflexivity.
Qed.
Theorem test12_empty fmt custom m : (forall k is, In (k, is) m -> is = []) -> inspection fmt custom (object12 m) (inr RuntimeError).
Proof.
  intros H. destruct m as [|[k is] m].
  { head_throws program12 "DeSerialiseMe" [class "DeSerialiseMe"; Map (Prim CInt) (Vector (class "Inner"))]; [apply type12|apply nulls12|some_types]. }
  head_throws program12 "DeSerialiseMe" [class "DeSerialiseMe"; Vector (class "Inner"); Map (Prim CInt) (Vector (class "Inner"))]; [apply type12|apply nulls12|].
  assert (E : forall n, In n (names_in (object12 ((k, is) :: m))) <-> In n ["DeSerialiseMe"; "java.util.Map<int,java.util.List<Inner>>"; "java.util.List<Inner>"]).
  { intros n. rewrite names12. rewrite (H k is (or_introl eq_refl)). cbn [flat_map snd]. split.
    - intros [Hn|[Hn|[Hn|Hn]]]; [cbn; tauto..|]. cbn [app] in Hn. apply in_flat_map in Hn as ([k' is'] & Hk & Hn). rewrite (H k' is') in Hn by now right.
      cbn in Hn |- *. tauto.
    - cbn. tauto. }
  apply some_occur; [intros u Hu; cbn in Hu; rewrite E; listed_types; (split; [cbn; tauto|vm_compute; tauto])
  |intros u Hu Hn; rewrite E in Hn; cbn in Hu; listed_types; vm_compute in Hn; cbn; try tauto; exfalso; intuition discriminate|reflexivity].
Qed.

(** Test 4: the float. *)
Theorem test4 fmt custom a b c d e : inspection fmt custom (object4 a b c d e) (inr RuntimeError).
Proof.
  intros mo kf _. do 2 eexists. split; [vm_compute; reflexivity|]. exists 30. intros fuel Hf.
  do 31 (destruct fuel as [|fuel]; [lia|]). eexists. destruct mo, kf; vm_compute; reflexivity.
Qed.
