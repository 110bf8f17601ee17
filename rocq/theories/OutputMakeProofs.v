(** Proofs about what is written while a schema is made (OutputMake.v). *)
From Coq Require Import Lia Permutation.
From Verif Require Import Base OutputWriter SpecOutputWriter Proton TypeNames SpecTypes TypeNamesProofs SpecNames NamesProofs Ordering OrderingProofs Schema SchemaProofs SpecReadScript SpecParse DescriptorsProofs ParseProofs OutputMake SpecOutputMake.
Import List ListNotations.
Open Scope string_scope.

Lemma str_assoc (a b c : string) : (a ++ b) ++ c = a ++ (b ++ c).
Proof. induction a as [|x a IH]; [reflexivity|]. cbn. now rewrite IH. Qed.
Lemma str_nil (a : string) : a ++ "" = a.
Proof. induction a as [|x a IH]; [reflexivity|]. cbn. now rewrite IH. Qed.

Section Proofs.
Context (env : platform) (moved : string -> string).
Notation lines := (lines env).

Lemma lines_app a b : lines (a ++ b)%list = lines a ++ lines b.
Proof. induction a as [|[[f n] t] a IH]; [reflexivity|]. cbn [app SpecOutputMake.lines]. now rewrite IH, str_assoc. Qed.
Lemma and_tell_snd {A B} (m : told A) (k : A -> told B) : snd (and_tell m k) = let? a := snd m in snd (k a).
Proof. unfold and_tell. now destruct (snd m). Qed.
Lemma and_tell_quietly {A B} (a : A) (k : A -> told B) : and_tell (quietly (Ret a)) k = k a.
Proof. unfold and_tell. cbn. now destruct (k a). Qed.
Lemma DBG_is f n t : DBG env f n t = line env f n t.
Proof. unfold DBG, line, starts. now rewrite !str_assoc. Qed.
Lemma dbg_then {B} f n t (k : unit -> told B) : and_tell (dbg env f n t) k = (line env f n t ++ fst (k tt), snd (k tt)).
Proof. unfold and_tell, dbg, tell. cbn [fst snd]. now rewrite DBG_is. Qed.
Ltac spell := cbn -[DBG SpecOutputWriter.line String.append]; rewrite ?DBG_is, ?str_nil, ?str_assoc; try reflexivity.

(** ** The same results *)
Lemma field_result n t rs df lb ma mu : snd (Field_make_told env moved n t rs df lb ma mu) = Field_make n t rs df lb ma mu.
Proof.
  unfold Field_make_told, Field_make, typeIsPrimitive_told. rewrite ?and_tell_snd. cbn [snd dbg tell quietly rbind]. destruct (typeIsPrimitive t); [reflexivity|].
  rewrite ?and_tell_snd. cbn [snd quietly]. destruct (isArrayType t) as [[|]| | | |]; try reflexivity.
  - cbn [rbind]. rewrite ?and_tell_snd. cbn [snd dbg tell quietly rbind]. unfold RestrictedField_told, Field_told. rewrite ?and_tell_snd. cbn [snd dbg tell quietly rbind].
    destruct (subTypes_of rs); reflexivity.
  - cbn [rbind]. destruct (String.eqb t "*").
    + rewrite ?and_tell_snd. cbn [snd dbg tell rbind]. destruct rs as [|r rs]; [reflexivity|]. rewrite ?and_tell_snd. cbn [snd quietly]. destruct (isContainer r) as [[|]| | | |]; try reflexivity.
      cbn [rbind]. rewrite ?and_tell_snd. unfold RestrictedField_told, Field_told. cbn [snd dbg tell quietly rbind]. rewrite ?and_tell_snd. cbn [snd dbg tell quietly rbind]. destruct (subTypes_of (r :: rs)); reflexivity.
    + rewrite ?and_tell_snd. cbn [snd quietly]. destruct (listType t); reflexivity.
Qed.
Lemma container_result d n lb p src ch : snd (Restricted_make_told env d n lb p src ch) = Restricted_make d n lb p src ch.
Proof.
  unfold Restricted_make_told, Restricted_make. rewrite ?and_tell_snd. cbn [snd dbg tell rbind]. destruct (String.eqb src "list").
  - destruct ch; [|reflexivity]. rewrite ?and_tell_snd. cbn [snd quietly]. destruct (isArray n) as [[|]| | | |]; try reflexivity; cbn [rbind]; rewrite ?and_tell_snd; cbn [snd quietly].
    + destruct (arrayType n); reflexivity.
    + destruct (listType n) as [[? ?]| | | |]; reflexivity.
  - destruct (String.eqb src "map"); [|reflexivity]. rewrite ?and_tell_snd. cbn [snd quietly]. destruct (mapType n) as [[[? ?] ?]| | | |]; reflexivity.
Qed.

Lemma resolved_result n fs : snd (any_resolved_told env n fs) = any_resolved n fs.
Proof.
  induction fs as [|f fs IH]; [reflexivity|]. cbn [any_resolved_told any_resolved]. rewrite ?and_tell_snd. cbn [snd quietly]. destruct (resolvedType f); try reflexivity.
  cbn [rbind]. rewrite ?and_tell_snd. cbn [snd dbg tell rbind]. destruct (String.eqb a n); [reflexivity|exact IH].
Qed.
Lemma element_result n l : snd (any_element_told env n l) = Ret (memb n l).
Proof.
  induction l as [|i l IH]; [reflexivity|]. cbn [any_element_told]. rewrite ?and_tell_snd. cbn [snd dbg tell rbind]. unfold memb in *. cbn [existsb].
  rewrite (String.eqb_sym n i). destruct (String.eqb i n); [reflexivity|exact IH].
Qed.
Lemma nested_result n l : snd (any_nested_told env n l) = Ret (memb n l).
Proof.
  induction l as [|i l IH]; [reflexivity|]. cbn [any_nested_told]. rewrite ?and_tell_snd. cbn [snd dbg tell rbind]. unfold memb in *. cbn [existsb].
  rewrite (String.eqb_sym n i). destruct (String.eqb i n); [reflexivity|exact IH].
Qed.
Lemma theirs_result n fs : snd (any_theirs_told env n fs) = any_resolved n fs.
Proof.
  induction fs as [|f fs IH]; [reflexivity|]. cbn [any_theirs_told any_resolved]. rewrite ?and_tell_snd. cbn [snd dbg tell rbind]. rewrite ?and_tell_snd. cbn [snd quietly].
  destruct (resolvedType f); try reflexivity. cbn [rbind]. rewrite ?and_tell_snd. cbn [snd dbg tell rbind]. destruct (String.eqb a n); [reflexivity|exact IH].
Qed.
Lemma subtype_result self n fs : snd (any_subtype_told env self n fs) = any_subtype n fs.
Proof.
  induction fs as [|f fs IH]; [reflexivity|]. cbn [any_subtype_told any_subtype]. rewrite ?and_tell_snd. cbn [snd dbg tell rbind]. destruct (is_restricted_t f).
  - rewrite ?and_tell_snd. cbn [snd dbg tell rbind]. rewrite ?and_tell_snd, ?nested_result. cbn [rbind]. destruct (memb n (f_subTypes f)); [reflexivity|exact IH].
  - rewrite ?and_tell_snd. cbn [snd quietly]. destruct (resolvedType f); try reflexivity. cbn [rbind]. rewrite ?and_tell_snd. cbn [snd dbg tell rbind].
    destruct (String.eqb a n); [reflexivity|exact IH].
Qed.
Lemma score_result a b : snd (dependsOn_told env a b) = dependsOn a b.
Proof.
  unfold dependsOn_told, dependsOn. destruct a as [a|a], b as [b|b]; rewrite ?and_tell_snd; cbn [snd dbg tell quietly rbind].
  - unfold composite_rhs_composite_told, composite_rhs_composite. rewrite ?and_tell_snd. cbn [snd dbg tell rbind]. rewrite ?and_tell_snd, ?subtype_result.
    destruct (any_subtype _ _) as [[|]| | | |]; try reflexivity. cbn [rbind]. rewrite ?and_tell_snd, ?theirs_result. reflexivity.
  - reflexivity.
  - unfold composite_rhs_restricted_told, composite_rhs_restricted. rewrite ?and_tell_snd, ?resolved_result.
    destruct (any_resolved _ _) as [[|]| | | |]; try reflexivity. cbn [rbind]. rewrite ?and_tell_snd, ?element_result. reflexivity.
  - unfold restricted_rhs_restricted_told, restricted_rhs_restricted. rewrite ?and_tell_snd. cbn [snd dbg tell rbind]. destruct (r_kind a); try reflexivity.
    + unfold dependsOnList_told, dependsOnList. destruct (r_kind b); try reflexivity. rewrite ?and_tell_snd. cbn [snd dbg tell rbind]. rewrite ?and_tell_snd. cbn [snd dbg tell rbind].
      rewrite ?and_tell_snd. cbn [snd dbg tell rbind]. destruct (_ || _); [reflexivity|]. destruct (String.eqb _ _); reflexivity.
    + unfold dependsOnMap_told. rewrite ?and_tell_snd. destruct (r_kind b); reflexivity.
Qed.
Lemma scan_level_result p i lvl : forall ip, snd (scan_level_told env p i lvl ip) = scan_level notation dependsOn p i lvl ip.
Proof.
  induction lvl as [|j lvl IH]; intros ip; [reflexivity|]. cbn [scan_level_told scan_level]. rewrite ?and_tell_snd. cbn [snd dbg tell rbind]. rewrite ?and_tell_snd, ?score_result.
  destruct (dependsOn j p) as [[|[|[|n]]]| | | |]; cbn [rbind]; try reflexivity; apply IH.
Qed.
Lemma scan_result p levels : forall i ip, snd (scan_told env p i levels ip) = scan notation dependsOn p i levels ip.
Proof.
  induction levels as [|lvl levels IH]; intros i ip; [reflexivity|]. cbn [scan_told scan]. rewrite ?and_tell_snd, ?scan_level_result.
  destruct (scan_level _ _ _ _ _ _) as [[ip' [|]]| | | |]; cbn [rbind]; try reflexivity. apply IH.
Qed.
Lemma shuffle_result rec rec' p members : (forall e l, snd (rec e l) = rec' e l) ->
  forall pre kept behind, snd (shuffle_told env rec p members pre kept behind) = shuffle notation dependsOn rec' p members pre kept behind.
Proof.
  intros Hr. induction members as [|e members IH]; intros pre kept behind; [reflexivity|]. cbn [shuffle_told shuffle]. rewrite ?and_tell_snd, ?score_result.
  destruct (dependsOn p e) as [[|[|[|n]]]| | | |]; cbn [rbind]; try reflexivity; try apply IH.
  rewrite ?and_tell_snd, ?Hr. destruct (rec' e behind); cbn [rbind]; try reflexivity. apply IH.
Qed.
Lemma insert_at_result fuel : forall p levels, snd (insert_at_told env fuel p levels) = insert_at notation dependsOn fuel p levels.
Proof.
  induction fuel as [|fuel IH]; intros p levels; [reflexivity|]. cbn [insert_at_told insert_at]. rewrite ?and_tell_snd. cbn [snd dbg tell rbind]. rewrite ?and_tell_snd, ?scan_result.
  destruct (scan _ _ _ _ _ _); cbn [rbind]; try reflexivity. destruct (skipn a levels) as [|lvl behind]; [reflexivity|].
  rewrite ?and_tell_snd, ?(shuffle_result _ _ p lvl IH). destruct (shuffle _ _ _ _ _ _ _ _) as [[[? ?] ?]| | | |]; reflexivity.
Qed.
Lemma insert_result p levels : snd (insert_told env p levels) = insert notation dependsOn p levels.
Proof. apply insert_at_result. Qed.

(** ** The lines of properties and containers *)
Lemma field_lines n t rs df lb ma mu : fst (Field_make_told env moved n t rs df lb ma mu) = lines (property_lines moved n t rs).
Proof.
  unfold Field_make_told, property_lines, typeIsPrimitive_told, RestrictedField_told, Field_told. change SpecTypes.primitive_name with typeIsPrimitive.
  unfold and_tell at 1. cbn [fst snd dbg tell quietly and_tell]. destruct (typeIsPrimitive t); [spell|]. unfold isArrayType.
  destruct (array_cases t) as [[-> ->]|[-> ->]]; [spell|]. destruct (array_name t).
  - rewrite subtypes_are. destruct (subTypes_fuel rs) as [->|[l ->]]; spell.
  - destruct (String.eqb_spec t "*") as [->|Hs]; cbn [negb].
    + destruct rs as [|r rs]; [spell|]. unfold isContainer.
      destruct (array_cases r) as [[-> ->]|[-> ->]]; [spell|].
      rewrite container_name_is. cbn [negb andb rbind]. destruct (array_name r || isList r || isMap r); [|spell].
      destruct (subTypes_fuel (r :: rs)) as [->|[l ->]]; spell.
    + destruct (listType_cases t) as (a & b & -> & _). spell.
Qed.
Lemma container_line d n lb p src ch : fst (Restricted_make_told env d n lb p src ch) = lines (container_lines n src ch).
Proof.
  unfold Restricted_make_told, container_lines. destruct (String.eqb_spec src "list") as [->|H1]; cbn [String.eqb Ascii.eqb Bool.eqb negb andb].
  - destruct ch as [|c ch]; [|spell].
    destruct (array_cases n) as [[-> ->]|[-> ->]]; cbn [negb andb]; [spell|]. destruct (array_name n).
    + rewrite array_part_right. spell; now rewrite ?unbox_spec.
    + rewrite list_parts_right. destruct (list_parts n). spell.
  - assert (E : match ch with [] => if false then [("Array.cxx", 66%Z, "ARRAY OF::" ++ unboxed_name (array_part n) ++ ", name::" ++ n)] else [] | _ :: _ => [] end = @nil debug_line) by now destruct ch.
    cbn [andb] in *. rewrite E. destruct (String.eqb src "map"); [|spell]. destruct (mapType_cases n) as [(a & k & v & -> & _)| ->]; spell.
Qed.

(** ** The lines of a comparison *)
Lemma typed_resolved f : has_type f = true -> resolvedType f = Ret (shown_type f).
Proof. unfold has_type, resolvedType, shown_type. destruct (f_kind f); try reflexivity; destruct (f_requires f); try reflexivity; discriminate. Qed.
Lemma untyped_resolved f : has_type f = false -> resolvedType f = Undef.
Proof. unfold has_type, resolvedType. destruct (f_kind f); try discriminate; destruct (f_requires f); try discriminate; reflexivity. Qed.
Lemma resolved_lines n fs : forall b, any_resolved n fs = Ret b ->
  any_resolved_told env n fs = (lines (map (fun f => ("Composite.cxx", 101%Z, "  C/R b) " ++ shown_type f ++ " == " ++ n)) (as_far_as (fun f => String.eqb (shown_type f) n) fs)),
                                Ret (existsb (fun f => String.eqb (shown_type f) n) fs)).
Proof.
  induction fs as [|f fs IH]; intros b; [reflexivity|]. cbn [any_resolved any_resolved_told as_far_as existsb]. destruct (has_type f) eqn:H1; [|now rewrite (untyped_resolved f H1)].
  rewrite (typed_resolved f H1), and_tell_quietly, dbg_then. cbn [rbind]. destruct (String.eqb (shown_type f) n); cbn [map SpecOutputMake.lines quietly fst snd orb]; [reflexivity|].
  intros H. rewrite (IH b H). reflexivity.
Qed.
Lemma element_lines n l :
  any_element_told env n l = (lines (map (fun i => ("Composite.cxx", 110%Z, "  C/R a) " ++ i ++ " == " ++ n)) (as_far_as (fun i => String.eqb i n) l)), Ret (memb n l)).
Proof.
  rewrite (surjective_pairing (any_element_told env n l)), element_result. f_equal. induction l as [|i l IH]; [reflexivity|]. cbn [any_element_told as_far_as]. rewrite dbg_then.
  destruct (String.eqb i n); cbn [map SpecOutputMake.lines quietly fst snd]; [reflexivity|]. now rewrite IH.
Qed.
Lemma nested_lines n l :
  any_nested_told env n l = (lines (map (fun s => ("Composite.cxx", 140%Z, "  C/C a_ " ++ RED ++ "==>" ++ s ++ RESET)) (as_far_as (fun s => String.eqb s n) l)), Ret (memb n l)).
Proof.
  rewrite (surjective_pairing (any_nested_told env n l)), nested_result. f_equal. induction l as [|i l IH]; [reflexivity|]. cbn [any_nested_told as_far_as]. rewrite dbg_then.
  destruct (String.eqb i n); cbn [map SpecOutputMake.lines quietly fst snd]; [reflexivity|]. now rewrite IH.
Qed.
Lemma subtype_lines self n fs : forall b, any_subtype n fs = Ret b ->
  any_subtype_told env self n fs = (lines (flat_map (own_property n self) (as_far_as (uses n) fs)), Ret (existsb (uses n) fs)).
Proof.
  induction fs as [|f fs IH]; intros b; [reflexivity|]. cbn [any_subtype any_subtype_told as_far_as existsb]. rewrite dbg_then.
  unfold uses at 1 3. destruct (is_restricted_t f) eqn:R.
  - rewrite dbg_then, nested_lines. unfold and_tell. cbn [fst snd]. destruct (memb n (f_subTypes f)) eqn:M; cbn [flat_map]; unfold own_property at 1; rewrite R; cbn [app orb SpecOutputMake.lines quietly fst snd].
    + intros _. now rewrite app_nil_r, str_nil.
    + intros H. rewrite (IH b H). cbn [fst snd]. now rewrite lines_app.
  - destruct (has_type f) eqn:H1; [|now rewrite (untyped_resolved f H1)].
    rewrite (typed_resolved f H1), and_tell_quietly, dbg_then. cbn [rbind]. destruct (String.eqb (shown_type f) n) eqn:M; cbn [flat_map]; unfold own_property at 1; rewrite R;
      cbn [app orb SpecOutputMake.lines quietly fst snd]; [reflexivity|]. intros H. rewrite (IH b H). reflexivity.
Qed.
Lemma theirs_lines n fs : forall b, any_resolved n fs = Ret b ->
  any_theirs_told env n fs =
    (lines (flat_map (fun f => [("Composite.cxx", 156%Z, "FIELD - " ++ n ++ "::0"); ("Composite.cxx", 157%Z, "  C/C b) " ++ shown_type f ++ " == " ++ n)])
       (as_far_as (fun f => String.eqb (shown_type f) n) fs)), Ret (existsb (fun f => String.eqb (shown_type f) n) fs)).
Proof.
  induction fs as [|f fs IH]; intros b; [reflexivity|]. cbn [any_resolved any_theirs_told as_far_as existsb]. rewrite dbg_then. destruct (has_type f) eqn:H1; [|now rewrite (untyped_resolved f H1)].
  rewrite (typed_resolved f H1), and_tell_quietly, dbg_then. cbn [rbind]. destruct (String.eqb (shown_type f) n); cbn [flat_map app SpecOutputMake.lines quietly fst snd orb]; [reflexivity|].
  intros H. rewrite (IH b H). reflexivity.
Qed.
Lemma score_lines a b n : dependsOn a b = Ret n -> fst (dependsOn_told env a b) = lines (comparison_lines a b).
Proof.
  destruct a as [a|a], b as [b|b]; cbn [dependsOn]; intros Hn; unfold dependsOn_told, comparison_lines; rewrite ?and_tell_quietly, ?dbg_then.
  - unfold composite_rhs_composite in Hn. destruct (any_subtype (c_name a) (c_fields b)) as [x| | | |] eqn:Ex; try discriminate.
    unfold composite_rhs_composite_told, class_of_class. rewrite dbg_then, (subtype_lines _ _ _ _ Ex). unfold and_tell at 1. cbn [fst snd SpecOutputMake.lines]. f_equal.
    assert (Ey : x = existsb (uses (c_name a)) (c_fields b)). { pose proof (subtype_result (c_name b) (c_name a) (c_fields b)) as Er. rewrite (subtype_lines _ _ _ _ Ex), Ex in Er. now injection Er. }
    rewrite Ey in Hn. cbn [rbind] in Hn.
    destruct (existsb (uses (c_name a)) (c_fields b)); rewrite lines_app; [reflexivity|].
    destruct (any_resolved (c_name b) (c_fields a)) as [y| | | |] eqn:E2; try discriminate. rewrite (theirs_lines _ _ _ E2). unfold and_tell. cbn [fst snd quietly]. now rewrite str_nil.
  - reflexivity.
  - unfold composite_rhs_restricted in Hn. destruct (any_resolved (r_name a) (c_fields b)) as [x| | | |] eqn:Ex; try discriminate.
    unfold composite_rhs_restricted_told, class_of_container. rewrite (resolved_lines _ _ _ Ex). unfold and_tell at 1. cbn [fst snd SpecOutputMake.lines]. f_equal.
    destruct (existsb _ (c_fields b)); rewrite lines_app; [reflexivity|]. rewrite element_lines. unfold and_tell. cbn [fst snd quietly]. now rewrite str_nil.
  - unfold restricted_rhs_restricted_told, container_of_container. rewrite dbg_then. cbn [fst snd SpecOutputMake.lines]. f_equal. f_equal.
    unfold dependsOnMap_told, dependsOnList_told, score, dependsOn, restricted_rhs_restricted. destruct (r_kind a) eqn:Ka; try reflexivity.
    + unfold dependsOnList. destruct (r_kind b) eqn:Kb; try reflexivity. rewrite !dbg_then. cbn [fst snd SpecOutputMake.lines]. do 3 f_equal.
      destruct (_ || _); [reflexivity|]. destruct (String.eqb (of0 a) (r_name b)); reflexivity.
    + destruct (r_kind b) eqn:Kb; try reflexivity. rewrite dbg_then. reflexivity.
Qed.

(** ** The lines of looking for a place *)
Lemma scored a b n : dependsOn a b = Ret n -> score a b = n.
Proof. unfold score. now intros ->. Qed.
Definition looked (p : notation) (l : list notation) : string :=
  lines (flat_map (fun j => ("OrderedTypeNotations.h", 162%Z, n_name j) :: comparison_lines j p) (as_far_as (fun j => Nat.eqb (score j p) 2) l)).
Definition stop_at (p : notation) (l : list notation) : bool := existsb (fun j => Nat.eqb (score j p) 2) l.
Lemma scan_level_lines p i lvl : forall ip x, scan_level notation dependsOn p i lvl ip = Ret x ->
  scan_level_told env p i lvl ip = (looked p lvl, Ret (fst x, stop_at p lvl)).
Proof.
  induction lvl as [|j lvl IH]; intros ip x; [cbn; now intros [= <-]|]. cbn [scan_level scan_level_told]. destruct (dependsOn j p) as [k| | | |] eqn:D; try discriminate. rewrite dbg_then.
  unfold and_tell. rewrite score_result, D, (score_lines j p k D). unfold looked, stop_at. cbn [as_far_as existsb rbind]. rewrite (scored _ _ _ D).
  destruct k as [|[|[|n]]]; cbn [Nat.eqb orb flat_map quietly fst snd]; intros H.
  - rewrite (IH _ _ H). cbn [fst snd app SpecOutputMake.lines]. now rewrite lines_app.
  - rewrite (IH _ _ H). cbn [fst snd app SpecOutputMake.lines]. now rewrite lines_app.
  - injection H as <-. cbn [fst snd app SpecOutputMake.lines]. now rewrite app_nil_r, str_nil.
  - rewrite (IH _ _ H). cbn [fst snd app SpecOutputMake.lines]. now rewrite lines_app.
Qed.
Lemma as_far_app {A} (g : A -> bool) a b : as_far_as g (a ++ b)%list = (as_far_as g a ++ if existsb g a then [] else as_far_as g b)%list.
Proof. induction a as [|x a IH]; [reflexivity|]. cbn. destruct (g x); [reflexivity|]. cbn. now rewrite IH. Qed.
Lemma looked_app p a b : looked p (a ++ b)%list = looked p a ++ if stop_at p a then "" else looked p b.
Proof. unfold looked, stop_at. rewrite as_far_app, flat_map_app, lines_app. now destruct (existsb _ a). Qed.
Lemma scan_lines p levels : forall i ip x, scan notation dependsOn p i levels ip = Ret x -> scan_told env p i levels ip = (looked p (List.concat levels), Ret x).
Proof.
  induction levels as [|lvl levels IH]; intros i ip x; [cbn; now intros [= <-]|]. cbn [List.concat scan scan_told].
  destruct (scan_level notation dependsOn p i lvl ip) as [[ip1 s1]| | | |] eqn:E; try discriminate. pose proof (scan_level_lines _ _ _ _ _ E) as L. rewrite L. unfold and_tell. cbn [fst snd rbind]. rewrite looked_app.
  assert (E1 : s1 = stop_at p lvl). { pose proof (scan_level_result p i lvl ip) as Er. rewrite L, E in Er. now injection Er. } rewrite E1.
  destruct (stop_at p lvl); cbn [quietly fst snd]; [now intros [= <-]|]. intros H. now rewrite (IH _ _ _ H).
Qed.
(** ** All lines of an insertion *)
Lemma score_small a b : score a b <= 2.
Proof.
  unfold score, dependsOn. destruct a as [a|a], b as [b|b].
  - unfold composite_rhs_composite. destruct (any_subtype _ _) as [[|]| | | |]; cbn [rbind]; try lia. destruct (any_resolved _ _) as [[|]| | | |]; cbn [rbind]; lia.
  - unfold restricted_rhs_composite. destruct (match r_kind b with list_t | array_t => _ | map_t => _ | enum_t => _ end); [lia|]. destruct (any_resolved _ _) as [[|]| | | |]; cbn [rbind]; lia.
  - unfold composite_rhs_restricted. destruct (any_resolved _ _) as [[|]| | | |]; cbn [rbind]; try lia. destruct (memb _ _); lia.
  - unfold restricted_rhs_restricted, dependsOnMap, dependsOnList, dependsOnEnum, dependsOnArray. destruct (r_kind a), (r_kind b); repeat (destruct (_ || _) || destruct (String.eqb _ _)); lia.
Qed.
Definition by_score (a b : notation) : res nat := Ret (score a b).
Definition any_type (t : notation) : Prop := True.
Lemma by_score_total j p : any_type j -> any_type p -> exists n, n <= 2 /\ by_score j p = Ret n.
Proof. intros _ _. exists (score j p). split; [apply score_small|reflexivity]. Qed.
Lemma any_in levels : all_in notation any_type levels.
Proof. intros x Hx. exact I. Qed.
Lemma scan_level_scored p i lvl : forall ip x, scan_level notation dependsOn p i lvl ip = Ret x -> scan_level notation by_score p i lvl ip = Ret x.
Proof.
  induction lvl as [|j lvl IH]; intros ip x; [auto|]. cbn [scan_level]. unfold by_score at 1. destruct (dependsOn j p) as [k| | | |] eqn:D; try discriminate. rewrite (scored _ _ _ D). cbn [rbind].
  destruct k as [|[|[|n]]]; auto.
Qed.
Lemma scan_scored p levels : forall i ip x, scan notation dependsOn p i levels ip = Ret x -> scan notation by_score p i levels ip = Ret x.
Proof.
  induction levels as [|lvl levels IH]; intros i ip x; [auto|]. cbn [scan]. destruct (scan_level notation dependsOn p i lvl ip) as [[ip1 s1]| | | |] eqn:E; try discriminate.
  rewrite (scan_level_scored _ _ _ _ _ E). cbn [rbind]. destruct s1; auto.
Qed.
Lemma shuffle_scored rec rec' p members : (forall e l x, rec e l = Ret x -> rec' e l = Ret x) ->
  forall pre kept behind x, shuffle notation dependsOn rec p members pre kept behind = Ret x -> shuffle notation by_score rec' p members pre kept behind = Ret x.
Proof.
  intros Hr. induction members as [|e members IH]; intros pre kept behind x; [auto|]. cbn [shuffle]. unfold by_score at 1. destruct (dependsOn p e) as [k| | | |] eqn:D; try discriminate. rewrite (scored _ _ _ D). cbn [rbind].
  destruct k as [|[|[|n]]]; auto. destruct (rec e behind) eqn:E; try discriminate. rewrite (Hr _ _ _ E). cbn [rbind]. auto.
Qed.
Lemma insert_scored f : forall p levels x, insert_at notation dependsOn f p levels = Ret x -> insert_at notation by_score f p levels = Ret x.
Proof.
  induction f as [|f IH]; intros p levels x; [discriminate|]. cbn [insert_at]. destruct (scan notation dependsOn p 0 levels 0) as [ip| | | |] eqn:E; try discriminate. rewrite (scan_scored _ _ _ _ _ E). cbn [rbind].
  destruct (skipn ip levels) as [|lvl behind]; [auto|]. destruct (shuffle notation dependsOn (insert_at notation dependsOn f) p lvl [] [] behind) as [[[? ?] ?]| | | |] eqn:F; try discriminate.
  rewrite (shuffle_scored _ _ p lvl IH _ _ _ _ F). auto.
Qed.
Lemma shuffle_more rec rec' p members : (forall e l x, rec e l = Ret x -> rec' e l = Ret x) ->
  forall pre kept behind x, shuffle notation by_score rec p members pre kept behind = Ret x -> shuffle notation by_score rec' p members pre kept behind = Ret x.
Proof.
  intros Hr. induction members as [|e members IH]; intros pre kept behind x; [auto|]. cbn [shuffle]. destruct (by_score p e) as [[|[|[|n]]]| | | |]; cbn [rbind]; auto.
  destruct (rec e behind) eqn:E; try discriminate. rewrite (Hr _ _ _ E). cbn [rbind]. auto.
Qed.
Lemma insert_at_more f : forall f' p levels x, f <= f' -> insert_at notation by_score f p levels = Ret x -> insert_at notation by_score f' p levels = Ret x.
Proof.
  induction f as [|f IH]; intros f' p levels x Hf; [discriminate|]. destruct f' as [|f']; [lia|]. cbn [insert_at]. destruct (scan _ _ _ _ _ _); cbn [rbind]; auto.
  destruct (skipn a levels) as [|lvl behind]; [auto|]. destruct (shuffle notation by_score (insert_at notation by_score f) p lvl [] [] behind) eqn:E; try discriminate.
  rewrite (shuffle_more _ _ p lvl (fun e l y => IH f' e l y ltac:(lia)) _ _ _ _ E). auto.
Qed.
Lemma with_type_is f p levels x : insert_at notation dependsOn f p levels = Ret x -> x = with_type p levels /\ Permutation (List.concat x) (p :: List.concat levels).
Proof.
  intros E. apply insert_scored in E. unfold with_type. fold by_score. destruct (insert_total notation by_score any_type by_score_total p levels I (any_in levels)) as (y & Ey & Py & _). rewrite Ey.
  assert (Q : x = y); [|now subst]. unfold insert in Ey. destruct (Nat.le_ge_cases f (S (List.length (List.concat levels)))) as [L|L].
  - apply (insert_at_more _ _ _ _ _ L) in E. congruence.
  - apply (insert_at_more _ _ _ _ _ L) in Ey. congruence.
Qed.
Definition spelled (bound : nat) (ls : notation -> list (list notation) -> list debug_line) : Prop :=
  forall e levels x, insert_at notation dependsOn bound e levels = Ret x -> List.length (List.concat levels) < bound -> fst (insert_at_told env bound e levels) = lines (ls e levels).
Lemma shuffle_lines n p : spelled n (insertion_lines (pred n)) ->
  forall members pre kept behind x, shuffle notation dependsOn (insert_at notation dependsOn n) p members pre kept behind = Ret x -> List.length members + List.length (List.concat behind) < S n ->
  fst (shuffle_told env (insert_at_told env n) p members pre kept behind) = lines (joining_lines (insertion_lines (pred n)) p members behind).
Proof.
  intros Hr. induction members as [|e members IH]; intros pre kept behind x Hx Hlen; [reflexivity|]. cbn [shuffle shuffle_told joining_lines List.length] in *.
  destruct (dependsOn p e) as [k| | | |] eqn:D; try discriminate. cbn [rbind] in Hx.
  unfold and_tell at 1. rewrite score_result, D, (score_lines p e k D), lines_app. cbn [fst]. pose proof (score_small p e) as Hs. rewrite (scored _ _ _ D) in *. destruct k as [|[|[|k]]]; [| | |lia]; cbn [Nat.eqb fst].
  - f_equal. eapply IH; eauto. lia.
  - f_equal. destruct (insert_at notation dependsOn n e behind) as [behind'| | | |] eqn:E; try discriminate. cbn [rbind] in Hx. destruct (with_type_is _ _ _ _ E) as [W P].
    unfold and_tell. rewrite insert_at_result, E, lines_app, (Hr e behind _ E ltac:(lia)). cbn [fst]. f_equal. rewrite <- W. eapply IH; eauto.
    rewrite (Permutation_length P). cbn [List.length]. lia.
  - f_equal. eapply IH; eauto. lia.
Qed.
Lemma insert_at_lines n : spelled n (insertion_lines (pred n)).
Proof.
  induction n as [|n IH]; intros p levels x Hx Hlen; [lia|]. cbn [insert_at insert_at_told pred] in *. rewrite dbg_then. cbn [fst].
  destruct (scan notation dependsOn p 0 levels 0) as [ip| | | |] eqn:E0; try discriminate. cbn [rbind] in Hx. pose proof (scan_lines _ _ _ _ _ E0) as E.
  assert (Hip : place p levels = ip) by (unfold place; now rewrite E0). rewrite E. unfold and_tell at 1. cbn [fst snd].
  assert (Q : insertion_lines n p levels = (search_lines p levels ++ match n, skipn ip levels with S n', group :: behind => joining_lines (insertion_lines n') p group behind | _, _ => [] end)%list).
  { destruct n; cbn [insertion_lines]; rewrite ?Hip; reflexivity. }
  rewrite Q, lines_app. unfold search_lines. cbn [SpecOutputMake.lines]. rewrite str_assoc. fold (looked p (List.concat levels)). f_equal. f_equal.
  pose proof (firstn_skipn ip levels) as Hsplit. destruct (skipn ip levels) as [|lvl behind] eqn:Es; [now destruct n|].
  assert (Hcat : List.concat levels = (List.concat (firstn ip levels) ++ lvl ++ List.concat behind)%list) by (rewrite <- Hsplit at 1; rewrite List.concat_app; reflexivity).
  rewrite Hcat, !app_length in Hlen.
  destruct (shuffle notation dependsOn (insert_at notation dependsOn n) p lvl [] [] behind) as [y| | | |] eqn:Ey; try discriminate.
  pose proof (shuffle_lines n p IH lvl [] [] behind y Ey ltac:(lia)) as S. unfold and_tell.
  transitivity (fst (shuffle_told env (insert_at_told env n) p lvl [] [] behind)).
  { destruct (shuffle_told env (insert_at_told env n) p lvl [] [] behind) as [text [[[? ?] ?]| | | |]]; cbn [fst snd quietly]; now rewrite ?str_nil. }
  rewrite S. destruct n as [|n]; [|reflexivity]. destruct lvl as [|e lvl]; [reflexivity|cbn [List.length] in Hlen; lia].
Qed.
Lemma insert_lines p levels x : insert notation dependsOn p levels = Ret x ->
  fst (insert_told env p levels) = lines (insertion_lines (List.length (List.concat levels)) p levels).
Proof. intros H. apply (insert_at_lines (S (List.length (List.concat levels))) p levels x H). lia. Qed.

(** ** Types whose properties have a known type can be put in order *)
Definition is_typed (t : notation) : Prop := typed t = true.
Lemma typed_any n fs : forallb has_type fs = true -> exists b, any_resolved n fs = Ret b.
Proof.
  induction fs as [|f fs IH]; [now exists false|]. cbn [forallb any_resolved]. intros H. apply andb_prop in H as [H1 H2]. rewrite (typed_resolved f H1). cbn [rbind].
  destruct (String.eqb (shown_type f) n); [now exists true|auto].
Qed.
Lemma typed_subtype n fs : forallb has_type fs = true -> exists b, any_subtype n fs = Ret b.
Proof.
  induction fs as [|f fs IH]; [now exists false|]. cbn [forallb any_subtype]. intros H. apply andb_prop in H as [H1 H2]. destruct (is_restricted_t f).
  - destruct (memb n (f_subTypes f)); [now exists true|auto].
  - rewrite (typed_resolved f H1). cbn [rbind]. destruct (String.eqb (shown_type f) n); [now exists true|auto].
Qed.
Lemma typed_score a b : is_typed a -> is_typed b -> dependsOn a b = Ret (score a b).
Proof.
  intros Ha Hb. assert (exists n, dependsOn a b = Ret n) as [n E]; [|now rewrite (scored _ _ _ E)]. unfold is_typed in *. destruct a as [a|a], b as [b|b]; cbn [typed dependsOn] in *.
  - unfold composite_rhs_composite. destruct (typed_subtype (c_name a) _ Hb) as [x ->]. cbn [rbind]. destruct x; [eauto|]. destruct (typed_any (c_name b) _ Ha) as [y ->]. cbn [rbind]. eauto.
  - unfold restricted_rhs_composite. destruct (match r_kind b with list_t | array_t => _ | map_t => _ | enum_t => _ end); [eauto|]. destruct (typed_any (r_name b) _ Ha) as [y ->]. cbn [rbind]. eauto.
  - unfold composite_rhs_restricted. destruct (typed_any (r_name a) _ Hb) as [x ->]. cbn [rbind]. destruct x; eauto.
  - eauto.
Qed.
Lemma typed_scored j p : is_typed j -> is_typed p -> exists n, n <= 2 /\ dependsOn j p = Ret n.
Proof. intros Hj Hp. exists (score j p). split; [apply score_small|now apply typed_score]. Qed.
Lemma typed_inserted p levels : typed p = true -> forallb typed (List.concat levels) = true -> exists x, insert notation dependsOn p levels = Ret x.
Proof.
  intros Hp Hl. destruct (insert_total notation dependsOn is_typed typed_scored p levels Hp) as (y & Ey & _); [|eauto]. intros x. now apply forallb_forall.
Qed.

(** ** Only bare types show *)
Definition told_map {A B} (f : A -> B) (m : told A) : told B := (fst m, match snd m with Ret a => Ret (f a) | Exc e => Exc e | Abrt => Abrt | Undef => Undef | NoFuel => NoFuel end).
Lemma bare_resolved f : resolvedType (bare_property f) = resolvedType f.
Proof. reflexivity. Qed.
Lemma bare_any_resolved n fs : any_resolved_told env n (map bare_property fs) = any_resolved_told env n fs.
Proof. induction fs as [|f fs IH]; [reflexivity|]. cbn [map any_resolved_told]. now rewrite IH. Qed.
Lemma bare_any_subtype s n fs : any_subtype_told env s n (map bare_property fs) = any_subtype_told env s n fs.
Proof. induction fs as [|f fs IH]; [reflexivity|]. cbn [map any_subtype_told]. now rewrite IH. Qed.
Lemma bare_any_theirs n fs : any_theirs_told env n (map bare_property fs) = any_theirs_told env n fs.
Proof. induction fs as [|f fs IH]; [reflexivity|]. cbn [map any_theirs_told]. now rewrite IH. Qed.
Lemma bare_any n fs : any_resolved n (map bare_property fs) = any_resolved n fs.
Proof. induction fs as [|f fs IH]; [reflexivity|]. cbn [map any_resolved]. now rewrite IH. Qed.
Lemma bare_score a b : dependsOn_told env (bare a) (bare b) = dependsOn_told env a b.
Proof.
  destruct a as [a|a], b as [b|b]; try reflexivity; unfold dependsOn_told; cbn [bare]; f_equal.
  - unfold composite_rhs_composite_told. cbn [c_name c_fields]. now rewrite bare_any_subtype, bare_any_theirs.
  - unfold restricted_rhs_composite. cbn [c_name c_fields r_kind r_name]. rewrite bare_any. reflexivity.
  - unfold composite_rhs_restricted_told. cbn [c_name c_fields r_name r_of]. now rewrite bare_any_resolved.
Qed.
Lemma bare_name t : n_name (bare t) = n_name t.
Proof. now destruct t. Qed.
Lemma bare_scan_level p i lvl : forall ip, scan_level_told env (bare p) i (map bare lvl) ip = scan_level_told env p i lvl ip.
Proof.
  induction lvl as [|j lvl IH]; intros ip; [reflexivity|]. cbn [map scan_level_told]. rewrite bare_name, bare_score, !dbg_then. unfold and_tell.
  destruct (snd (dependsOn_told env j p)) as [[|[|[|n]]]| | | |]; now rewrite ?IH.
Qed.
Lemma bare_scan p levels : forall i ip, scan_told env (bare p) i (map (map bare) levels) ip = scan_told env p i levels ip.
Proof.
  induction levels as [|lvl levels IH]; intros i ip; [reflexivity|]. cbn [map scan_told]. rewrite bare_scan_level. unfold and_tell.
  destruct (snd (scan_level_told env p i lvl ip)) as [[ip' [|]]| | | |]; now rewrite ?IH.
Qed.
Definition bare3 (x : list (list notation) * list notation * list (list notation)) :=
  (map (map bare) (fst (fst x)), map bare (snd (fst x)), map (map bare) (snd x)).
Lemma bare_shuffle rec rec' p members : (forall e l, rec' (bare e) (map (map bare) l) = told_map (map (map bare)) (rec e l)) ->
  forall pre kept behind, shuffle_told env rec' (bare p) (map bare members) (map (map bare) pre) (map bare kept) (map (map bare) behind) =
    told_map bare3 (shuffle_told env rec p members pre kept behind).
Proof.
  intros Hr. induction members as [|e members IH]; intros pre kept behind.
  - cbn [map shuffle_told]. unfold told_map, bare3. cbn [fst snd quietly]. now rewrite map_rev.
  - cbn [map shuffle_told]. rewrite bare_score. unfold and_tell. destruct (snd (dependsOn_told env p e)) as [[|[|[|n]]]| | | |]; try reflexivity.
    + change (bare e :: map bare kept) with (map bare (e :: kept)). rewrite IH. reflexivity.
    + rewrite Hr. cbn [told_map fst snd]. destruct (snd (rec e behind)); try reflexivity. rewrite IH. reflexivity.
    + replace (map (map bare) pre ++ [[bare e]])%list with (map (map bare) (pre ++ [[e]])) by now rewrite map_app. rewrite IH. reflexivity.
    + rewrite IH. reflexivity.
Qed.
Lemma bare_insert_at fuel : forall p levels, insert_at_told env fuel (bare p) (map (map bare) levels) = told_map (map (map bare)) (insert_at_told env fuel p levels).
Proof.
  induction fuel as [|fuel IH]; intros p levels; [reflexivity|]. cbn [insert_at_told]. rewrite bare_name, bare_scan, !dbg_then. unfold and_tell.
  destruct (snd (scan_told env p 0 levels 0)) as [ip| | | |]; try reflexivity. rewrite skipn_map. destruct (skipn ip levels) as [|lvl behind]; cbn [map].
  - unfold told_map, quietly. cbn [fst snd]. now rewrite map_app.
  - pose proof (bare_shuffle (insert_at_told env fuel) (insert_at_told env fuel) p lvl IH [] [] behind) as S. cbn [map] in S. rewrite S. clear S.
    destruct (shuffle_told env (insert_at_told env fuel) p lvl [] [] behind) as [text [[[pre kept] behind']| | | |]]; try reflexivity.
    unfold told_map, quietly, bare3. cbn [fst snd]. rewrite firstn_map. f_equal. f_equal. rewrite !map_app. reflexivity.
Qed.
Lemma bare_insert p levels : insert_told env (bare p) (map (map bare) levels) = told_map (map (map bare)) (insert_told env p levels).
Proof. unfold insert_told. rewrite <- bare_insert_at. now rewrite <- concat_map, map_length. Qed.
End Proofs.
