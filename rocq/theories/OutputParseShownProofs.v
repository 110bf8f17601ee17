(** What is certain to be written while an envelope is read, and what is not. *)
From Coq Require Import Lia Permutation.
From Verif Require Import Base OutputWriter SpecOutputWriter Proton SpecCursor ProtonProofs TypeNames SpecTypes SpecNames NamesProofs Ordering Schema SpecSchema SchemaProofs Descriptors SpecDescriptors DescriptorsProofs Factory SpecFactory FactoryProofs
  Readers SpecReaders Blob ReadersProofs SpecAccept AcceptProofs SpecDisplay SpecInstalled DisplayProofs ContentsProofs SpecReadScript Print SpecPrint PrintProofs SpecParse ParseProofs
  SpecSupply SupplyProofs SpecFate FateProofs PrepareProofs FateBlobProofs Output SpecOutput OutputProofs OutputSchema SchemaOutputProofs OutputReader SpecOutputReader OutputReaderProofs OutputShow SpecOutputShow OutputShowProofs
  OutputShowBlobProofs OutputShowHideProofs OutputParse SpecOutputParse OutputParseProofs OutputParseBlobProofs.
Import List ListNotations.
Open Scope string_scope.

Section Shown.
Context (env : platform) (tn : pn_type -> string) (tnum : pn_type -> Z) (also_told : tellings).
Definition listed (groups : list (list notation)) : string := at_line env "SchemaDescriptor.cxx" 55 ("=======" ++ newline ++ listing groups ++ "======").
Section Reach.
Context (inner : tree -> heard element).
Definition reach (gs gs' : list (list notation)) (text : string) : Prop :=
  (gs' = gs \/ within (listed gs') text) /\
  forall x, In x (List.concat gs') -> In x (List.concat gs) \/ exists t, snd (inner t) = Gives (EType x) /\ forall s, within s (fst (inner t)) -> within s text.
Lemma reach_refl gs text : reach gs gs text.
Proof. split; auto. Qed.
Lemma reach_trans g g' g'' a b : reach g g' a -> reach g' g'' b -> reach g g'' (a ++ b).
Proof.
  intros [H1 H2] [H3 H4]. split.
  - destruct H3 as [->|H3]; [destruct H1 as [->|H1]; auto using within_left|auto using within_right].
  - intros x Hx. destruct (H4 x Hx) as [Hy|(t & Ht & Hs)].
    + destruct (H2 x Hy) as [|(t & Ht & Hs)]; [auto|]. right. exists t. auto using within_left.
    + right. exists t. auto using within_right.
Qed.
Lemma reach_after g g' w a : reach g g' a -> reach g g' (w ++ a).
Proof. intros H. eapply reach_trans; [apply reach_refl|exact H]. Qed.
Lemma following_reach {B} (f : list (list notation) -> B -> heard (list (list notation))) : (forall a b a', snd (f a b) = Gives a' -> reach a a' (fst (f a b))) ->
  forall l a a', snd (following f a l) = Gives a' -> reach a a' (fst (following f a l)).
Proof.
  intros H. induction l as [|b l IH]; intros a a' E; cbn [following] in *.
  - injection E as <-. apply reach_refl.
  - apply then_gives in E as (a1 & E1 & E2 & ->). eapply reach_trans; eauto.
Qed.
Lemma type_reach gs t gs' : snd (type_told env also_told inner gs t) = Gives gs' -> reach gs gs' (fst (type_told env also_told inner gs t)).
Proof.
  unfold type_told. intros E. apply then_gives in E as (e & E1 & E & ->). apply then_gives in E as (x & E2 & E & ->). apply then_gives in E as (gs1 & E3 & E & ->). apply then_gives in E as (u & _ & E & ->).
  injection E as <-. destruct e; try discriminate. cbn in E2. injection E2 as <-. cbn [besides snd] in E3.
  destruct (insert notation dependsOn _ gs) as [l| | | |] eqn:Ei; try discriminate. cbn in E3. injection E3 as <-. apply (insert_at_keeps _ _ dependsOn_small) in Ei. split.
  - right. do 3 apply within_right. apply within_left, within_refl.
  - intros y Hy. apply (Permutation_in _ Ei) in Hy as [<-|Hy]; [|now left]. right. exists t. split; [exact E1|]. intros s Hs. now apply within_left.
Qed.
Lemma schema_reach body sc : snd (schema_told env also_told inner body) = Gives (ESchema sc) -> reach [] (s_types sc) (fst (schema_told env also_told inner body)).
Proof.
  unfold schema_told. intros E. apply then_gives in E as (u & _ & E & ->). apply then_gives in E as (gs & E1 & E & ->). injection E as <-. cbn [s_types].
  apply reach_after. eapply reach_trans; [|apply reach_refl]. eapply following_reach; [|exact E1]. clear. intros gs [i g] gs' E. cbn [fst snd] in *. apply then_gives in E as (u & _ & E & ->). apply reach_after.
  eapply following_reach; [|exact E]. apply type_reach.
Qed.
Lemma lines_within x l : In x l -> within x (String.concat "" l).
Proof.
  intros H. apply in_split in H as (l1 & l2 & ->). rewrite joined_app. apply within_right. change (x :: l2) with ([x] ++ l2)%list. rewrite joined_app. apply within_left, within_refl.
Qed.
Lemma schema_types body sc : snd (schema_told env also_told inner body) = Gives (ESchema sc) -> forall x, In x (List.concat (s_types sc)) -> within (type_line env x) (fst (schema_told env also_told inner body)).
Proof.
  unfold schema_told. intros E. apply then_gives in E as (u & _ & E & ->). apply then_gives in E as (gs & E1 & E & ->). apply then_gives in E as (w & _ & E & ->). injection E as <-. cbn [s_types fst].
  intros x Hx. do 2 apply within_right. apply within_left, lines_within. now apply in_map.
Qed.
Lemma class_shown body c f : snd (class_told env inner body) = Gives (EType (TComposite c)) -> In f (c_fields c) ->
  exists t, snd (inner t) = Gives (EField f) /\ forall s, within s (fst (inner t)) -> within s (fst (class_told env inner body)).
Proof.
  unfold class_told. intros E. do 7 (apply then_gives in E as (? & ? & E & ->)). injection E as <-. cbn [c_fields]. intros Hf.
  match goal with H : snd (in_turn ?g ?l) = Gives ?fs |- _ => assert (G : exists t, snd (inner t) = Gives (EField f) /\ forall s, within s (fst (inner t)) -> within s (fst (in_turn g l))) end.
  { match goal with H : snd (in_turn _ ?l) = Gives ?fs |- _ => revert fs H Hf; generalize l end. clear. induction l as [|t l IH]; intros fs E Hf; cbn [in_turn] in *.
    - injection E as <-. destruct Hf.
    - apply then_gives in E as (f1 & E1 & E & ->). apply then_gives in E as (fs1 & E2 & E & ->). injection E as <-. destruct Hf as [<-|Hf].
      + exists t. apply then_gives in E1 as (e & E1 & E3 & ->). destruct e; try discriminate. injection E3 as <-. split; [exact E1|]. intros s Hs. now do 2 apply within_left.
      + destruct (IH _ E2 Hf) as (t' & H1 & H2). exists t'. split; [exact H1|]. intros s Hs. apply within_right, within_left. auto. }
  destruct G as (t & K1 & K2). exists t. split; [exact K1|]. intros s Hs. do 6 apply within_right. apply within_left. auto.
Qed.
Lemma envelope_shown body e : snd (envelope_told env inner body) = Gives (EEnvelope e) ->
  exists t, snd (inner t) = Gives (ESchema (e_schema e)) /\ forall s, within s (fst (inner t)) -> within s (fst (envelope_told env inner body)).
Proof.
  unfold envelope_told. intros E. apply then_gives in E as (u & _ & E & ->). apply then_gives in E as (fp & _ & E & ->). apply then_gives in E as (x & E1 & E & ->). apply then_gives in E as (s & E2 & E & ->).
  injection E as <-. destruct x; try discriminate. injection E2 as <-. destruct (part 1 body) as [t|]; [|discriminate]. exists t. split; [exact E1|]. intros s' Hs. do 2 apply within_right. now apply within_left.
Qed.
Lemma property_keeps name type rs df lb ma mu f : property_of name type rs df lb ma mu = Got f -> f_name f = name /\ f_type f = type.
Proof.
  unfold property_of. cbv zeta. destruct (SpecTypes.primitive_name type); [now intros [= <-]|]. destruct (unclear type); [discriminate|]. destruct (array_name type).
  { destruct (subtypes_of rs); try discriminate. now intros [= <-]. }
  destruct (negb _); [now intros [= <-]|]. destruct rs as [|r rs']; [now intros [= <-]|]. destruct (unclear r); [discriminate|].
  destruct (_ || _ || _); [|now intros [= <-]]. destruct (subtypes_of _); try discriminate. now intros [= <-].
Qed.
Lemma property_shown body f : snd (property_told env also_told body) = Gives (EField f) ->
  within (at_line env "FieldDescriptor.cxx" 42 ("FIELD::name: """ ++ f_name f ++ """")) (fst (property_told env also_told body)) /\
  within (at_line env "FieldDescriptor.cxx" 49 ("FIELD::type: """ ++ f_type f ++ """")) (fst (property_told env also_told body)).
Proof.
  unfold property_told. intros E. do 11 (apply then_gives in E as (? & ? & E & ->)). injection E as <-.
  match goal with H : snd (besides _ (property_of ?n ?t ?rs ?df ?lb ?ma ?mu)) = Gives ?f |- _ => destruct (property_of n t rs df lb ma mu) eqn:P; try discriminate; injection H as <-; apply property_keeps in P as [-> ->] end.
  split; [do 2 apply within_right|do 4 apply within_right]; apply within_left, within_refl.
Qed.
Ltac not_this E := exfalso; repeat (apply then_gives in E as (? & ? & E & _)); discriminate E.
Lemma element_cases code body e : snd (element_told env tn tnum also_told inner code body) = Gives e ->
  match e with
  | EEnvelope _ => element_told env tn tnum also_told inner code body = envelope_told env inner body
  | ESchema _ => element_told env tn tnum also_told inner code body = schema_told env also_told inner body
  | EField _ => element_told env tn tnum also_told inner code body = property_told env also_told body
  | EType (TComposite _) => element_told env tn tnum also_told inner code body = class_told env inner body
  | _ => True
  end.
Proof.
  unfold element_told. repeat match goal with |- context[if ?b then _ else _] => destruct b end; intros E; try discriminate E.
  - destruct e as [| | | |[]| |]; try reflexivity; try exact I; unfold envelope_told in E; not_this E.
  - destruct e as [| | | |[]| |]; try reflexivity; try exact I; unfold schema_told in E; not_this E.
  - destruct e as [| | | |[]| |]; try exact I; unfold fingerprint_told in E; apply then_gives in E as (? & ? & E & _); unfold parse_fingerprint in E; destruct (symbol_of _); discriminate E.
  - destruct e as [| | | |[]| |]; try reflexivity; try exact I; unfold property_told in E; not_this E.
  - destruct e as [| | | |[]| |]; try reflexivity; try exact I; unfold class_told in E; not_this E.
  - destruct e as [| | | |[]| |]; try reflexivity; try exact I; unfold container_told in E; not_this E.
  - destruct e as [| | | |[]| |]; try exact I; unfold parse_choice in E; destruct (text_of _); discriminate E.
  - destruct e as [| | | |[]| |]; try exact I; unfold other_told in E; not_this E.
  - destruct e as [| | | |[]| |]; try exact I; unfold other_told in E; not_this E.
  - destruct e as [| | | |[]| |]; try exact I; unfold other_told in E; not_this E.
  - destruct e as [| | | |[]| |]; try exact I; unfold other_told in E; not_this E.
Qed.
End Reach.
Notation told := (parse_told env tn tnum also_told).
Lemma told_element n t e : snd (told n t) = Gives e -> exists n' code body, n = S n' /\ told n t = element_told env tn tnum also_told (told n') code body.
Proof.
  destruct n as [|n]; [discriminate|]. cbn [parse_told]. destruct t as [a cs0].
  destruct (match a with ADescribed => true | _ => false end) eqn:E; [|destruct a; try discriminate E; discriminate]. destruct a; try discriminate E. clear E. destruct cs0 as [|[b ds] cs]; [discriminate|].
  destruct (match b with AULong _ => true | _ => false end) eqn:E; [|destruct b; try discriminate E; discriminate]. destruct b; try discriminate E. clear E.
  destruct (part 1 _) as [body|]; [|discriminate]. intros _. exists n. do 2 eexists. split; [reflexivity|]. reflexivity.
Qed.
(** Every type that has been read is listed at the end, and every property has been named. *)
Theorem envelope_tells t e : snd (envelope_aloud env tn tnum also_told t) = Gives e ->
  (s_types (e_schema e) = [] \/ within (listed (s_types (e_schema e))) (fst (envelope_aloud env tn tnum also_told t))) /\
  (forall x, In x (List.concat (s_types (e_schema e))) -> within (type_line env x) (fst (envelope_aloud env tn tnum also_told t))) /\
  forall c f, In (TComposite c) (List.concat (s_types (e_schema e))) -> In f (c_fields c) ->
    within (at_line env "FieldDescriptor.cxx" 42 ("FIELD::name: """ ++ f_name f ++ """")) (fst (envelope_aloud env tn tnum also_told t)) /\
    within (at_line env "FieldDescriptor.cxx" 49 ("FIELD::type: """ ++ f_type f ++ """")) (fst (envelope_aloud env tn tnum also_told t)).
Proof.
  unfold envelope_aloud. destruct (described_by t); [|discriminate]. intros E. apply then_gives in E as (x & E & Ex & ->). destruct x; try discriminate. injection Ex as ->. cbn [silent fst]. rewrite append_nil.
  pose proof (told_element _ _ _ E) as (n' & code & body & _ & T). rewrite T in *. pose proof (element_cases _ _ _ _ E) as C. cbv beta iota in C. rewrite C in *. clear C T.
  apply envelope_shown in E as (ts & Es & Hs). 
  pose proof (told_element _ _ _ Es) as (n2 & code2 & body2 & _ & T). rewrite T in *. pose proof (element_cases _ _ _ _ Es) as C. cbv beta iota in C. rewrite C in *. clear C T.
  pose proof (schema_types _ _ _ Es) as R0. apply schema_reach in Es as [R1 R2]. split; [destruct R1; auto|]. split; [auto|]. intros c f Hc Hf. apply R2 in Hc as [[]|(tc & Ec & Hc)].
  pose proof (told_element _ _ _ Ec) as (n3 & code3 & body3 & _ & T). rewrite T in *. pose proof (element_cases _ _ _ _ Ec) as C. cbv beta iota in C. rewrite C in *. clear C T.
  destruct (class_shown _ _ _ _ Ec Hf) as (tf & Ef & Hf'). 
  pose proof (told_element _ _ _ Ef) as (n4 & code4 & body4 & _ & T). rewrite T in *. pose proof (element_cases _ _ _ _ Ef) as C. cbv beta iota in C. rewrite C in *. clear C T.
  apply property_shown in Ef as [P1 P2]. auto.
Qed.

(** ** The payload *)
Section Same.
Context (payload payload' schema : tree) (after : list tree).
Hypothesis V : veiled payload payload'.
Let t := described 1 (list_of (payload :: schema :: after)).
Let t' := described 1 (list_of (payload' :: schema :: after)).
Lemma same_told : envelope_aloud env tn tnum also_told t' = envelope_aloud env tn tnum also_told t.
Proof.
  unfold envelope_aloud. assert (E : told (S (height t')) t' = told (S (height t)) t); [|now rewrite E].
  unfold t'. rewrite (same_height payload payload' schema after V). fold t. generalize (height t) as n. intros n. unfold t, described, list_of, leaf. cbn [parse_told].
  assert (P : forall p, part 1 (Node ADescribed [Node (AULong (vendor 1)) []; Node AList (p :: schema :: after)]) = Some (Node AList (p :: schema :: after))) by reflexivity.
  assert (P0 : forall p, part 0 (Node AList (p :: schema :: after)) = Some p) by reflexivity.
  assert (P1 : forall p, part 1 (Node AList (p :: schema :: after)) = Some schema) by reflexivity.
  rewrite !P. cbn [there]. unfold element_told.
  destruct (N.eqb (vendor 1) 22); [reflexivity|]. rewrite N.eqb_refl. unfold envelope_told. rewrite !P0, !P1. cbn [there].
  pose proof (veiled_view _ _ V) as (S & _ & P2). destruct (tree_atom payload) eqn:Ea; cbn in S; destruct (tree_atom payload') eqn:Eb; try discriminate; try contradiction; try reflexivity.
  now rewrite P2.
Qed.
Lemma all_alike double answers mo kf rs cf : discreet answers ->
  alike_heard whatever (inspected_all_aloud env tn tnum also_told double answers mo kf rs cf t) (inspected_all_aloud env tn tnum also_told double answers mo kf rs cf t').
Proof.
  intros D. unfold inspected_all_aloud. rewrite same_told. eapply alike_then; [apply (alike_same eq); reflexivity|]. intros e _ <-.
  eapply alike_then; [apply (alike_same eq); reflexivity|]. intros _ _ _. destruct (payload_type e) as [n|]; [|now split].
  unfold payload_aloud. unfold t'. rewrite (same_height payload payload' schema after V). fold t'.
  assert (P : forall p, part 1 (described 1 (list_of (p :: schema :: after))) = Some (Node AList (p :: schema :: after))) by reflexivity.
  unfold t at 1, t' at 1. rewrite !P. unfold must_be_list.
  eapply (alike_then (fun b b' => b = Node AList (payload :: schema :: after) /\ b' = Node AList (payload' :: schema :: after))).
  { eapply alike_then; [apply (alike_same eq); reflexivity|]. intros _ _ _. now apply alike_gives. }
  intros b b' [-> ->]. cbn [tree_children length]. destruct (Nat.eqb _ 3); [|now split].
  eapply alike_then; [|intros x x' _; now apply alike_gives]. apply aloud_alike; [now apply serialisers_alike|exact V].
Qed.
End Same.
End Shown.
