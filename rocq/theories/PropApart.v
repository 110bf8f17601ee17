(** Property theorems C98: what can be told from the text that inspection gives.
    Specification: SpecApart.v (what two values have to share to look the same),
    SpecReaders.v (values, their wire form and which conform to a schema).
    The parameters are those of PropReaders.v. *)
From Verif Require Import SpecTypes Base Proton ProtonProofs TypeNames Schema SpecSchema SchemaProofs Descriptors SpecDescriptors DescriptorsProofs
  Factory SpecFactory FactoryProofs Readers SpecReaders Blob Numbers ReadersProofs InspectProofs SpecApart ApartProofs.
Import List ListNotations.
Open Scope string_scope.

(** Two objects of the same class of a schema, inspected by any two factories of
    any two histories: the texts are the same if and only if the objects differ in
    nothing but what is not shown. *)
Theorem C98_told_apart_partial : forall fmt custom mo kf fuel groups,
  Forall readable_type (List.concat groups) ->
  exists ts, Forall2 type_means (List.concat groups) ts /\
    forall t x v h cf text st x' w h' cf' text' st',
      (forall b, word (fmt b)) -> constants_are_words ts ->
      (forall u, In u ts -> SpecTypes.primitive_name (n_name u) = false) -> distinct_fingerprints ts -> In t ts ->
      height (envelope_tree (encode v) groups [x]) < fuel -> run mo h new_factory cf -> consistent h ts ->
      conforms ts (n_name t) v -> fingerprint_of v = Some (n_descriptor t) -> kf = true \/ map_free v -> without_quotes v ->
      dumpContents fmt custom mo kf fuel (decoded (envelope_tree (encode v) groups [x]), cf) = Ok text st ->
      height (envelope_tree (encode w) groups [x']) < fuel -> run mo h' new_factory cf' -> consistent h' ts ->
      conforms ts (n_name t) w -> fingerprint_of w = Some (n_descriptor t) -> kf = true \/ map_free w -> without_quotes w ->
      dumpContents fmt custom mo kf fuel (decoded (envelope_tree (encode w) groups [x']), cf') = Ok text' st' ->
      (text = text' <-> indistinct fmt v w).
Proof.
  intros fmt custom mo kf fuel groups Hg. destruct (type_results _ Hg) as (ts & H1 & H2 & H3). exists ts. split; [exact H2|].
  intros t x v h cf text st x' w h' cf' text' st' Hd Hw Hn Hf Ht A1 A2 A3 A4 A5 A6 A7 A8 B1 B2 B3 B4 B5 B6 B7 B8.
  pose proof A3 as [U _].
  apply (shown_text fmt custom mo kf fuel groups ts x v h cf t) in A8; auto.
  apply (shown_text fmt custom mo kf fuel groups ts x' w h' cf' t) in B8; auto. subst text text'. split; intros E.
  - eapply whole_apart; eauto. intros a b Ha Hb Eab. apply (U b a Hb); [|exact Eab]. apply in_or_app. now right.
  - now rewrite (indistinct_printed fmt v w E).
Qed.
Print Assumptions C98_told_apart_partial.

(** The text the C++ library gives for a double is such a word. *)
Theorem C98_doubles_are_words : forall bits, word (double_text bits).
Proof. intros bits. apply printf_word. Qed.
Print Assumptions C98_doubles_are_words.

(** Two objects with a map, lists, an enum and null in them. *)
Definition v_other : value := VObject "net.corda:net.A"
  [("m", VMap "net.corda:java.util.Map<string, java.util.List<net.B>>"
     [(VString "k, l", VList "net.corda:java.util.List<net.B>" [b_value 7; VNull; b_value (-12)])]);
   ("e", VEnum "net.corda:net.E" "B" 1)].
Example C98_ex : Forall readable_type (List.concat [wires_mixed]) /\ Forall2 type_means (List.concat [wires_mixed]) ts_mixed /\
  constants_are_words ts_mixed /\ distinct_fingerprints ts_mixed /\ without_quotes v_mixed /\ without_quotes v_other /\
  conforms ts_mixed "net.A" v_mixed /\ ~ indistinct double_text v_mixed v_other /\
  indistinct double_text (VObject "net.corda:net.A" [("e", VEnum "net.corda:net.E" "B" 1)]) (VObject "net.corda:net.A" [("e", VEnum "net.corda:net.E" "B" 0)]) /\
  forall fmt custom mo, exists st st' text text',
    dumpContents fmt custom mo true 20 (decoded (envelope_tree (encode v_mixed) [wires_mixed] [leaf ANull]), new_factory) = Ok text st /\
    dumpContents fmt custom mo true 20 (decoded (envelope_tree (encode v_other) [wires_mixed] [leaf ANull]), new_factory) = Ok text' st' /\
    text <> text'.
Proof.
  split; [apply mixed_readable|]. split; [apply mixed_means|]. split.
  { intros r c [E|[E|[E|[E|[E|[]]]]]]; try discriminate E; injection E as <-; cbn; intros _ K; repeat (destruct K as [<-|K]; [repeat split; cbn; try discriminate; intuition discriminate|]); contradiction. }
  split; [apply mixed_distinct|]. split; [cbn; intuition discriminate|]. split; [cbn; intuition discriminate|].
  split; [apply mixed_conforms|]. split.
  { intros A. inversion A as [| | | | | | |? ? ? F| | |]; subst. inversion F as [|? ? ? ? [_ K] _]; subst. cbn in K.
    inversion K as [| | | | | | | | |? ? ? G|]; subst. inversion G as [|? ? ? ? [L _] _]; subst. inversion L. }
  split; [repeat constructor|]. intros fmt custom [|]; do 4 eexists; (split; [vm_compute; reflexivity|]); (split; [vm_compute; reflexivity|]); discriminate.
Qed.

(** Not so with quotation marks, which are shown as they are: two different pairs of
    strings that look the same, for all x, y and z. *)
Theorem C98_quotes_refuted : forall fmt custom mo kf x y z,
  let blob v := decoded (envelope_tree (encode v) pair_schema [leaf ANull]) in
  let v := pair_value (x ++ """, q : """ ++ y) z in
  let w := pair_value x (y ++ """, q : """ ++ z) in
  v <> w /\ exists text cf cf',
    dumpContents fmt custom mo kf 20 (blob v, new_factory) = Ok text (blob v, cf) /\
    dumpContents fmt custom mo kf 20 (blob w, new_factory) = Ok text (blob w, cf').
Proof.
  intros fmt custom mo kf x y z blob v w. split.
  { intros E. injection E as E _. apply (f_equal String.length) in E. revert E. clear. induction x; cbn; [discriminate|]. intros E. injection E. auto. }
  destruct (pair_shown fmt custom mo kf (x ++ """, q : """ ++ y) z) as (cf & E1), (pair_shown fmt custom mo kf x (y ++ """, q : """ ++ z)) as (cf' & E2).
  exists ("{ Parsed : { p : """ ++ x ++ """, q : """ ++ y ++ """, q : """ ++ z ++ """ } }"), cf, cf'. split.
  - subst blob v w. cbv beta. rewrite E1. refine (f_equal (fun x => Ok x _) _). cbn [printed pair_value map fst snd String.concat append]. repeat (rewrite app_assoc_s; cbn [append]). reflexivity.
  - subst blob v w. cbv beta. rewrite E2. refine (f_equal (fun x => Ok x _) _). cbn [printed pair_value map fst snd String.concat append]. repeat (rewrite app_assoc_s; cbn [append]). reflexivity.
Qed.
Print Assumptions C98_quotes_refuted.

(** Nor is the class shown: objects of two classes with the same property. *)
Theorem C98_classes_refuted : forall fmt custom mo kf z,
  let blob v := decoded (envelope_tree (encode v) twin_schema [leaf ANull]) in
  let v := VObject "net.corda:net.B" [("n", VInt z)] in
  let w := VObject "net.corda:net.C" [("n", VInt z)] in
  exists text cf cf',
    dumpContents fmt custom mo kf 20 (blob v, new_factory) = Ok text (blob v, cf) /\
    dumpContents fmt custom mo kf 20 (blob w, new_factory) = Ok text (blob w, cf').
Proof.
  intros fmt custom mo kf z blob v w.
  destruct (twin_shown fmt custom mo kf "net.B" z (or_introl eq_refl)) as (cf & E1),
    (twin_shown fmt custom mo kf "net.C" z (or_intror (or_introl eq_refl))) as (cf' & E2).
  eexists _, cf, cf'. subst blob v w. split; [exact E1|exact E2].
Qed.
Print Assumptions C98_classes_refuted.
