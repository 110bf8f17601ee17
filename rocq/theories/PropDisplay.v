(** Property theorems C68, C69: what inspection accepts and shows of any payload,
    well formed or not; serialisers installed by the user and public keys.
    Specification: SpecDisplay.v, SpecInstalled.v and SpecAccept.v.
    [fmt], [custom], [mo], [kf] and [fuel] are as in PropReaders.v. *)
From Coq Require Import Lia.
From Verif Require Import SpecTypes Base Proton ProtonProofs TypeNames Schema SpecSchema SchemaProofs SpecOrdering Descriptors SpecDescriptors
  Factory SpecFactory FactoryProofs Readers SpecReaders Blob ReadersProofs InspectProofs SpecAccept AcceptProofs SpecDisplay SpecInstalled DisplayProofs
  ContentsProofs.
Import List ListNotations.
Open Scope string_scope.

(** C68, for any blob at all and a factory with any history.  If something is
    shown, there is an envelope of three parts, its schema holds [e], and the text
    shows the first part as a value of the type whose fingerprint it has. *)
Theorem C68_shown_is_there : forall fmt custom mo kf fuel tells h cf, custom_as custom tells -> run mo h new_factory cf ->
  forall t text st', dumpContents fmt custom mo kf fuel (decoded t, cf) = Ok text st' ->
  exists e, accepted_envelope t e /\ Forall made (List.concat (s_types (e_schema e))) /\
  forall n, let ts := List.concat (s_types (e_schema e)) in
    (forall u, In u ts -> SpecTypes.primitive_name (n_name u) = false) -> consistent h ts -> covered h ts -> one_name_per_fingerprint ts ->
    In n ts -> n_descriptor n = e_descriptor e ->
    fst st' = decoded t /\ exists body p x, part 1 t = Some body /\ tree_atom body = AList /\ length (tree_children body) = 3 /\ part 0 body = Some p /\
      displays fmt dec kf ts (installed_by tells h) true (n_name n) (Some p) x /\ text = "{ Parsed : " ++ x ++ " }".
Proof. exact shown_is_there. Qed.
Print Assumptions C68_shown_is_there.

(** C68, exactly: with a factory all of whose operations succeeded and a schema
    as in C31, a payload of any form is shown as [y] if and only if it displays
    as [y]. *)
Theorem C68_shown_exactly : forall fmt custom mo kf fuel tells h cf, custom_as custom tells -> run_well mo h new_factory cf ->
  forall groups x fp body, Forall readable_type (List.concat groups) ->
  let blob := envelope_tree (payload_tree fp body) groups [x] in height blob < fuel ->
  exists ts, Forall2 type_means (List.concat groups) ts /\ Forall entry_ok ts /\
  forall n, regular ts -> listed ts -> closed cf ts ->
    (forall u, In u ts -> SpecTypes.primitive_name (n_name u) = false) -> consistent h ts -> covered h ts -> distinct_fingerprints ts ->
    In n ts -> n_descriptor n = fp -> forall text,
    (exists st', dumpContents fmt custom mo kf fuel (decoded blob, cf) = Ok text st') <->
    exists y, displays fmt dec kf ts (installed_by tells h) true (n_name n) (Some (payload_tree fp body)) y /\ text = "{ Parsed : " ++ y ++ " }".
Proof.
  intros fmt custom mo kf fuel tells h cf Hc R groups x fp body Hg blob Hh. apply successes_clean in R as [R Hclean].
  exact (shown_exactly fmt custom mo kf fuel tells h cf Hc R groups x fp body Hg Hh Hclean).
Qed.
Print Assumptions C68_shown_exactly.

(** Every value that conforms to the schema is displayed, as in C31. *)
Theorem C68_values_displayed : forall fmt numeral kf inst ts v named ty, kf = true \/ map_free v -> conforms ts ty v ->
  displays fmt numeral kf ts inst named ty (Some (encode v)) (printed fmt numeral v).
Proof. exact conforming_displayed. Qed.
Print Assumptions C68_values_displayed.

(** No serialisers installed. *)
Definition no_custom : nat -> option string -> PM ivalue := fun _ _ => throw RuntimeError.
Lemma no_custom_as : custom_as no_custom (fun _ _ _ _ => False).
Proof. intros which name d _. split; [intros v d' H; discriminate|intros x []]. Qed.
Lemma closed_covered h ts : closed new_factory ts -> covered h ts.
Proof. intros H t k Ht Hk. destruct (H t k Ht Hk) as [A|[A|A]]; [auto|now elim A|auto]. Qed.
Lemma mixed_nonprim : forall u, In u ts_mixed -> SpecTypes.primitive_name (n_name u) = false.
Proof. pose proof ts_mixed_proper as P. rewrite Forall_forall in P. intros u Hu. now apply P. Qed.
Lemma consistent_new ts : (forall t u, In t ts -> In u ts -> n_name u = n_name t -> u = t) -> consistent [] ts.
Proof. intros H. split; [intros t u Ht Hu; apply H; auto|intros r []]. Qed.
Lemma named_nodup ts : NoDup (map n_name ts) -> forall t u, In t ts -> In u ts -> n_name u = n_name t -> u = t.
Proof.
  induction ts as [|a ts IH]; intros N t u Ht Hu E; [destruct Ht|]. cbn [map] in N. inversion N as [|? ? N1 N2]; subst.
  destruct Ht as [<- |Ht], Hu as [<- |Hu]; try (now auto); exfalso; apply N1, in_map_iff; eauto.
Qed.
Example C68_ex : run_well true [] new_factory new_factory /\ Forall readable_type (List.concat [wires_mixed]) /\
  Forall2 type_means (List.concat [wires_mixed]) ts_mixed /\ regular ts_mixed /\ listed ts_mixed /\ closed new_factory ts_mixed /\
  (forall u, In u ts_mixed -> SpecTypes.primitive_name (n_name u) = false) /\ consistent [] ts_mixed /\ covered [] ts_mixed /\ distinct_fingerprints ts_mixed /\
  displays (fun _ => "") dec true ts_mixed (installed_by (fun _ _ _ _ => False) []) true "net.A" (Some (encode v_mixed))
    "{ m : { ""k"" : [ { n : 7 }, <<NULL>>, { n : -12 } ], ""l"" : [  ] }, e : B }".
Proof.
  destruct ts_mixed_first as [H H']. split; [constructor|]. split; [apply mixed_readable|]. split; [apply mixed_means|]. split; [exact H|].
  split; [now apply first_listed|]. split; [apply ts_mixed_closed|]. split; [apply mixed_nonprim|].
  split; [apply consistent_new, named_nodup; let x := eval vm_compute in (map n_name ts_mixed) in change (NoDup x); repeat constructor; simpl; intuition discriminate|].
  split; [apply closed_covered, ts_mixed_closed|]. split; [apply mixed_distinct|].
  pose proof (C68_values_displayed (fun _ => "") dec true (installed_by (fun _ _ _ _ => False) []) ts_mixed v_mixed true "net.A" (or_introl eq_refl) mixed_conforms) as D.
  vm_compute in D. exact D.
Qed.

(** C68: payloads that do not conform are shown all the same.  The classes are
    [P] with the properties a and b, [Q] with c and d, and [R] with a [P]. *)
Definition wires_pair : list wire_type :=
  [ wire_class_of "net.P" [plain_field "a" "int" []; plain_field "b" "int" []];
    wire_class_of "net.Q" [plain_field "c" "string" []; plain_field "d" "long" []];
    wire_container_of "java.util.List<int>" "list" [];
    wire_class_of "net.R" [plain_field "p" "net.P" []; plain_field "l" "*" ["java.util.List<int>"]] ].
Definition pair_blob (p l : tree) : tree :=
  envelope_tree (payload_tree "net.corda:net.R" [list_of [p; l]]) [wires_pair] [leaf ANull].
Definition pair_shown (p l : tree) (x : string) : Prop := forall fmt custom mo kf fuel, 9 <= fuel -> exists cf,
  dumpContents fmt custom mo kf fuel (decoded (pair_blob p l), new_factory) = Ok ("{ Parsed : " ++ x ++ " }") (decoded (pair_blob p l), cf).
Definition ints (cs : list tree) : tree := payload_tree "net.corda:java.util.List<int>" [list_of cs].
Lemma text_assoc (a b c : string) : (a ++ b) ++ c = a ++ b ++ c.
Proof. induction a as [|? a IH]; [reflexivity|]. cbn [append]. now rewrite IH. Qed.
Ltac run_pair := intros fmt custom mo kf fuel H; do 9 (destruct fuel as [|fuel]; [lia|]); clear H; eexists;
  eapply contents_steps; [vm_compute; reflexivity|destruct mo; vm_compute; reflexivity|vm_compute; reflexivity|vm_compute; reflexivity|];
  destruct mo, kf; cbv -[append dec];
  refine (f_equal (fun x => Ok x _) _); cbn [append]; rewrite ?text_assoc; cbn [append]; rewrite ?text_assoc; reflexivity.
(** A property is missing: the one before it is shown in its place. *)
Theorem C68_missing_property_refuted : forall z,
  pair_shown (payload_tree "net.corda:net.P" [list_of [leaf (AInt z)]]) (ints []) ("{ p : { a : " ++ dec z ++ ", b : " ++ dec z ++ " }, l : [  ] }").
Proof. intros z. run_pair. Qed.
Print Assumptions C68_missing_property_refuted.
(** A property too many: not shown. *)
Theorem C68_surplus_property_refuted : forall a b t,
  pair_shown (payload_tree "net.corda:net.P" [list_of [leaf (AInt a); leaf (AInt b); t]]) (ints []) ("{ p : { a : " ++ dec a ++ ", b : " ++ dec b ++ " }, l : [  ] }").
Proof. intros a b t. run_pair. Qed.
Print Assumptions C68_surplus_property_refuted.
(** An object of another class with as many properties: shown with the names of
    that class, but not with its values. *)
Theorem C68_other_class_refuted : forall s z,
  pair_shown (payload_tree "net.corda:net.Q" [list_of [str s; leaf (ALong z)]]) (ints []) "{ p : { c : 0, d : 0 }, l : [  ] }".
Proof. intros s z. run_pair. Qed.
Print Assumptions C68_other_class_refuted.
(** Not a list, but for example a map or a number: shown as an empty list. *)
Theorem C68_not_a_list_refuted : forall a cs, a <> AList ->
  pair_shown (leaf ANull) (payload_tree "net.corda:java.util.List<int>" [Node a cs]) "{ p : <<NULL>>, l : [  ] }".
Proof. intros a cs Ha. destruct cs; destruct a; try (now elim Ha); clear Ha; run_pair. Qed.
Print Assumptions C68_not_a_list_refuted.
(** A list of another type, here a [P]. *)
Theorem C68_other_fingerprint_refuted : forall z,
  pair_shown (leaf ANull) (payload_tree "net.corda:net.P" [list_of [leaf (AInt z)]]) ("{ p : <<NULL>>, l : [ " ++ dec z ++ " ] }").
Proof. intros z. run_pair. Qed.
Print Assumptions C68_other_fingerprint_refuted.

(** C69: for a type with an installed serialiser, that serialiser alone decides
    what is shown. *)
Theorem C69_installed_decides : forall fmt numeral kf mo h cf ts tells named o x r, run mo h new_factory cf -> consistent h ts -> In (Install r) h ->
  displays fmt numeral kf ts (installed_by tells h) named (reader_type r) o x ->
  match r with RPublicKey => named = true /\ public_key o /\ x = "<<<Public Key>>>" | RCustom _ which => tells which named o x | _ => False end.
Proof. exact installed_decides. Qed.
Print Assumptions C69_installed_decides.

(** C69: as a property, a public key is anything described with bytes, and none
    of it is shown. *)
Theorem C69_key_property : forall fmt numeral kf mo h cf ts tells o x, run mo h new_factory cf -> consistent h ts -> In (Install RPublicKey) h ->
  displays fmt numeral kf ts (installed_by tells h) true "java.security.PublicKey" o x <-> public_key o /\ x = "<<<Public Key>>>".
Proof.
  intros fmt numeral kf mo h cf ts tells o x R Hc Hr. split.
  - intros H. exact (proj2 (installed_decides _ _ _ _ _ _ _ _ _ _ _ _ R Hc Hr H)).
  - intros [H1 H2]. apply shows_installed. exists RPublicKey. auto.
Qed.
Print Assumptions C69_key_property.

(** C69 fails for collections: no list of public keys with an element is ever
    shown, whatever the element. *)
Theorem C69_key_elements_refuted : forall fmt custom mo kf fuel tells h cf, custom_as custom tells -> run_well mo h new_factory cf ->
  In (Install RPublicKey) h ->
  forall groups x fp k ks, Forall readable_type (List.concat groups) ->
  let blob := envelope_tree (payload_tree fp [list_of (k :: ks)]) groups [x] in height blob < fuel ->
  exists ts, Forall2 type_means (List.concat groups) ts /\ Forall entry_ok ts /\
  forall l, regular ts -> listed ts -> closed cf ts ->
    (forall u, In u ts -> SpecTypes.primitive_name (n_name u) = false) -> consistent h ts -> covered h ts -> distinct_fingerprints ts ->
    In (TRestricted l) ts -> r_descriptor l = fp -> r_kind l = list_t -> r_of l = ["java.security.PublicKey"] ->
    forall text st', dumpContents fmt custom mo kf fuel (decoded blob, cf) <> Ok text st'.
Proof.
  intros fmt custom mo kf fuel tells h cf Hcu R Hr groups x fp k ks Hg blob Hh.
  destruct (C68_shown_exactly fmt custom mo kf fuel tells h cf Hcu R groups x fp [list_of (k :: ks)] Hg Hh) as (ts & A & B & C).
  exists ts. split; [exact A|]. split; [exact B|]. intros l H1 H2 H3 H4 H5 H6 H7 Hl Hf Hk Ho text st' E.
  destruct (proj1 (C (TRestricted l) H1 H2 H3 H4 H5 H6 H7 Hl Hf text) ltac:(eauto)) as (y & D & _).
  apply successes_clean in R as [R _]. clear C. unfold n_name in D.
  assert (U : forall u, In u ts -> n_name u = r_name l -> u = TRestricted l) by (intros u Hu Eu; apply (proj1 H5); auto; apply in_or_app; auto).
  inversion D; subst;
    try (match goal with X : In ?t ts, Y : _ = r_name l |- _ => pose proof (U t X Y) as Z; first [discriminate Z|injection Z as <-] end; try congruence).
  all: try (match goal with X : _ = r_name ?r, Y : In (TRestricted ?r) ?ts, P : forall u, In u ?ts -> SpecTypes.primitive_name _ = false |- _ =>
    apply P in Y; cbn [n_name] in Y; rewrite <- X in Y; discriminate Y end).
  - match goal with X : part 1 _ = Some ?b, Y : r_of _ = [?e], Z : Forall2 _ (elements ?b) _ |- _ =>
      injection X as <-; rewrite Ho in Y; injection Y as <-; cbn in Z; inversion Z as [|? ? ? ? K _]; subst end.
    pose proof (installed_decides _ _ _ _ _ _ _ _ _ _ _ RPublicKey R H5 Hr K) as [W _]. discriminate W.
  - match goal with X : installed_by _ _ _ _ _ _ |- _ => destruct X as (r & Hr' & Er & _) end. now apply (proj2 (proj2 H5 r Hr') (TRestricted l) Hl).
Qed.
Print Assumptions C69_key_elements_refuted.

(** A class with a public key, shown by a factory that has the serialiser for
    public keys: nothing of the key is shown. *)
Definition key_blob (fp bits : string) : tree :=
  envelope_tree (payload_tree "net.corda:net.A" [list_of [payload_tree fp [leaf (ABinary bits)]]])
    [[wire_class_of "net.A" [plain_field "k" "java.security.PublicKey" []]]] [leaf ANull].
Theorem C69_key_shown : forall fmt custom mo kf fuel fp bits, 9 <= fuel -> exists cf cf', run_well mo [Install RPublicKey] new_factory cf /\
  dumpContents fmt custom mo kf fuel (decoded (key_blob fp bits), cf) = Ok "{ Parsed : { k : <<<Public Key>>> } }" (decoded (key_blob fp bits), cf').
Proof.
  intros fmt custom mo kf fuel fp bits H; do 9 (destruct fuel as [|fuel]; [lia|]); clear H. do 2 eexists.
  split; [econstructor; [split; [exact I|reflexivity]|vm_compute; reflexivity|constructor]|].
  eapply contents_steps; [vm_compute; reflexivity|destruct mo; vm_compute; reflexivity|vm_compute; reflexivity|vm_compute; reflexivity|].
  destruct mo, kf; vm_compute; reflexivity.
Qed.
Print Assumptions C69_key_shown.
Example C69_ex : consistent [Install RPublicKey] has_key /\ covered [Install RPublicKey] has_key /\
  public_key (Some (payload_tree "net.corda:k" [leaf (ABinary "bits")])).
Proof.
  assert (N : forall t, In t has_key -> n_name t = "net.A") by (intros t [<- |[]]; reflexivity). repeat split.
  - intros t u Ht Hu _. destruct Ht as [<- |[]], Hu as [<- |[]]. reflexivity.
  - destruct H as [H|[]]. injection H as <-. reflexivity.
  - destruct H as [H|[]]. injection H as <-. intros t Ht. rewrite (N t Ht). discriminate.
  - intros t k [<- |[]] (fd & [<- |[]] & Hk). injection Hk as <-. right. right. exists RPublicKey. split; [now left|reflexivity].
  - eexists. repeat split. eexists. split; [reflexivity|]. now exists "bits".
Qed.
