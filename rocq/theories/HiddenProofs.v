(** Programs whose objects cannot be inspected (SpecPrograms.v). *)
From Coq Require Import Sorting.Sorted Permutation Lia.
From Verif Require Import Base Proton ProtonProofs TypeNames SpecTypes TypeNamesProofs MakePrimProofs Schema SpecSchema SchemaProofs
  SpecOrdering Descriptors SpecDescriptors DescriptorsProofs
  Factory SpecFactory FactoryProofs Readers SpecReaders Blob ReadersProofs SpecAccept SpecDisplay SpecInstalled ContentsProofs
  Writer SpecWriter WriterProofs SpecWriteRead WriteReadProofs Programs SpecPrograms ProgramsProofs.
Import List ListNotations.
Open Scope string_scope.

Section Program.
Context (P : program).
Hypothesis (HP : in_order P).

(** ** The schema can be read *)
Lemma properties_typed k i : forall t, property_type_ok P t -> of_type P t i ->
  Forall (fun p => exists d, property_type_ok P (snd d) /\ matches P d p) (properties_of k i).
Proof.
  set (Q := fun p => exists d, _).
  assert (Flat : forall A (f : A -> list (string * (string * item))) l, (forall a, In a l -> Forall Q (f a)) -> Forall Q (flat_map f l)).
  { intros A f l. induction l as [|a l IH]; cbn; [constructor|]. intros H. apply Forall_app. auto. }
  induction i using item_induction; intros u Ht HT; cbn [properties_of]; try (now constructor).
  - apply type_object in HT as (c & -> & Hc & -> & -> & Hm); auto. apply Flat. intros p Hp.
    destruct (matches_in P HP _ _ _ Hc Hm Hp) as (d & Hd & Hd' & Hq). apply Forall_app. split.
    + destruct (key_eqb k _); constructor; [|constructor]. exists d. auto.
    + rewrite Forall_forall in H. destruct Hq as (_ & _ & Hv). eapply H; eauto.
  - apply (type_vector P HP) in HT as (e & -> & Hc & He & -> & -> & Hm); auto. apply Flat. intros p Hp.
    rewrite Forall_forall in H, Hm. apply (H p Hp e); auto using element_property.
  - apply (type_map P HP) in HT as (kk & v & -> & Hc & Hk & Hv & -> & -> & Hm); auto. apply Flat. intros p Hp.
    rewrite Forall_forall in H, Hm. destruct (H p Hp) as [A B]. destruct (Hm p Hp) as [C D]. apply Forall_app. split; [eapply A; [|exact C]|eapply B; [|exact D]]; now apply element_property.
  - cbn in HT. destruct u as [| | | | |u]; try contradiction. apply (IHi u); [|exact HT]. now apply listed_property.
Qed.
Lemma listed_name t : In t (types_of P) -> isArray (java_of t) = Ret false /\ java_of t <> "*" /\ typeIsPrimitive (java_of t) = false /\ java_of t <> "char" /\
  match t with Vector _ | Map _ _ => isContainer (java_of t) = Ret true /\ exists parts, nestedGenericTypes (java_of t) = Ret parts | _ => True end.
Proof.
  intros Ht. pose proof (occurs_as_ok P HP _ (ex_intro _ t (conj Ht eq_refl))) as H. unfold occurrence_ok in H. cbn [fst snd] in H.
  pose proof (listed_ok P HP _ Ht) as K. destruct t as [| |c|e|k v|]; try contradiction; cbn [kind_of] in H.
  - destruct H as (H1 & H2 & H3). repeat split; auto. rewrite (java_class P HP) by assumption. apply K.
  - pose proof H as (H1 & H2 & H3 & H4)%container_name_facts. split; [exact H1|]. split; [exact H3|].
    split; [now apply container_not_primitive|]. split; [|now split].
    intros E. rewrite E in H2. vm_compute in H2. discriminate.
  - pose proof H as (H1 & H2 & H3 & H4)%container_name_facts. split; [exact H1|]. split; [exact H3|].
    split; [now apply container_not_primitive|]. split; [|now split].
    intros E. rewrite E in H2. vm_compute in H2. discriminate.
Qed.
Lemma declared_acceptable d : property_type_ok P (snd d) ->
  acceptable (declared_field d) /\ (w_type (declared_field d) = "*" -> w_requires (declared_field d) <> []).
Proof.
  destruct d as [n t]. cbn [snd]. intros Ht.
  assert (Pr : forall f p, w_type f = m_type p -> acceptable f /\ (w_type f = "*" -> w_requires f <> [])).
  { intros f p E. rewrite acceptable_iff, E. split; [|destruct p; discriminate].
    destruct p; (left; reflexivity) || (right; left; split; [vm_compute; reflexivity|discriminate]). }
  destruct t as [p|p|c|e|k v|t]; cbn [property_type_ok] in Ht.
  1, 2: now apply Pr with (p := p).
  all: rewrite acceptable_iff.
  - apply listed_name in Ht as (H1 & H2 & _). split; [right; left; auto|]. cbn [declared_field w_type snd]. intros; contradiction.
  - apply listed_name in Ht as (_ & _ & _ & _ & H1 & H2). split; [|discriminate].
    right; right; right; left. split; [reflexivity|]. split; [do 2 eexists; split; [reflexivity|exact H1]|]. constructor; auto.
  - apply listed_name in Ht as (_ & _ & _ & _ & H1 & H2). split; [|discriminate].
    right; right; right; left. split; [reflexivity|]. split; [do 2 eexists; split; [reflexivity|exact H1]|]. constructor; auto.
  - apply listed_name in Ht as (H1 & H2 & _). change (java_of t) with (java_of (Pointer t)) in *. split; [right; left; auto|]. cbn [declared_field w_type snd]. intros; contradiction.
Qed.
Lemma typed_readable T root ws : In T (types_of P) -> of_type P T root -> schema_for root ws -> Forall readable_type ws.
Proof.
  intros HT HR HS. eapply entries_schema_readable; [eapply root_occurrences; eauto|exact HS|].
  intros k p Hp. pose proof (properties_typed k root T (listed_property P HP _ HT) HR) as H. rewrite Forall_forall in H.
  destruct (H p Hp) as (d & Hd & Hm). unfold property_ok. rewrite (matches_field P d p Hm). now apply declared_acceptable.
Qed.

(** The type by which the elements and properties are read. *)
Definition name_for (t : cpp) : string := match t with Prim p | PrimPtr p => m_type p | _ => java_of t end.
Lemma declared_type d fd : property_type_ok P (snd d) -> field_means (declared_field d) fd -> SpecSchema.property_type fd = Some (name_for (snd d)).
Proof.
  destruct d as [n t]. cbn [snd]. intros Ht (E1 & E2 & E3 & _). unfold SpecSchema.property_type. rewrite E2.
  assert (Nm : forall u, In u (types_of P) -> String.eqb (java_of u) "*" = false).
  { intros u Hu. destruct (String.eqb_spec (java_of u) "*") as [E|]; [|reflexivity]. destruct (listed_name u Hu) as (_ & N & _). contradiction. }
  destruct t as [p|p|c|e|k v|t]; cbn [property_type_ok] in Ht; cbn [declared_field w_type w_requires snd name_for] in *.
  - destruct p; reflexivity.
  - destruct p; reflexivity.
  - now rewrite Nm.
  - cbn. now rewrite E3.
  - cbn. now rewrite E3.
  - change (java_of (Pointer t)) with (java_of t). now rewrite Nm.
Qed.

(** ** What the factory must know *)
Lemma reads_found f t r k : reads f t r -> named_by t k -> exists i, byType f k = Some i.
Proof.
  destruct t as [c|x]; cbn.
  - intros (ks & _ & H) (fd & Hfd & Hk). destruct (Forall2_find _ _ _ _ H Hfd) as (i & _ & ty & E & Hi). exists i. congruence.
  - destruct (r_kind x); try (intros _ []).
    1, 3: intros (e & i & _ & -> & H) [<- |[]]; eauto.
    intros (k0 & v & i & j & _ & -> & H1 & H2) [<- |[<- |[]]]; eauto.
Qed.
Lemma processed_covered mo h cf s cf' : run mo h new_factory cf -> Forall proper (List.concat (s_types s)) -> process mo s cf = Ok tt cf' ->
  consistent h (List.concat (s_types s)) -> entries_of h = [] -> covered h (List.concat (s_types s)).
Proof.
  intros R Hp HPr [Hc1 Hc2] He t k Ht Hk.
  destruct (processed_reads mo h cf s cf' R Hp HPr t Ht) as (i & r & _ & _ & Hr).
  { intros u Hu E. now apply Hc1. }
  { intros r Hr. now apply Hc2. }
  destruct (reads_found _ _ _ _ Hr Hk) as (j & Hj).
  pose proof (history_backed _ _ _ R) as B. rewrite He in B.
  assert (B' : backed (installed h) (List.concat (s_types s)) cf) by (eapply backed_incl; [apply incl_refl| |exact B]; intros ? []).
  pose proof (entries_backed mo (installed h) _ _ Hp (incl_refl _) cf B') as X. unfold process in HPr. rewrite HPr in X. cbn in X.
  destruct (X k j Hj) as (q & Hq & [(p & -> & E)|[[C E]|(u & Hu1 & Hu2 & Hu3)]]).
  - left. now exists p.
  - right. right. exists q. split; [now apply installed_in|exact E].
  - right. left. eauto.
Qed.

(** ** What can be shown *)
Section Root.
Context (T : cpp) (root : item) (ws : list wire_type) (ts : list notation).
Hypothesis (HT : In T (types_of P)) (HR : of_type P T root) (HS : schema_for root ws) (HM : Forall2 type_means ws ts).
Context (fmt : N -> string) (kf : bool) (tells : nat -> bool -> option tree -> string -> Prop) (h : list op).
Hypothesis (HI : only_installed h root).

Let HO : Forall occurrence_ok (occurrences root) := root_occurrences P HP T root HT HR.
Let HN : no_clash root := root_no_clash P HP T root HT HR.
Let HF : one_fingerprint_each root := root_fingerprints P HP T root HT HR.

Let HJ : same_properties root := root_same P HP T root HT HR.

Lemma entry_named t : In t ts -> In (n_name t) (names_in root).
Proof.
  intros Ht. apply (entries_entry_occurs root ws HO HS ts HM) in Ht. apply in_map_iff in Ht as ([k x] & E & Ho).
  cbn in E. subst k. apply (in_map (fun o => fst (fst o))) in Ho. exact Ho.
Qed.
Lemma named_listed k : In k (names_in root) -> exists u, In u (types_of P) /\ k = java_of u /\ In ((java_of u, fingerprint P u), kind_of u) (occurrences root).
Proof.
  intros H. apply in_map_iff in H as (o & <- & Ho). destruct (root_occurs P HP T root HT HR o Ho) as (u & Hu & ->). exists u. auto.
Qed.
Lemma entry_names t : In t ts -> typeIsPrimitive (n_name t) = false /\ n_name t <> "char".
Proof.
  intros Ht. destruct (named_listed _ (entry_named t Ht)) as (u & Hu & -> & _). destruct (listed_name u Hu) as (_ & _ & A & B & _). auto.
Qed.
Lemma listed_occurs u : In u (types_of P) -> In (java_of u) (names_in root) -> In ((java_of u, fingerprint P u), kind_of u) (occurrences root).
Proof.
  intros Hu H. destruct (named_listed _ H) as (w & Hw & E & Ho). apply (java_inj P HP) in E; auto. now subst w.
Qed.
Lemma vector_entry e : In (Vector e) (types_of P) -> In (java_of (Vector e)) (names_in root) ->
  exists x, In (TRestricted x) ts /\ r_name x = java_of (Vector e) /\ r_kind x = list_t /\ r_of x = [java_of e].
Proof.
  intros Hu H. pose proof (listed_occurs _ Hu H) as Ho. cbn [kind_of] in Ho.
  pose proof (listed_ok P HP _ Hu) as He. pose proof (element_good P HP _ He) as Ge.
  destruct (entries_find_container root ws HO HN HS ts HM _ _ _ Ho) as (r & x & _ & Hx & Er & En & _ & Hk). exists x. split; [exact Hx|]. split; [exact En|].
  rewrite (java_print (Vector e)) in Er by exact (listed_good P HP _ Hu). cbn [texp_of] in Er.
  destruct Hk as [(e' & En' & He' & K1 & K2)|(k' & v' & En' & _)]; [|rewrite En' in Er; discriminate].
  assert (e' = texp_of e) by (apply (print_injective "" e' (texp_of e)); [constructor|apply simple_plain; apply Ge || assumption..|apply list_parts; congruence]). subst e'.
  rewrite (java_print e Ge). auto.
Qed.
Lemma map_entry k v : In (Map k v) (types_of P) -> In (java_of (Map k v)) (names_in root) ->
  exists x, In (TRestricted x) ts /\ r_name x = java_of (Map k v) /\ r_kind x = map_t /\ r_of x = [java_of k; java_of v].
Proof.
  intros Hu H. pose proof (listed_occurs _ Hu H) as Ho. cbn [kind_of] in Ho.
  destruct (listed_ok P HP _ Hu) as [Hk Hv]. pose proof (element_good P HP _ Hk) as Gk. pose proof (element_good P HP _ Hv) as Gv.
  destruct (entries_find_container root ws HO HN HS ts HM _ _ _ Ho) as (r & x & _ & Hx & Er & En & _ & Hkv). exists x. split; [exact Hx|]. split; [exact En|].
  rewrite (java_print (Map k v)) in Er by exact (listed_good P HP _ Hu). cbn [texp_of] in Er.
  destruct Hkv as [(e' & En' & _)|(k' & v' & En' & Hk' & Hv' & K1 & K2)]; [rewrite En' in Er; discriminate|].
  assert (TMapOf k' v' = TMapOf (texp_of k) (texp_of v)) as [= -> ->].
  { apply (print_injective "" (TMapOf k' v') (TMapOf (texp_of k) (texp_of v))); [constructor|apply Forall_app; split; apply simple_plain; (apply Gk || apply Gv || assumption)..|congruence]. }
  rewrite (java_print k Gk), (java_print v Gv). auto.
Qed.
Lemma class_fields c : In (Obj c) (types_of P) -> In (java_of (Obj c)) (names_in root) -> In (map declared_field (declared P c)) (instances (java_of (Obj c), fingerprint P (Obj c)) root) ->
  exists x, In (TComposite x) ts /\ c_name x = java_of (Obj c) /\ Forall2 (fun d fd => SpecSchema.property_type fd = Some (name_for (snd d))) (declared P c) (c_fields x).
Proof.
  intros Hu H Hin. pose proof (listed_occurs _ Hu H) as Ho. cbn [kind_of] in Ho.
  destruct (entries_find_class root ws HN HS ts HM _ _ Ho) as (w & x & Hw & Hx & Ew & Ef & En & _ & Hf). exists x. split; [exact Hx|]. split; [exact En|].
  destruct (listed_ok P HP _ Hu) as (_ & Hs & Hd). set (props := map declared_field (declared P c)) in *.
  assert (Hnames : map w_name props = map fst (declared P c)).
  { unfold props. rewrite map_map. apply map_ext. intros [n [| | | | |]]; reflexivity. }
  assert (E : wc_fields w = props).
  { apply (order_exact root ws w props); auto; [|now rewrite Hnames].
    split; [|rewrite Hnames; now apply sorted_nodup]. apply Forall_forall. intros q Hq. rewrite Ew, Ef in Hq. eapply HJ; eauto. }
  rewrite E in Hf. unfold props in Hf. clear - Hf Hd HP. revert Hf. generalize (c_fields x). induction (declared P c) as [|d ds IH]; intros fs Hf.
  - inversion Hf; subst. constructor.
  - cbn [map] in Hf. inversion Hf as [|? fd ? fds A B]; subst. inversion Hd as [|? ? C D]; subst. constructor; [now apply declared_type|]. now apply IH.
Qed.

(** Only the entry decides. *)
Lemma nothing_installed k named o x : In k (names_in root) \/ typeIsPrimitive k = true \/ k = "char" -> ~ installed_by tells h k named o x.
Proof.
  intros Hk (r & Hr & <- & _). destruct (HI _ Hr) as (r' & [= <-] & A & B & C). change (typeIsPrimitive (reader_type r) = false) in A. destruct Hk as [Hk|[Hk|Hk]]; [contradiction|congruence|contradiction].
Qed.
Notation shown_as := (displays fmt dec kf ts (installed_by tells h)).
Lemma same_entry t u : In t ts -> In u ts -> n_name t = n_name u -> t = u.
Proof. apply (entries_name_unique root ws HO HF HS ts HM). Qed.
Lemma float_hidden named o x : ~ shown_as named "float" o x.
Proof.
  intros H. inversion H; subst;
    try match goal with X : In ?t ts |- _ => destruct (entry_names t X) as [Zp Zc]; cbn [n_name] in Zp;
        match goal with E : _ = "float" |- _ => rewrite E in Zp; discriminate end end.
  eapply nothing_installed; [|eassumption]. right. left. reflexivity.
Qed.
Lemma vector_shown r e named t x : In (TRestricted r) ts -> r_kind r = list_t -> r_of r = [e] -> shown_as named (r_name r) (Some t) x ->
  exists body xs, part 1 t = Some body /\ Forall2 (fun p x => shown_as false e (Some p) x) (elements body) xs.
Proof.
  intros Hr Hk He H. pose proof (entry_names _ Hr) as [Zp _]. cbn [n_name] in Zp.
  inversion H; subst; try (match goal with E : _ = r_name r |- _ => rewrite <- E in Zp; discriminate end);
    try (match goal with X : In ?u ts, E : _ = r_name r |- _ => assert (u = TRestricted r) by (apply same_entry; auto); congruence end).
  - match goal with X : In (TRestricted ?u) ts, E : r_name ?u = r_name r |- _ => assert (TRestricted u = TRestricted r) as [= ->] by (apply same_entry; auto) end.
    exists body, xs. split; [assumption|]. match goal with X : r_of r = [?a] |- _ => rewrite He in X; injection X as ->; assumption end.
  - exfalso. eapply nothing_installed; [|eassumption]. left. exact (entry_named _ Hr).
Qed.
Lemma map_shown r k v named t x : In (TRestricted r) ts -> r_kind r = map_t -> r_of r = [k; v] -> shown_as named (r_name r) (Some t) x ->
  exists body xys, part 1 t = Some body /\
    Forall2 (fun i xy => shown_as false k (part (if kf then 2 * i else 2 * i + 1) body) (fst xy) /\
                         shown_as false v (part (if kf then 2 * i + 1 else 2 * i) body) (snd xy)) (seq 0 (entries body)) xys.
Proof.
  intros Hr Hk He H. pose proof (entry_names _ Hr) as [Zp _]. cbn [n_name] in Zp.
  inversion H; subst; try (match goal with E : _ = r_name r |- _ => rewrite <- E in Zp; discriminate end);
    try (match goal with X : In ?u ts, E : _ = r_name r |- _ => assert (u = TRestricted r) by (apply same_entry; auto); congruence end).
  - match goal with X : In (TRestricted ?u) ts, E : r_name ?u = r_name r |- _ => assert (TRestricted u = TRestricted r) as [= ->] by (apply same_entry; auto) end.
    exists body, xys. split; [assumption|]. match goal with X : r_of r = [?a; ?b] |- _ => rewrite He in X; injection X as -> ->; assumption end.
  - exfalso. eapply nothing_installed; [|eassumption]. left. exact (entry_named _ Hr).
Qed.
Lemma object_shown c named fp body x : In (TComposite c) ts -> shown_as named (c_name c) (Some (payload_tree fp [body])) x ->
  exists xs, Forall2 (fun p x => exists ty, SpecSchema.property_type (snd p) = Some ty /\ shown_as true ty (part (fst p) body) x) (numbered (c_fields c)) xs.
Proof.
  intros Hr H. pose proof (entry_names _ Hr) as [Zp _]. cbn [n_name] in Zp.
  inversion H; subst; try (match goal with E : _ = c_name c |- _ => rewrite <- E in Zp; discriminate end);
    try (match goal with X : In (TRestricted ?u) ts, E : _ = c_name c |- _ => assert (TRestricted u = TComposite c) by (apply same_entry; auto); congruence end).
  - match goal with E : c_name ?u = c_name c |- _ => assert (TComposite u = TComposite c) as [= ->] by (apply same_entry; auto) end.
    exists xs. match goal with X : part 1 (payload_tree _ _) = Some ?b |- _ => injection X as <- end. assumption.
  - exfalso. eapply nothing_installed; [|eassumption]. left. exact (entry_named _ Hr).
Qed.

Definition is_float (x : item) : Prop :=
  match x with IPrim v => type_of v = CFloat | IPrimPtr t _ => t = CFloat | _ => False end.
Definition is_map (x : item) : Prop := match x with IMap _ _ _ => True | _ => False end.

Lemma numbered_nth {A} (l : list A) j a : nth_error l j = Some a -> nth_error (numbered l) j = Some (j, a).
Proof.
  unfold numbered. enough (H : forall s, nth_error l j = Some a -> nth_error (combine (seq s (length l)) l) j = Some (s + j, a)) by (intros; now apply (H 0)).
  revert j. induction l as [|b l IH]; intros [|j] s E; try discriminate; cbn in *.
  - injection E as ->. now rewrite Nat.add_0_r.
  - rewrite <- Nat.add_succ_comm. now apply IH.
Qed.
Lemma Forall2_nth {A B} (R : A -> B -> Prop) l l' j a : Forall2 R l l' -> nth_error l j = Some a -> exists b, nth_error l' j = Some b /\ R a b.
Proof. intros H. revert j. induction H as [|x y l l' Hxy _ IH]; intros [|j] E; try discriminate; cbn in *; [injection E as <-; eauto|auto]. Qed.
Lemma Forall2_nth_r {A B} (R : A -> B -> Prop) l l' j b : Forall2 R l l' -> nth_error l' j = Some b -> exists a, nth_error l j = Some a /\ R a b.
Proof. intros H. revert j. induction H as [|x y l l' Hxy _ IH]; intros [|j] E; try discriminate; cbn in *; [injection E as <-; eauto|auto]. Qed.
Lemma pairs_nth {A B} (f g : A -> B) l j a : nth_error l j = Some a ->
  nth_error (flat_map (fun a => [f a; g a]) l) (2 * j) = Some (f a) /\ nth_error (flat_map (fun a => [f a; g a]) l) (2 * j + 1) = Some (g a).
Proof.
  revert j. induction l as [|b l IH]; intros [|j] E; try discriminate.
  - injection E as ->. now split.
  - cbn in E. destruct (IH _ E) as [A1 A2]. replace (2 * S j) with (S (S (2 * j))) by lia. cbn [flat_map app nth_error Nat.add]. now split.
Qed.
Lemma pairs_length {A B} (f g : A -> B) l : length (flat_map (fun a => [f a; g a]) l) = 2 * length l.
Proof. induction l as [|b l IH]; [reflexivity|]. cbn [flat_map app length]. rewrite IH. lia. Qed.

Lemma shown_no_float i : forall t k named x, property_type_ok P t -> of_type P t i ->
  incl (occurrences i) (occurrences root) -> (forall k, incl (instances k i) (instances k root)) ->
  k = java_of t \/ k = name_for t -> kf = true \/ (forall q, In q (parts i) -> ~ is_map q) ->
  shown_as named k (Some (wire i)) x -> forall q, In q (parts i) -> ~ is_float q.
Proof.
  assert (Nm : forall j, incl (occurrences j) (occurrences root) -> forall n fp kd, In ((n, fp), kd) (occurrences j) -> In n (names_in root)).
  { intros j Hi n fp kd Hj. apply Hi in Hj. apply (in_map (fun o => fst (fst o))) in Hj. exact Hj. }
  induction i using item_induction; intros u kk named x Ht HTy Hocc Hins Hk Hmap Hx q Hq.
  - destruct Hq as [<- |[]]. destruct u as [p| | | | |]; try contradiction. destruct HTy as [<- _]. cbn [is_float]. intros E.
    cbn [name_for] in Hk. rewrite E in Hk. apply (float_hidden named (Some (wire (IPrim v))) x). destruct Hk as [-> | ->]; exact Hx.
  - assert (Hq' : q = IPrimPtr t v) by (destruct v; destruct Hq as [<- |[]]; reflexivity). subst q.
    destruct u as [|p| | | |]; try contradiction. destruct HTy as [-> _]. cbn [is_float]. intros E.
    cbn [name_for] in Hk. rewrite E in Hk. apply (float_hidden named (Some (wire (IPrimPtr p v))) x). destruct Hk as [-> | ->]; exact Hx.
  - apply type_object in HTy as (c & -> & Hc & -> & -> & Hm); auto. assert (kk = java_of (Obj c)) as -> by (destruct Hk; assumption).
    destruct Hq as [<- |Hq]; [exact (fun H => H)|]. apply in_flat_map in Hq as (p & Hp & Hq).
    destruct (class_fields c Hc) as (w & Hw & En & Hf).
    { eapply (Nm _ Hocc). now left. }
    { apply Hins. cbn [instances]. rewrite key_eqb_refl. apply in_or_app. left. left. now apply (matches_fields P). }
    rewrite <- En in Hx. cbn [wire] in Hx. apply object_shown in Hx as (xs & Hx); [|exact Hw].
    destruct (In_nth_error _ _ Hp) as (j & Hj). destruct (Forall2_nth_r _ _ _ _ _ Hm Hj) as (d & Hd & Hmd).
    destruct (Forall2_nth _ _ _ _ _ Hf Hd) as (fd & Hfd & Hty). destruct (Forall2_nth _ _ _ _ _ Hx (numbered_nth _ _ _ Hfd)) as (y & _ & ty & Ety & Hy).
    cbn [fst snd] in Ety, Hy. unfold list_of in Hy. rewrite (part_nth _ _ _ (wire (snd (snd p)))) in Hy by (rewrite nth_error_map, Hj; reflexivity).
    rewrite Forall_forall in H. apply (H p Hp (snd d) ty true y); auto.
    + eapply declared_ok; eauto. eapply nth_error_In; eauto.
    + apply Hmd.
    + intros o Ho. apply Hocc. right. apply in_flat_map. eauto.
    + intros k o Ho. apply Hins. cbn [instances]. apply in_or_app. right. apply in_flat_map. eauto.
    + right. congruence.
    + destruct Hmap as [Hmap|Hmap]; [now left|right]. intros r Hr. apply Hmap. right. apply in_flat_map. eauto.
  - apply (type_vector P HP) in HTy as (e & -> & Hc & He & -> & -> & Hm); auto. assert (kk = java_of (Vector e)) as -> by (destruct Hk; assumption).
    destruct Hq as [<- |Hq]; [exact (fun H => H)|]. apply in_flat_map in Hq as (p & Hp & Hq).
    destruct (vector_entry e Hc) as (w & Hw & En & Ek & Eo).
    { eapply (Nm _ Hocc). now left. }
    rewrite <- En in Hx. cbn [wire] in Hx. apply (vector_shown w (java_of e)) in Hx as (body & xs & Hb & Hx); auto.
    injection Hb as <-. cbn [elements list_of] in Hx. destruct (Forall2_find _ _ _ (wire p) Hx) as (y & _ & Hy); [now apply in_map|].
    rewrite Forall_forall in H, Hm. apply (H p Hp e (java_of e) false y); auto using element_property.
    + intros o Ho. apply Hocc. right. apply in_flat_map. eauto.
    + intros k o Ho. apply Hins. cbn [instances]. apply in_flat_map. eauto.
    + destruct Hmap as [Hmap|Hmap]; [now left|right]. intros r Hr. apply Hmap. right. apply in_flat_map. eauto.
  - destruct Hmap as [Ekf|Hmap]; [|exfalso; apply (Hmap (IMap n fp kvs)); [now left|exact I]].
    apply (type_map P HP) in HTy as (k & v & -> & Hc & He & Hv & -> & -> & Hm); auto. assert (kk = java_of (Map k v)) as -> by (destruct Hk; assumption).
    destruct Hq as [<- |Hq]; [exact (fun H => H)|]. apply in_flat_map in Hq as (p & Hp & Hq).
    destruct (map_entry k v Hc) as (w & Hw & En & Ek & Eo).
    { eapply (Nm _ Hocc). now left. }
    rewrite <- En in Hx. cbn [wire] in Hx. apply (map_shown w (java_of k) (java_of v)) in Hx as (body & xs & Hb & Hx); auto.
    injection Hb as <-. cbn [entries] in Hx. rewrite pairs_length, Nat.div2_succ_double in Hx.
    destruct (In_nth_error _ _ Hp) as (j & Hj). destruct (pairs_nth (fun kv => wire (fst kv)) (fun kv => wire (snd kv)) _ _ _ Hj) as [P0 P1].
    assert (Hsq : nth_error (seq 0 (length kvs)) j = Some j).
    { assert (j < length kvs) by (apply nth_error_Some; congruence). rewrite (nth_error_nth' _ 0) by (rewrite seq_length; lia). now rewrite seq_nth. }
    destruct (Forall2_nth _ _ _ _ _ Hx Hsq) as (y & _ & Hy1 & Hy2).
    replace (if kf then 2 * j else 2 * j + 1) with (2 * j) in Hy1 by now rewrite Ekf. replace (if kf then 2 * j + 1 else 2 * j) with (2 * j + 1) in Hy2 by now rewrite Ekf.
    rewrite (part_nth _ _ _ _ P0) in Hy1. rewrite (part_nth _ _ _ _ P1) in Hy2.
    rewrite Forall_forall in H, Hm. destruct (H p Hp) as [A B], (Hm p Hp) as [C D]. apply in_app_or in Hq as [Hq|Hq].
    + apply (A k (java_of k) false (fst y)); auto using element_property.
      * intros o Ho. apply Hocc. right. apply in_flat_map. exists p. split; [exact Hp|]. apply in_or_app. auto.
      * intros k' o Ho. apply Hins. cbn [instances]. apply in_flat_map. exists p. split; [exact Hp|]. apply in_or_app. auto.
    + apply (B v (java_of v) false (snd y)); auto using element_property.
      * intros o Ho. apply Hocc. right. apply in_flat_map. exists p. split; [exact Hp|]. apply in_or_app. auto.
      * intros k' o Ho. apply Hins. cbn [instances]. apply in_flat_map. exists p. split; [exact Hp|]. apply in_or_app. auto.
  - destruct Hq as [<- |[]]. exact (fun H => H).
  - destruct u as [| | | | |u]; try contradiction. cbn in HTy, Ht. destruct Hq as [<- |Hq]; [exact (fun H => H)|].
    apply (IHi u kk named x); auto.
    + now apply listed_property.
    + left. destruct Hk; assumption.
    + destruct Hmap as [Hmap|Hmap]; [now left|right]. intros r Hr. apply Hmap. now right.
Qed.

(** Names that no factory knows. *)
Lemma no_char : covered h ts -> forall t k, In t ts -> named_by t k -> k <> "char" /\ k <> "bool".
Proof.
  intros Hc t k Ht Hk. destruct (Hc t k Ht Hk) as [(p & ->)|[(u & Hu & <-)|(r & Hr & <-)]].
  - destruct p; split; discriminate.
  - destruct (entry_names u Hu) as [A B]. split; [exact B|]. intros E. rewrite E in A. discriminate.
  - destruct (HI _ Hr) as (r' & [= <-] & A & B & _). split; [exact B|]. intros E. rewrite E in A. discriminate.
Qed.
(** A part and what it is a part of. *)
Lemma covered_parts i : covered h ts -> forall t, property_type_ok P t -> (name_for t <> "char") -> of_type P t i ->
  incl (occurrences i) (occurrences root) -> (forall k, incl (instances k i) (instances k root)) ->
  forall q, In q (parts i) -> without_text P q -> is_float q.
Proof.
  intros Hcov.
  assert (Nm : forall j, incl (occurrences j) (occurrences root) -> forall n fp kd, In ((n, fp), kd) (occurrences j) -> In n (names_in root)).
  { intros j Hi n fp kd Hj. apply Hi in Hj. apply (in_map (fun o => fst (fst o))) in Hj. exact Hj. }
  assert (El : forall e, element_ok P e -> java_of e <> "char" -> name_for e <> "char").
  { intros e He N. destruct e as [p|p|c|e|k v|t]; try contradiction; try exact N. destruct p; try discriminate; exact N. }
  induction i using item_induction; intros u Ht Hn HTy Hocc Hins q Hq HW.
  - destruct Hq as [<- |[]]. destruct u as [p| | | | |]; try contradiction. destruct HTy as [<- _]. cbn in HW |- *.
    destruct HW as [E|[E|[]]]; [now symmetry|]. exfalso. apply Hn. cbn. now rewrite <- E.
  - assert (Hq' : q = IPrimPtr t v) by (destruct v; destruct Hq as [<- |[]]; reflexivity). subst q.
    destruct u as [|p| | | |]; try contradiction. destruct HTy as [-> _]. cbn in HW |- *.
    destruct HW as [E|[E|[]]]; [now symmetry|]. exfalso. apply Hn. cbn. now rewrite <- E.
  - apply type_object in HTy as (c & -> & Hc & -> & -> & Hm); auto.
    destruct Hq as [<- |Hq]; [destruct HW|]. apply in_flat_map in Hq as (p & Hp & Hq).
    destruct (class_fields c Hc) as (w & Hw & En & Hf).
    { eapply (Nm _ Hocc). now left. }
    { apply Hins. cbn [instances]. rewrite key_eqb_refl. apply in_or_app. left. left. now apply (matches_fields P). }
    destruct (Forall2_find_r _ _ _ _ Hm Hp) as (d & Hd & Hmd). destruct (Forall2_find _ _ _ _ Hf Hd) as (fd & Hfd & Hty).
    rewrite Forall_forall in H. apply (H p Hp (snd d)); auto.
    + eapply declared_ok; eauto.
    + apply (no_char Hcov _ _ Hw). exists fd. auto.
    + apply Hmd.
    + intros o Ho. apply Hocc. right. apply in_flat_map. eauto.
    + intros k o Ho. apply Hins. cbn [instances]. apply in_or_app. right. apply in_flat_map. eauto.
  - apply (type_vector P HP) in HTy as (e & -> & Hc & He & -> & -> & Hm); auto.
    destruct (vector_entry e Hc) as (w & Hw & En & Ek & Eo).
    { eapply (Nm _ Hocc). now left. }
    destruct (no_char Hcov _ (java_of e) Hw) as [N1 N2]; [cbn; rewrite Ek, Eo; now left|].
    destruct Hq as [<- |Hq].
    { destruct HW as (e' & He' & Hl & E). apply (java_inj P HP) in E; auto. injection E as <-. destruct He' as [<- |[<- |[]]]; exfalso; [now apply N2|now apply N1]. }
    apply in_flat_map in Hq as (p & Hp & Hq).
    rewrite Forall_forall in H, Hm. apply (H p Hp e); auto using element_property.
    + intros o Ho. apply Hocc. right. apply in_flat_map. eauto.
    + intros k o Ho. apply Hins. cbn [instances]. apply in_flat_map. eauto.
  - apply (type_map P HP) in HTy as (k & v & -> & Hc & He & Hv & -> & -> & Hm); auto.
    destruct (map_entry k v Hc) as (w & Hw & En & Ek & Eo).
    { eapply (Nm _ Hocc). now left. }
    destruct (no_char Hcov _ (java_of k) Hw) as [N1 N2]; [cbn; rewrite Ek, Eo; now left|].
    destruct (no_char Hcov _ (java_of v) Hw) as [M1 M2]; [cbn; rewrite Ek, Eo; right; now left|].
    destruct Hq as [<- |Hq].
    { destruct HW as (k' & v' & He' & Hl & E). apply (java_inj P HP) in E; auto. injection E as <- <-.
      destruct He' as [[<- |[<- |[]]]|[<- |[<- |[]]]]; exfalso; [now apply N2|now apply N1|now apply M2|now apply M1]. }
    apply in_flat_map in Hq as (p & Hp & Hq).
    rewrite Forall_forall in H, Hm. destruct (H p Hp) as [A B], (Hm p Hp) as [C D]. apply in_app_or in Hq as [Hq|Hq].
    + apply (A k); auto using element_property.
      * intros o Ho. apply Hocc. right. apply in_flat_map. exists p. split; [exact Hp|]. apply in_or_app. auto.
      * intros k' o Ho. apply Hins. cbn [instances]. apply in_flat_map. exists p. split; [exact Hp|]. apply in_or_app. auto.
    + apply (B v); auto using element_property.
      * intros o Ho. apply Hocc. right. apply in_flat_map. exists p. split; [exact Hp|]. apply in_or_app. auto.
      * intros k' o Ho. apply Hins. cbn [instances]. apply in_flat_map. exists p. split; [exact Hp|]. apply in_or_app. auto.
  - destruct Hq as [<- |[]]. destruct HW.
  - destruct u as [| | | | |u]; try contradiction. cbn in HTy, Ht. destruct Hq as [<- |Hq]; [destruct HW|].
    apply (IHi u); auto.
    + now apply listed_property.
    + intros E. apply Hn. rewrite <- E. pose proof (listed_ok P HP _ Ht) as K. destruct u; try contradiction; reflexivity.
Qed.
End Root.
End Program.

Theorem hidden : forall fmt custom tells mo kf P T root h cf x,
  in_order P -> In T (types_of P) -> of_type P T root -> well_formed root ->
  custom_as custom tells -> run mo h new_factory cf -> only_installed h root ->
  kf = true \/ (forall q, In q (parts root) -> match q with IMap _ _ _ => False | _ => True end) ->
  In x (parts root) -> without_text P x ->
  exists w ws, let blob := decoded (envelope_tree (wire root) [ws] [leaf ANull]) in
    serialise_blob root new_writer = Ok blob w /\ schema_for root ws /\
    forall fuel text st', height (envelope_tree (wire root) [ws] [leaf ANull]) < fuel ->
      dumpContents fmt custom mo kf fuel (blob, cf) <> Ok text st'.
Proof.
  intros fmt custom tells mo kf P T root h cf x HP HT HR HW HC R HI Hm Hx Hwt.
  pose proof (root_target P HP T root HT HR) as Htg.
  destruct (serialise_correct root) as (w & ws & E & HS); auto.
  { destruct root; try discriminate; reflexivity. }
  { eapply root_no_clash; eauto. }
  exists w, ws. split; [exact E|]. split; [exact HS|]. intros fuel text st' Hfuel H.
  pose proof (typed_readable P HP T root ws HT HR HS) as Hr.
  assert (Ec : List.concat [ws] = ws) by (cbn; apply app_nil_r).
  assert (Hr' : Forall readable_type (List.concat [ws])) by now rewrite Ec.
  destruct (type_results _ Hr') as (ts & H0 & H1 & H3). rewrite Ec in H0, H1.
  pose proof (root_occurrences P HP T root HT HR) as HO. pose proof (root_fingerprints P HP T root HT HR) as HF.
  assert (Hw : exists fp body, wire root = payload_tree fp body /\ exists n k, In ((n, fp), k) (occurrences root) /\ own_name root = Some n).
  { destruct root; try discriminate; cbn [wire occurrences own_name]; do 2 eexists; (split; [reflexivity|]); do 2 eexists; (split; [now left|reflexivity]). }
  destruct Hw as (fp & body & Ew & n & kd & Ho & Eown).
  destruct (envelope_high (wire root) [ws] (leaf ANull) fuel Hfuel) as (m & Em).
  destruct (envelope_wire m fp body [ws] [leaf ANull] ts [] [] []) as (e & A1 & A2 & A3); [now rewrite Ec|exact H3|].
  rewrite <- Ew in A1. fold (decoded (envelope_tree (wire root) [ws] [leaf ANull])) in A1. rewrite <- Em in A1.
  unfold dumpContents in H. unfold bind at 1 in H. unfold on_data at 1 in H.
  rewrite (read_envelope_parsed fuel (decoded (envelope_tree (wire root) [ws] [leaf ANull])) e I A1) in H.
  unfold bind at 1, on_factory in H. destruct (process mo (e_schema e) cf) as [[] cf'| | | |] eqn:EP; try discriminate. cbn [snd] in H.
  destruct (byDescriptor cf' (e_descriptor e)) as [i|] eqn:Ei; [|discriminate]. destruct (reader_at i cf') as [r|] eqn:Er; [|discriminate].
  unfold on_data in H. destruct (dump_payload fmt custom kf fuel cf' (e_schema e) r (decoded (envelope_tree (wire root) [ws] [leaf ANull]))) as [text' d2| | | |] eqn:Ed; try discriminate.
  clear H. pose proof (incl_perm _ _ A3) as I1. assert (I2 : incl (List.concat (s_types (e_schema e))) ts) by (intros u Hu; eapply Permutation_in; eauto).
  assert (Hp : Forall proper ts).
  { apply Forall_forall. intros u Hu. rewrite Forall_forall in H3. apply entry_proper; [now apply H3|]. now apply (entries_names_not_primitive root ws HO HS ts H1). }
  assert (He : entries_of h = []).
  { clear - HI. unfold entries_of. induction h as [|o h IH]; [reflexivity|]. cbn [map List.concat]. rewrite IH by (intros o' Ho'; apply HI; now right).
    destruct (HI o (or_introl eq_refl)) as (r & -> & _). reflexivity. }
  assert (Hnm : forall t, In t ts -> In (n_name t) (names_in root)) by exact (entry_named P HP T root ws ts HT HR HS H1).
  assert (Hcons : consistent h ts).
  { split.
    - intros t u Ht Hu En. rewrite He in Hu. now apply (entries_name_unique root ws HO HF HS ts H1).
    - intros q Hq. destruct (HI _ Hq) as (r' & [= <-] & B1 & B2 & B3). split; [exact B1|]. intros t Ht En. apply B3. rewrite En. now apply Hnm. }
  pose proof (consistent_perm _ _ _ A3 Hcons) as Hcons'. pose proof (proper_perm _ _ A3 Hp) as Hp'.
  pose proof (entries_fingerprint_unique root ws HO HF HS ts H1) as HD.
  assert (One : one_name_per_fingerprint (List.concat (s_types (e_schema e)))) by (intros a b Ha Hb Eab; now rewrite (HD a b (I2 _ Ha) (I2 _ Hb) Eab)).
  pose proof (processed_covered mo h cf (e_schema e) cf' R Hp' EP Hcons' He) as Hcov.
  assert (Hcov' : covered h ts) by (eapply covered_perm; [apply Permutation_sym; exact A3|exact Hcov]).
  assert (Hroot : own_name root = Some (java_of T)) by (apply (target_named P HP T root HR (listed_property P HP _ HT) HT)).
  rewrite Hroot in Eown. injection Eown as <-.
  assert (Hk : In (java_of T, fp) (map notation_key ts)).
  { rewrite (entries_keys_same root ws HO HS ts H1). destruct HS as (_ & K & _). apply K. apply (in_map fst) in Ho. exact Ho. }
  apply in_map_iff in Hk as (t & Et & Ht). injection Et as En Ef. rewrite A2, <- Ef in Ei.
  destruct (payload_sound fmt custom mo kf fuel tells h cf HC R e cf' t Hp' EP Hcons' (I1 _ Ht) One _ _ _ Hcov i r Ei Er Ed) as (_ & b & p & y & P1 & _ & _ & P0 & Hy & _).
  injection P1 as <-. injection P0 as <-. rewrite En in Hy. apply (displays_incl _ _ _ _ _ _ I2) in Hy.
  assert (Fl : is_float x).
  { eapply (covered_parts P HP T root ws ts HT HR HS H1 h HI root Hcov' T); eauto using listed_property; try (intros ? ?; auto).
    pose proof (listed_name P HP T HT) as (_ & _ & _ & N & _). pose proof (listed_ok P HP T HT) as K. destruct T; try contradiction; exact N. }
  revert Fl. eapply (shown_no_float P HP T root ws ts HT HR HS H1 fmt kf tells h HI root T (java_of T)); eauto using listed_property; try (intros ? ?; auto).
  destruct Hm as [Hm|Hm]; [now left|right]. intros q Hq Hq'. specialize (Hm q Hq). destruct q; contradiction.
Qed.
