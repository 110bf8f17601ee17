(** Proofs about programs (Programs.v). *)
From Coq Require Import Sorting.Sorted Permutation Lia.
From Verif Require Import Base Proton ProtonProofs TypeNames SpecTypes TypeNamesProofs MakePrimProofs Schema SpecSchema SchemaProofs
  SpecOrdering Descriptors SpecDescriptors DescriptorsProofs
  Factory SpecFactory FactoryProofs Readers SpecReaders Blob ReadersProofs
  Writer SpecWriter WriterProofs SpecWriteRead WriteReadProofs Programs SpecPrograms.
Import List ListNotations.
Open Scope string_scope.

(** ** Names *)
Definition prim_cxx (t : prim_type) : string :=
  match t with CInt => "int" | CLong => "long" | CDouble => "double" | CBool => "bool" | CFloat => "float" | CChar => "char" | CString => "string" end.
Fixpoint texp_of (t : cpp) : texp :=
  match t with
  | Prim p | PrimPtr p => TName (prim_cxx p)
  | Obj c => TName (java_name (fst c) (snd c))
  | Vector e => TListOf (texp_of e)
  | Map k v => TMapOf (texp_of k) (texp_of v)
  | Pointer t => texp_of t
  end.
Lemma texp_java t : java_type (cxx_of t) = texp_of t.
Proof.
  induction t as [[]|[]|[path cls]|e IH|k IHk v IHv|t IH]; cbn [cxx_of java_type texp_of fst snd]; try reflexivity; congruence.
Qed.
Lemma prim_simple p : plain (prim_cxx p) /\ unrelated (prim_cxx p).
Proof. destruct p; simple_name. Qed.

Section Program.
Context (P : program).
Hypothesis (HP : in_order P).

Lemma listed_ok t : In t (types_of P) -> type_ok P t.
Proof. destruct HP as (H & _). rewrite Forall_forall in H. apply H. Qed.
Lemma class_listed c : In (Obj c) (types_of P) -> class_ok c.
Proof. intros H. apply (listed_ok _ H). Qed.

(** Good names. *)
Definition good (t : cpp) : Prop := identifiers (cxx_of t) /\ simple_names (texp_of t).
Lemma prim_good p : good (Prim p).
Proof.
  split.
  { destruct p; cbn [cxx_of identifiers]; try exact I.
    all: split; [split; unfold has; simpl; intuition discriminate|apply Forall_nil]. }
  constructor; [apply prim_simple|constructor].
Qed.
Lemma element_good t : element_ok P t -> good t.
Proof.
  induction t as [p|p|c|e IH|k IHk v IHv|t IH]; intros H; cbn in H; try contradiction.
  - apply prim_good.
  - destruct (class_listed _ H) as (H1 & _ & H2 & H3 & _). split; [destruct c; exact H1|]. constructor; [now split|constructor].
  - apply listed_ok in H. destruct (IH H) as [A B]. now split.
  - apply listed_ok in H as [Hk Hv]. destruct (IHk Hk) as [A B], (IHv Hv) as [C D]. split; [now split|]. apply Forall_app. now split.
Qed.
Lemma listed_good t : In t (types_of P) -> good t.
Proof. intros H. apply element_good. pose proof (listed_ok _ H) as K. destruct t; try contradiction; exact H. Qed.
Lemma property_good t : property_type_ok P t -> good t.
Proof.
  destruct t as [p|p|c|e|k v|t]; intros H; cbn in H; try (now apply listed_good).
  - apply prim_good.
  - destruct (prim_good p) as [A B]. split; [destruct p; exact A|exact B].
  - exact (listed_good t H).
Qed.
Lemma java_print t : good t -> java_of t = print "" (texp_of t).
Proof. intros [H _]. unfold java_of. now rewrite javaTypeName_spec, texp_java. Qed.
Lemma java_class c : In (Obj c) (types_of P) -> java_of (Obj c) = java_name (fst c) (snd c).
Proof. intros H. now rewrite java_print by now apply listed_good. Qed.

(** Names and fingerprints tell types apart. *)
Lemma nodup_inj {A B} (f : A -> B) l a b : NoDup (map f l) -> In a l -> In b l -> f a = f b -> a = b.
Proof.
  induction l as [|x l IH]; intros H Ha Hb E; [destruct Ha|]. cbn in H. apply NoDup_cons_iff in H as [N1 N2].
  destruct Ha as [-> |Ha], Hb as [-> |Hb]; auto; destruct N1; [rewrite E|rewrite <- E]; now apply in_map.
Qed.
Lemma java_inj a b : In a (types_of P) -> In b (types_of P) -> java_of a = java_of b -> a = b.
Proof. destruct HP as (_ & H & _). now apply nodup_inj. Qed.
Lemma fingerprint_inj a b : In a (types_of P) -> In b (types_of P) -> fingerprint P a = fingerprint P b -> a = b.
Proof. destruct HP as (_ & _ & H). now apply nodup_inj. Qed.

(** ** The parts of an object have the declared types *)
Definition matches (d : string * cpp) (p : string * (string * item)) : Prop :=
  fst p = fst d /\ (is_primitive (snd (snd p)) = false -> fst (snd p) = java_of (snd d)) /\ of_type P (snd d) (snd (snd p)).
Lemma object_type n fp ps t : of_type P t (IObject n fp ps) <->
  exists c, t = Obj c /\ n = java_of t /\ fp = fingerprint P t /\ Forall2 matches (declared P c) ps.
Proof.
  cbn [of_type]. destruct t as [p|p|c|e|k v|t]; try solve [split; [intros []|intros (c' & [=] & _)]].
  assert (H : forall ds, (fix properties (ps : list (string * (string * item))) (ds : list (string * cpp)) {struct ps} : Prop :=
         match ps, ds with
         | [], [] => True
         | (pn, (ty, v)) :: ps', (dn, d) :: ds' =>
             (pn = dn /\ (is_primitive v = false -> ty = java_of d) /\ of_type P d v) /\ properties ps' ds'
         | _, _ => False
         end) ps ds <-> Forall2 matches ds ps).
  { induction ps as [|[pn [ty v]] ps IH]; intros [|[dn d] ds].
    - split; auto.
    - split; [intros []|intros X; inversion X].
    - split; [intros []|intros X; inversion X].
    - rewrite IH. split; [intros [H1 H2]; constructor; auto|intros X; inversion X; auto]. }
  split.
  - intros (-> & -> & H1). exists c. repeat split; auto. now apply H.
  - intros (c' & [= <-] & -> & -> & H1). repeat split; auto. now apply H.
Qed.
Lemma vector_type n fp es t : of_type P t (IVector n fp es) <->
  exists e, t = Vector e /\ n = java_of t /\ fp = fingerprint P t /\ Forall (of_type P e) es.
Proof.
  cbn [of_type]. destruct t as [p|p|c|e|k v|t]; try solve [split; [intros []|intros (c' & [=] & _)]]. split.
  - intros (-> & -> & H). apply fold_and' in H. exists e. auto.
  - intros (e' & [= <-] & -> & -> & H). repeat split; auto. now apply fold_and'.
Qed.
Lemma map_type n fp kvs t : of_type P t (IMap n fp kvs) <->
  exists k v, t = Map k v /\ n = java_of t /\ fp = fingerprint P t /\ Forall (fun kv => of_type P k (fst kv) /\ of_type P v (snd kv)) kvs.
Proof.
  cbn [of_type]. destruct t as [p|p|c|e|k v|t]; try solve [split; [intros []|intros (c' & c'' & [=] & _)]]. split.
  - intros (-> & -> & H). apply fold_and' in H. exists k, v. auto.
  - intros (k' & v' & [= <- <-] & -> & -> & H). repeat split; auto. now apply fold_and'.
Qed.

Lemma element_property t : element_ok P t -> property_type_ok P t.
Proof. destruct t; cbn; tauto. Qed.
Lemma listed_property t : In t (types_of P) -> property_type_ok P t.
Proof. intros H. pose proof (listed_ok _ H) as K. destruct t; try contradiction; exact H. Qed.
Lemma declared_ok c d : In (Obj c) (types_of P) -> In d (declared P c) -> property_type_ok P (snd d).
Proof. intros H Hd. apply listed_ok in H as (_ & _ & H). rewrite Forall_forall in H. auto. Qed.
Lemma matches_in c ps p : In (Obj c) (types_of P) -> Forall2 matches (declared P c) ps -> In p ps ->
  exists d, In d (declared P c) /\ property_type_ok P (snd d) /\ matches d p.
Proof. intros Hc H Hp. destruct (Forall2_find_r _ _ _ _ H Hp) as (d & Hd & Hm). exists d. eauto using declared_ok. Qed.

Lemma type_object t n fp ps : property_type_ok P t -> of_type P t (IObject n fp ps) ->
  exists c, t = Obj c /\ In (Obj c) (types_of P) /\ n = java_of (Obj c) /\ fp = fingerprint P (Obj c) /\ Forall2 matches (declared P c) ps.
Proof. intros Ht H. apply object_type in H as (c & -> & H). exists c. auto. Qed.
Lemma type_vector t n fp es : property_type_ok P t -> of_type P t (IVector n fp es) ->
  exists e, t = Vector e /\ In (Vector e) (types_of P) /\ element_ok P e /\ n = java_of (Vector e) /\ fp = fingerprint P (Vector e) /\ Forall (of_type P e) es.
Proof. intros Ht H. apply vector_type in H as (e & -> & H). exists e. split; [reflexivity|]. split; [exact Ht|]. split; [exact (listed_ok _ Ht)|exact H]. Qed.
Lemma type_map t n fp kvs : property_type_ok P t -> of_type P t (IMap n fp kvs) ->
  exists k v, t = Map k v /\ In (Map k v) (types_of P) /\ element_ok P k /\ element_ok P v /\ n = java_of (Map k v) /\ fp = fingerprint P (Map k v) /\
    Forall (fun kv => of_type P k (fst kv) /\ of_type P v (snd kv)) kvs.
Proof.
  intros Ht H. apply map_type in H as (k & v & -> & H). exists k, v. split; [reflexivity|]. split; [exact Ht|].
  destruct (listed_ok _ Ht) as [A B]. auto.
Qed.

(** ** Occurrences *)
Definition kind_of (t : cpp) : kind := match t with Vector _ => Container "list" | Map _ _ => Container "map" | _ => Class end.
Definition occurs_as (o : key * kind) : Prop :=
  exists u, In u (types_of P) /\ o = ((java_of u, fingerprint P u), kind_of u).
Lemma occurrence_typed i : forall t, property_type_ok P t -> of_type P t i -> Forall occurs_as (occurrences i).
Proof.
  assert (Flat : forall A (f : A -> list (key * kind)) l, (forall a, In a l -> Forall occurs_as (f a)) -> Forall occurs_as (flat_map f l)).
  { intros A f l. induction l as [|a l IH]; cbn; [constructor|]. intros H. apply Forall_app. auto. }
  induction i using item_induction; intros u Ht HT; cbn [occurrences]; try (now constructor).
  - apply type_object in HT as (c & -> & Hc & -> & -> & Hm); auto. constructor; [exists (Obj c); auto|]. apply Flat. intros p Hp.
    destruct (matches_in _ _ _ Hc Hm Hp) as (d & _ & Hd & _ & _ & Hv). rewrite Forall_forall in H. eapply H; eauto.
  - apply type_vector in HT as (e & -> & Hc & He & -> & -> & Hm); auto. constructor; [exists (Vector e); auto|]. apply Flat. intros p Hp.
    rewrite Forall_forall in H, Hm. apply (H p Hp e); auto using element_property.
  - apply type_map in HT as (k & v & -> & Hc & Hk & Hv & -> & -> & Hm); auto. constructor; [exists (Map k v); auto|]. apply Flat. intros p Hp.
    rewrite Forall_forall in H, Hm. destruct (H p Hp) as [A B]. destruct (Hm p Hp) as [C D]. apply Forall_app. split; [eapply A; [|exact C]|eapply B; [|exact D]]; now apply element_property.
  - cbn in HT. destruct u as [| | | | |u]; try contradiction. apply (IHi u); auto using listed_property.
Qed.
Lemma occurs_as_ok o : occurs_as o -> occurrence_ok o.
Proof.
  intros (u & Hu & ->). unfold occurrence_ok. cbn [fst snd]. pose proof (listed_good u Hu) as G. pose proof (listed_ok _ Hu) as K.
  destruct u as [| |c|e|k v|]; try contradiction; cbn [kind_of].
  - rewrite java_class by assumption. apply K.
  - left. split; [reflexivity|]. exists (texp_of e). split; [now apply java_print|]. exact (proj2 G).
  - right. split; [reflexivity|]. exists (texp_of k), (texp_of v). split; [now apply java_print|].
    destruct G as [_ G]. apply Forall_app in G. exact G.
Qed.

Section Root.
Context (T : cpp) (root : item).
Hypothesis (HT : In T (types_of P)) (HR : of_type P T root).
Lemma root_occurs o : In o (occurrences root) -> occurs_as o.
Proof. pose proof (occurrence_typed root T (listed_property _ HT) HR) as H. rewrite Forall_forall in H. apply H. Qed.
Lemma root_occurrences : Forall occurrence_ok (occurrences root).
Proof. apply Forall_forall. intros o Ho. now apply occurs_as_ok, root_occurs. Qed.
Lemma root_no_clash : no_clash root.
Proof.
  intros k s H1 H2. apply root_occurs in H1 as (u & Hu & E1), H2 as (w & Hw & E2). injection E1 as -> Ek. injection E2 as E2 _ Ek'.
  apply java_inj in E2; auto. subst w. congruence.
Qed.
Lemma root_fingerprints : one_fingerprint_each root.
Proof.
  intros a b Ha Hb. apply in_map_iff in Ha as (x & <- & Hx), Hb as (y & <- & Hy).
  apply root_occurs in Hx as (u & Hu & ->), Hy as (w & Hw & ->). cbn [fst snd].
  split; intros E; [apply java_inj in E|apply fingerprint_inj in E]; auto; now subst.
Qed.
Lemma root_target : is_target root = true.
Proof. pose proof (listed_ok _ HT) as K. destruct T; try contradiction; destruct root as [| | | | |[o|]]; try contradiction; reflexivity. Qed.
End Root.

(** ** Properties *)
Lemma matches_field d p : matches d p -> property_field (fst p) (fst (snd p)) (snd (snd p)) = declared_field d.
Proof.
  destruct d as [dn d], p as [pn [ty v]]. unfold matches. cbn [fst snd]. intros (-> & H1 & H2). unfold property_field, declared_field. cbn [fst snd].
  destruct v as [v|q v|n fp ps|n fp es|n fp kvs|[o|]]; destruct d as [t|t|c|e|k w|t]; try contradiction; cbn [is_primitive] in H1;
    try rewrite (H1 eq_refl); cbn [property_type property_requires property_mandatory].
  - cbn in H2. destruct H2 as [<- _]. reflexivity.
  - cbn in H2. destruct H2 as [<- _]. reflexivity.
  - reflexivity.
  - reflexivity.
  - reflexivity.
  - reflexivity.
  - reflexivity.
Qed.
Lemma matches_fields ds ps : Forall2 matches ds ps -> map (fun p => property_field (fst p) (fst (snd p)) (snd (snd p))) ps = map declared_field ds.
Proof. induction 1 as [|d p ds ps H _ IH]; [reflexivity|]. cbn. now rewrite IH, (matches_field d p H). Qed.

Lemma instances_typed k i : forall t, property_type_ok P t -> of_type P t i ->
  Forall (fun fs => exists c, In (Obj c) (types_of P) /\ k = (java_of (Obj c), fingerprint P (Obj c)) /\ fs = map declared_field (declared P c)) (instances k i).
Proof.
  set (Q := fun fs => exists c, _).
  assert (Flat : forall A (f : A -> list (list wire_field)) l, (forall a, In a l -> Forall Q (f a)) -> Forall Q (flat_map f l)).
  { intros A f l. induction l as [|a l IH]; cbn; [constructor|]. intros H. apply Forall_app. auto. }
  induction i using item_induction; intros u Ht HT; cbn [instances]; try (now constructor).
  - apply type_object in HT as (c & -> & Hc & -> & -> & Hm); auto. apply Forall_app. split.
    + destruct (key_eqb k _) eqn:E; [|constructor]. apply key_eqb_eq in E. constructor; [|constructor]. exists c. split; [exact Hc|]. split; [exact E|]. now apply matches_fields.
    + apply Flat. intros p Hp. destruct (matches_in _ _ _ Hc Hm Hp) as (d & _ & Hd & _ & _ & Hv). rewrite Forall_forall in H. eapply H; eauto.
  - apply type_vector in HT as (e & -> & Hc & He & -> & -> & Hm); auto. apply Flat. intros p Hp.
    rewrite Forall_forall in H, Hm. apply (H p Hp e); auto using element_property.
  - apply type_map in HT as (kk & v & -> & Hc & Hk & Hv & -> & -> & Hm); auto. apply Flat. intros p Hp.
    rewrite Forall_forall in H, Hm. destruct (H p Hp) as [A B]. destruct (Hm p Hp) as [C D]. apply Forall_app. split; [eapply A; [|exact C]|eapply B; [|exact D]]; now apply element_property.
  - cbn in HT. destruct u as [| | | | |u]; try contradiction. apply (IHi u); auto using listed_property.
Qed.
Lemma root_same T root : In T (types_of P) -> of_type P T root -> same_properties root.
Proof.
  intros HT HR k a b Ha Hb. pose proof (instances_typed k root T (listed_property _ HT) HR) as H. rewrite Forall_forall in H.
  destruct (H _ Ha) as (c & Hc & -> & ->), (H _ Hb) as (c' & Hc' & E & ->). injection E as E _. apply java_inj in E; auto. now injection E as ->.
Qed.

(** ** Programs whose objects can be inspected *)
Lemma own_typed t i n : of_type P t i -> own_name i = Some n -> n = java_of t.
Proof.
  intros H E. destruct i as [|?|m fp ps|m fp es|m fp kvs|[o|]]; try discriminate.
  - apply object_type in H as (c & -> & -> & _). now injection E as <-.
  - apply vector_type in H as (c & -> & -> & _). now injection E as <-.
  - apply map_type in H as (c & c' & -> & -> & _). now injection E as <-.
  - destruct t as [| | | | |t]; try contradiction. cbn in H. destruct o as [|?|m fp ps|m fp es|m fp kvs|[o|]]; try discriminate; cbn in E; injection E as <-.
    + now apply object_type in H as (c & -> & -> & _).
    + now apply vector_type in H as (c & -> & -> & _).
    + now apply map_type in H as (c & c' & -> & -> & _).
Qed.
Lemma target_named t o : of_type P t o -> property_type_ok P t -> In t (types_of P) -> own_name o = Some (java_of t) /\ is_target o = true.
Proof.
  intros H _ Ht. pose proof (listed_ok _ Ht) as K. destruct t as [p|p|c|e|k v|t]; try contradiction; destruct o as [| |n fp ps|n fp es|n fp kvs|[o|]]; try contradiction.
  - apply object_type in H as (? & [= <-] & -> & _). now split.
  - apply vector_type in H as (? & [= <-] & -> & _). now split.
  - apply map_type in H as (? & ? & [= <- <-] & -> & _). now split.
Qed.
Lemma nonprim_typed t v : property_type_ok P t -> of_type P t v -> v <> IPointer None -> is_primitive v = false -> has_type v (java_of t).
Proof.
  intros Ht H N Np. destruct v as [| |n fp ps|n fp es|n fp kvs|[o|]]; try discriminate.
  - now apply object_type in H as (? & -> & -> & _).
  - now apply vector_type in H as (? & -> & -> & _).
  - now apply map_type in H as (? & ? & -> & -> & _).
  - destruct t as [| | | | |t]; try contradiction. cbn in H. destruct (target_named t o) as [E Eo]; auto using listed_property.
    cbn. destruct o; try discriminate; exact E.
  - now elim N.
Qed.
Lemma matches_names ds ps : Forall2 matches ds ps -> map fst ps = map fst ds.
Proof. induction 1 as [|d p ds ps (H & _) _ IH]; [reflexivity|]. cbn. now rewrite H, IH. Qed.
Lemma prim_shows p : ~ In p [CFloat; CChar] -> has_reader p = true.
Proof. destruct p; cbn; tauto. Qed.
Lemma element_name p : ~ In p [CFloat; CChar; CBool] -> java_of (Prim p) = m_type p /\ has_reader p = true.
Proof. destruct p; cbn -[java_of]; try tauto; intros _; split; reflexivity. Qed.

Hypothesis (HV : shows P).
Lemma listed_shows t : In t (types_of P) ->
  match t with
  | Obj c => Forall (fun d => property_shows (snd d)) (declared P c)
  | Vector e => element_shows e
  | Map k v => element_shows k /\ element_shows v
  | _ => True
  end.
Proof. pose proof HV as H. unfold shows in H. rewrite Forall_forall in H. apply H. Qed.

(** An element: its type name is what inspection expects. *)
Lemma element_typed classes e v : element_ok P e -> element_shows e -> of_type P e v -> inspectable classes v ->
  has_type v (print "" (texp_of e)).
Proof.
  intros He Hs H Hi. rewrite <- java_print by now apply element_good.
  destruct v as [v|q v|n fp ps|n fp es|n fp kvs|[o|]]; try (apply nonprim_typed; [now apply element_property|exact H|discriminate|reflexivity]).
  - destruct e as [p|p|c|e|k w|t]; try contradiction. cbn in H. destruct H as [<- _]. cbn in Hs |- *. apply (element_name _ Hs).
  - destruct e; contradiction.
  - destruct e; contradiction.
Qed.
Definition shows_typed (t : cpp) (i : item) : Prop :=
  match i with IPrim _ | IPrimPtr _ _ => property_shows t | _ => True end.
Lemma element_property_shows e : element_shows e -> property_shows e.
Proof. destruct e; cbn; tauto. Qed.
Lemma typed_inspectable classes i : forall t, property_type_ok P t -> property_shows t -> of_type P t i -> nulls_ok classes i -> inspectable classes i.
Proof.
  induction i using item_induction; intros u Ht Hs HT Hn; cbn [inspectable nulls_ok] in *.
  - destruct u as [p| | | | |]; try contradiction. destruct HT as [<- _]. now apply prim_shows.
  - destruct u as [|p| | | |]; try contradiction. destruct HT as [-> HT]. destruct v as [v|]; [|now elim Hn]. destruct HT as [<- _]. now apply prim_shows.
  - apply type_object in HT as (c & -> & Hc & -> & -> & Hm); auto. split; [rewrite java_class by assumption; apply (class_listed _ Hc)|].
    rewrite (matches_names _ _ Hm). split; [apply (listed_ok _ Hc)|]. apply fold_and'. apply fold_and' in Hn.
    rewrite Forall_forall in H, Hn |- *. intros p Hp. destruct (matches_in _ _ _ Hc Hm Hp) as (d & Hd & Hd' & _ & Hty & Hv).
    pose proof (listed_shows _ Hc) as HS. rewrite Forall_forall in HS. specialize (HS d Hd). destruct (Hn p Hp) as [N1 N2].
    assert (Hi : inspectable classes (snd (snd p))) by (eapply (H p Hp); eauto). split; [|exact Hi].
    destruct (snd (snd p)) as [v|q v|n fp qs|n fp es|n fp kvs|[o|]] eqn:E; cbn [declared_as]; try exact I; try rewrite (Hty eq_refl).
    + apply nonprim_typed; auto; discriminate.
    + apply nonprim_typed; auto; discriminate.
    + apply nonprim_typed; auto; discriminate.
    + apply nonprim_typed; auto; discriminate.
    + rewrite <- (Hty eq_refl). now apply N1.
  - apply type_vector in HT as (e & -> & Hc & He & -> & -> & Hm); auto. exists (texp_of e). split; [apply java_print, (listed_good _ Hc)|].
    split; [apply (element_good _ He)|]. apply fold_and'. apply fold_and' in Hn. rewrite Forall_forall in H, Hm, Hn |- *. intros v Hv.
    pose proof (listed_shows _ Hc) as HS. cbn in HS.
    assert (Hi : inspectable classes v) by (apply (H v Hv e); auto using element_property, element_property_shows). split; [|exact Hi].
    eapply element_typed; eauto.
  - apply type_map in HT as (k & v & -> & Hc & Hk & Hv & -> & -> & Hm); auto. exists (texp_of k), (texp_of v). split; [apply java_print, (listed_good _ Hc)|].
    split; [apply (element_good _ Hk)|]. split; [apply (element_good _ Hv)|]. apply fold_and'. apply fold_and' in Hn. rewrite Forall_forall in H, Hm, Hn |- *. intros kv Hkv.
    pose proof (listed_shows _ Hc) as [HS1 HS2]. destruct (H kv Hkv) as [A B]. destruct (Hm kv Hkv) as [C D]. destruct (Hn kv Hkv) as [N1 N2].
    assert (H1 : inspectable classes (fst kv)) by (apply (A k); auto using element_property, element_property_shows).
    assert (H2 : inspectable classes (snd kv)) by (apply (B v); auto using element_property, element_property_shows).
    split; (split; [|assumption]); eapply element_typed; eauto.
  - exact I.
  - destruct u as [| | | | |u]; try contradiction. cbn in HT, Ht. apply (IHi u); auto using listed_property.
    pose proof (listed_ok _ Ht) as K. destruct u; try contradiction; exact I.
Qed.
Lemma typed_well_formed i : forall t, property_type_ok P t -> property_shows t -> of_type P t i -> well_formed i.
Proof.
  assert (NP : forall e v, element_ok P e -> of_type P e v -> is_pointer v = false).
  { intros e v He H. destruct v as [| | | | |[o|]]; try reflexivity; destruct e; contradiction. }
  induction i using item_induction; intros u Ht Hs HT; cbn [well_formed].
  - destruct u as [p| | | | |]; try contradiction. apply HT.
  - destruct u as [|p| | | |]; try contradiction. destruct HT as [-> HT].
    assert (Np : forall v, printable p v) by (intros w ->; cbn in Hs; tauto). destruct v as [v|]; [|apply Np].
    destruct HT as [E Hv]. auto.
  - apply type_object in HT as (c & -> & Hc & -> & -> & Hm); auto. apply fold_and'. rewrite Forall_forall in H |- *. intros p Hp.
    destruct (matches_in _ _ _ Hc Hm Hp) as (d & Hd & Hd' & _ & _ & Hv). pose proof (listed_shows _ Hc) as HS. rewrite Forall_forall in HS. eapply (H p Hp); eauto.
  - apply type_vector in HT as (e & -> & Hc & He & -> & -> & Hm); auto. apply fold_and'. rewrite Forall_forall in H, Hm |- *. intros v Hv.
    pose proof (listed_shows _ Hc) as HS. cbn in HS. split; [eapply NP; eauto|]. apply (H v Hv e); auto using element_property, element_property_shows.
  - apply type_map in HT as (k & v & -> & Hc & Hk & Hv & -> & -> & Hm); auto. pose proof (listed_shows _ Hc) as [HS1 HS2].
    clear - NP H Hm Hk Hv HS1 HS2 HP. induction kvs as [|kv kvs IH]; cbn; [exact I|]. inversion H as [|? ? [A B] H']; subst. inversion Hm as [|? ? [C D] Hm']; subst.
    split; [|split; [|now apply IH]]; (split; [first [exact (NP k _ Hk C)|exact (NP v _ Hv D)]|]).
    + apply (A k); auto using element_property, element_property_shows.
    + apply (B v); auto using element_property, element_property_shows.
  - exact I.
  - destruct u as [| | | | |u]; try contradiction. cbn in HT, Ht. split; [exact (proj2 (target_named _ _ HT (listed_property _ Ht) Ht))|].
    apply (IHi u); auto using listed_property. pose proof (listed_ok _ Ht) as K. destruct u; try contradiction; exact I.
Qed.
Theorem typed_can_inspect T root : In T (types_of P) -> of_type P T root -> nulls_ok (class_names root) root -> can_inspect root.
Proof.
  intros HT HR HN. pose proof (listed_property _ HT) as Hp.
  assert (Hs : property_shows T) by (pose proof (listed_ok _ HT) as K; destruct T; try contradiction; exact I).
  split; [eapply typed_well_formed; eauto|]. split; [eapply root_target; eauto|]. split; [eapply root_no_clash; eauto|].
  split; [eapply typed_inspectable; eauto|]. split; [eapply root_fingerprints; eauto|eapply root_same; eauto].
Qed.
End Program.
