(** What inspection depends on in a factory that has been used before. *)
From Coq Require Import Lia.
From Verif Require Import Base Proton ProtonProofs TypeNames Schema SpecSchema SchemaProofs SpecOrdering Descriptors SpecDescriptors
  Factory SpecFactory FactoryProofs Readers Blob SpecAccept AcceptProofs ContentsProofs SpecFrame.
Import List ListNotations.
Open Scope string_scope.

(** ** Processing goes the same way *)
Section Alike.
Context (M : string -> Prop).

(** Both have a reader for a type, or both have none; readers of primitives are
    made on demand. *)
Definition pres (f g : factory) : Prop := forall k, M k ->
  match assoc k (types f), assoc k (types g) with
  | None, None | Some None, Some None | Some (Some _), Some (Some _) => True
  | None, Some (Some _) | Some (Some _), None => readable_prim k
  | _, _ => False
  end.

Definition agree {A} (Q : A -> A -> Prop) (o o' : outcome factory A) : Prop :=
  match o, o' with
  | Ok a f, Ok b g => Q a b /\ pres f g
  | Throw e _, Throw e' _ => e = e'
  | Abort, Abort | UB, UB | Fuel, Fuel => True
  | _, _ => False
  end.
Definition any {A} (a b : A) : Prop := True.

Lemma agree_bind {A B} (Q : A -> A -> Prop) (Q' : B -> B -> Prop) (m m' : FM A) (k k' : A -> FM B) f g :
  agree Q (m f) (m' g) -> (forall a b f' g', m f = Ok a f' -> m' g = Ok b g' -> Q a b -> pres f' g' -> agree Q' (k a f') (k' b g')) ->
  agree Q' (bind m k f) (bind m' k' g).
Proof.
  unfold bind. intros H K. destruct (m f) as [a f'|e f'| | |], (m' g) as [b g'|e' g'| | |]; cbn [agree] in H; try tauto; try exact I.
  - destruct H. now apply K.

Qed.

Lemma pres_put f g k i j : pres f g -> pres (set_types (put k (Some i) (types f)) f) (set_types (put k (Some j) (types g)) g).
Proof. intros P q Hq. cbn [types set_types]. rewrite !assoc_put. destruct (String.eqb q k); [exact I|]. now apply P. Qed.
Lemma pres_heap f g f' g' : pres f g -> types f' = types f -> types g' = types g -> pres f' g'.
Proof. intros P E E' q Hq. rewrite E, E'. now apply P. Qed.

Lemma agree_property k f g : M k -> pres f g -> agree any (computeIfAbsent k (make_property k) f) (computeIfAbsent k (make_property k) g).
Proof.
  intros Hk P. pose proof (P k Hk) as Pk.
  assert (One : forall p, k = prim_name p -> makePropertyReader k = Exc RuntimeError -> False) by (intros p -> X; rewrite makePropertyReader_prim in X; discriminate).
  destruct (property_cases k f) as [(i & E & ->)|[(E & ->)|[(E & X & ->)|(p & f1 & E & Ep & X & ->)]]];
    destruct (property_cases k g) as [(j & E' & ->)|[(E' & ->)|[(E' & X' & ->)|(q & g1 & E' & Eq & X' & ->)]]];
    rewrite E, E' in Pk; cbn [agree]; try contradiction; try exact I; try reflexivity;
    try (match type of Pk with readable_prim _ => destruct Pk as [p0 Pk]; exfalso; now eauto end); try (exfalso; now eauto).
  - split; [exact I|exact P].
  - split; [exact I|]. injection X' as <-. intros r Hr. cbn [types set_types]. rewrite assoc_put. destruct (String.eqb_spec r k) as [-> |]; [|now apply P].
    now rewrite E.
  - split; [exact I|]. injection X as <-. intros r Hr. cbn [types set_types]. rewrite assoc_put. destruct (String.eqb_spec r k) as [-> |]; [|now apply P].
    now rewrite E'.
  - split; [exact I|]. injection X as <-. injection X' as <-. intros r Hr. cbn [types set_types]. rewrite !assoc_put.
    destruct (String.eqb r k); [exact I|]. now apply P.
Qed.

Definition both (p q : option nat) : Prop := p = None <-> q = None.
Lemma agree_at k f g : M k -> typeIsPrimitive k = false -> pres f g -> agree both (types_at k f) (types_at k g).
Proof.
  intros Hk Hp P. pose proof (P k Hk) as Pk. unfold types_at.
  destruct (assoc k (types f)) as [[i|]|], (assoc k (types g)) as [[j|]|]; cbn [agree]; try contradiction;
    try (apply readable_primitive in Pk; congruence); try (split; [unfold both; split; congruence|exact P]).
  split; [unfold both; tauto|]. intros r Hr. cbn [types set_types]. rewrite !assoc_put. destruct (String.eqb r k); [exact I|]. now apply P.
Qed.

Lemma agree_make r r' f g : pres f g -> agree any (make r f) (make r' g).
Proof. intros P. split; [exact I|]. exact P. Qed.

Lemma agree_readers name fds : Forall field_made fds -> (forall fd t, In fd fds -> resolvedType fd = Ret t -> M t) ->
  forall self self' f g, pres f g -> agree any (property_readers self name fds f) (property_readers self' name fds g).
Proof.
  induction fds as [|fd fds IH]; intros Hm HM self self' f g P; [split; [exact I|exact P]|]. cbn [property_readers].
  inversion Hm as [|? ? H1 H2]; subst. destruct (resolvedType fd) as [t| | | |] eqn:R; try (cbn; exact I); try reflexivity.
  unfold lift. unfold bind at 1 4.
  eapply agree_bind with (Q := both).
  - destruct (field_kind_prim fd t H1 R) as [(K & E & Ep)|[K Ep]].
    + rewrite K, E. eapply agree_bind; [apply agree_property; [exact (HM fd t (or_introl eq_refl) R)|exact P]|].
      intros a b f' g' _ _ _ P'. split; [unfold both; split; discriminate|exact P'].
    + assert (Hk : M t) by (exact (HM fd t (or_introl eq_refl) R)).
      destruct K as [K|[K|K]]; rewrite K; destruct (String.eqb t name);
        try (split; [unfold both; split; discriminate|exact P]); now apply agree_at.
  - intros p q f' g' _ _ B P'. destruct p as [i|], q as [j|]; try (destruct B as [B1 B2]; (specialize (B1 eq_refl) || specialize (B2 eq_refl)); discriminate).
    + eapply agree_bind; [apply IH; [exact H2|intros; eapply HM; [right|]; eauto|exact P']|]. intros. split; [exact I|assumption].
    + reflexivity.
Qed.

Lemma agree_fetch k f g : M k -> pres f g -> agree any (fetchReaderForRestricted k f) (fetchReaderForRestricted k g).
Proof.
  intros Hk P. unfold fetchReaderForRestricted. destruct (typeIsPrimitive k) eqn:E; [now apply agree_property|].
  eapply agree_bind; [now apply agree_at|]. intros p q f' g' _ _ B P'. destruct p as [i|], q as [j|];
    try (destruct B as [B1 B2]; (specialize (B1 eq_refl) || specialize (B2 eq_refl)); discriminate); [split; [exact I|exact P']|reflexivity].
Qed.

Lemma agree_entry kf t f g : made t -> (forall k, named_by t k -> M k) -> pres f g ->
  agree any (make_entry kf t f) (make_entry kf t g).
Proof.
  intros Hm HM P. destruct t as [c|x]; cbn [make_entry].
  - unfold processComposite. eapply agree_bind; [now apply agree_make|]. intros self self' f1 g1 E1 E2 _ P1.
    eapply agree_bind.
    { apply agree_readers; [exact Hm| |exact P1]. intros fd t Hin R. apply HM. exists fd. split; [exact Hin|]. apply resolved_property; [|exact R].
      cbn [made] in Hm. rewrite Forall_forall in Hm. auto. }
    intros ks ks' f2 g2 F1 F2 _ P2.
    apply make_result in E1 as (_ & N1 & _). apply make_result in E2 as (_ & N2 & _).
    apply (keeps_ok _ _ _ _ _ (property_readers_keeps _ _ _ _ (stable_ext f1) Hm) (ext_refl _)) in F1 as [F1 _].
    apply (keeps_ok _ _ _ _ _ (property_readers_keeps _ _ _ _ (stable_ext g1) Hm) (ext_refl _)) in F2 as [F2 _].
    apply F1 in N1. apply F2 in N2. unfold bind, install_kids. rewrite N1, N2. split; [exact I|]. exact P2.
  - pose proof (made_of x Hm) as Ho. cbn [named_by] in HM. unfold processRestricted. destruct (r_kind x).
    + destruct Ho as (e & He). eapply agree_bind; [apply agree_fetch; [|exact P]|intros; now apply agree_make].
      apply HM. unfold of0. rewrite He. now left.
    + destruct Ho as (k & v & He). assert (H0 : M (of0 x)) by (apply HM; unfold of0; rewrite He; now left).
      assert (H1 : M (of1 x)) by (apply HM; unfold of1; rewrite He; right; now left).
      unfold processMap. eapply agree_bind with (Q := any); [|intros [] [] ? ? ? ? _ ?; now apply agree_make].
      destruct kf; (eapply agree_bind; [apply agree_fetch; [|exact P]; assumption|]; intros ? ? ? ? _ _ _ P1;
        eapply agree_bind; [apply agree_fetch; [|exact P1]; assumption|]; intros; split; [exact I|assumption]).
    + now apply agree_make.
    + destruct Ho as (e & He). eapply agree_bind; [apply agree_fetch; [|exact P]|intros; now apply agree_make].
      apply HM. unfold of0. rewrite He. now left.
Qed.

Lemma agree_type kf t f g : proper t -> M (n_name t) -> (forall k, named_by t k -> M k) -> pres f g ->
  agree any (process_type kf t f) (process_type kf t g).
Proof.
  intros [Hm Hp] Hn HM P. change (typeIsPrimitive (n_name t) = false) in Hp. pose proof (made_entry t Hm) as He. pose proof (P _ Hn) as Pk. pose proof (agree_entry kf t f g Hm HM P) as K.
  destruct (process_type_cases kf t f He Hp) as [(i & E & ->)|[(E & ->)|(E & C)]];
    destruct (process_type_cases kf t g He Hp) as [(j & E' & ->)|[(E' & ->)|(E' & C')]];
    unfold absent in *; rewrite E in Pk; rewrite E' in Pk; try contradiction; try (apply readable_primitive in Pk; congruence).
  - split; [exact I|exact P].
  - exact I.
  - destruct C as [(i & f1 & r & A & _ & _ & _ & _ & ->)|[(e & f1 & A & ->)|[(-> & A)|[(-> & A)|(-> & A)]]]];
      destruct C' as [(j & g1 & r' & A' & _ & _ & _ & _ & ->)|[(e' & g1 & A' & ->)|[(-> & A')|[(-> & A')|(-> & A')]]]];
      rewrite A, A' in K; try contradiction; try exact I.
    + split; [exact I|]. apply pres_put, K.
    + exact K.
Qed.

Lemma agree_process_entry kf t f g : proper t -> M (n_name t) -> (forall k, named_by t k -> M k) -> pres f g ->
  agree any (process_entry kf t f) (process_entry kf t g).
Proof.
  intros Hp Hn HM P. unfold process_entry. eapply agree_bind; [now apply agree_type|]. intros _ _ f1 g1 _ _ _ P1.
  eapply agree_bind; [apply agree_at; [exact Hn|apply Hp|exact P1]|]. intros p q f2 g2 _ _ _ P2. split; [exact I|exact P2].
Qed.
Lemma agree_entries kf ts : Forall proper ts -> (forall k, mentioned ts k -> M k) -> forall f g, pres f g ->
  agree any (process_entries kf ts f) (process_entries kf ts g).
Proof.
  induction ts as [|t ts IH]; intros Hp HM f g P; [split; [exact I|exact P]|]. inversion Hp; subst. cbn [process_entries].
  eapply agree_bind; [apply agree_process_entry; auto|].
  - apply HM. exists t. split; [now left|now left].
  - intros k Hk. apply HM. exists t. split; [now left|now right].
  - intros _ _ f1 g1 _ _ _ P1. apply IH; auto. intros k (u & Hu & Hk). apply HM. exists u. split; [now right|exact Hk].
Qed.
End Alike.

(** ** The readers that result are alike *)

(** What is installed stays. *)
Lemma installed_there kf h f f' r : run kf h f f' -> In (Install r) h -> exists i, byType f' (reader_type r) = Some i /\ nth_error (heap f') i = Some r.
Proof.
  induction 1 as [|o h f f1 f2 Hc Hs R IH]; intros Hin; [destruct Hin|]. destruct Hin as [-> |Hin]; [|now apply IH].
  destruct Hc as [_ Hn]. destruct Hs as [Hs|[e Hs]]; [|discriminate]. destruct (install_ext r f f1 Hn Hs) as (_ & B & N & _).
  destruct (run_ext _ _ _ _ R) as [X1 X2]. exists (List.length (heap f)). split; [apply X2; exact B|apply X1; exact N].
Qed.

Section Same.
Context (kf : bool) (h1 h2 : list op) (f1 f2 : factory) (ts : list notation).
Context (R1 : run kf h1 new_factory f1) (R2 : run kf h2 new_factory f2).
Context (Hp : Forall proper ts) (A1 : apart h1 f1 ts) (A2 : apart h2 f2 ts).
Context (HI : forall r, mentioned ts (reader_type r) -> In (Install r) h1 <-> In (Install r) h2).

(** Where a reader comes from. *)
Lemma start_cases h f k i : run kf h new_factory f -> apart h f ts -> mentioned ts k -> byType f k = Some i ->
  exists r, nth_error (heap f) i = Some r /\ ((exists p, r = RProperty p /\ k = prim_name p) \/ (In (Install r) h /\ reader_type r = k)).
Proof.
  intros R A Hk B. destruct (history_backed _ _ _ R k i B) as (r & N & C). exists r. split; [exact N|].
  destruct C as [C|[[C E]|(t & Ht & E & _)]]; [left; exact C|right; split; [now apply installed_in|exact E]|].
  elim (proj1 A t Ht). now rewrite E.
Qed.

Lemma start_pres : pres (mentioned ts) f1 f2.
Proof.
  intros k Hk. pose proof (proj2 A1 k Hk) as U1. pose proof (proj2 A2 k Hk) as U2. unfold unpoisoned in *.
  destruct (assoc k (types f1)) as [[i|]|] eqn:E1, (assoc k (types f2)) as [[j|]|] eqn:E2; try congruence; auto.
  - apply byType_spec in E1. destruct (start_cases _ _ _ _ R1 A1 Hk E1) as (r & N & [(p & -> & ->)|[Hin E]]); [now exists p|].
    subst k. apply HI in Hin; [|exact Hk]. destruct (installed_there _ _ _ _ _ R2 Hin) as (j0 & B & _). apply byType_spec in B. congruence.
  - apply byType_spec in E2. destruct (start_cases _ _ _ _ R2 A2 Hk E2) as (r & N & [(p & -> & ->)|[Hin E]]); [now exists p|].
    subst k. apply HI in Hin; [|exact Hk]. destruct (installed_there _ _ _ _ _ R1 Hin) as (j0 & B & _). apply byType_spec in B. congruence.
Qed.

(** After processing. *)
Context (HU : forall t u, In t ts -> In u ts -> n_name t = n_name u -> t = u).
Context (g1 g2 : factory) (E1 : process_entries kf ts f1 = Ok tt g1) (E2 : process_entries kf ts f2 = Ok tt g2).

Lemma end_cases h f g k i : run kf h new_factory f -> apart h f ts -> process_entries kf ts f = Ok tt g -> mentioned ts k -> byType g k = Some i ->
  exists r, nth_error (heap g) i = Some r /\ lock g i = Some r /\
    ((exists p, r = RProperty p /\ k = prim_name p) \/ (In (Install r) h /\ reader_type r = k) \/ (exists t, In t ts /\ n_name t = k /\ reads g t r)).
Proof.
  intros R A E Hk B. pose proof (history_backed _ _ _ R) as K.
  assert (K' : backed (installed h) (entries_of h ++ ts) f) by (eapply backed_incl; [apply incl_refl| |exact K]; intros x Hx; apply in_or_app; now left).
  apply (keeps_ok _ _ _ _ _ (entries_backed kf (installed h) ts (entries_of h ++ ts) Hp ltac:(intros x Hx; apply in_or_app; now right)) K') in E.
  destruct (E k i B) as (r & N & C). exists r. split; [exact N|]. split; [eapply byType_lock; eauto|].
  destruct C as [C|[[C Er]|(t & Ht & Et & Rt)]]; [left; exact C|right; left; split; [now apply installed_in|exact Er]|].
  apply in_app_or in Ht as [Ht|Ht]; [elim (proj1 A t Ht); now rewrite Et|]. right; right; eauto.
Qed.

Definition alike (r r' : reader) : Prop :=
  (exists p, r = RProperty p /\ r' = RProperty p) \/ (is_custom r /\ r' = r) \/ exists t, In t ts /\ reads g1 t r /\ reads g2 t r'.

Lemma installed_custom h f r : run kf h new_factory f -> In (Install r) h -> is_custom r.
Proof.
  intros R. generalize new_factory R. clear R. induction h as [|o h IH]; intros f0 R [].
  - subst o. inversion R as [|? ? ? ? ? Hc]; subst. apply Hc.
  - inversion R; subst. eapply IH; eauto.
Qed.
Lemma end_installed h f g r : run kf h new_factory f -> process_entries kf ts f = Ok tt g -> In (Install r) h ->
  exists i, byType g (reader_type r) = Some i /\ nth_error (heap g) i = Some r.
Proof.
  intros R E Hin. destruct (installed_there _ _ _ _ _ R Hin) as (i & B & N).
  pose proof (entries_ext kf ts f (propers_okent _ Hp)) as X. rewrite E in X. destruct X as [X1 X2]. exists i. split; auto.
Qed.

Lemma end_alike k i j : mentioned ts k -> byType g1 k = Some i -> byType g2 k = Some j ->
  exists r r', nth_error (heap g1) i = Some r /\ nth_error (heap g2) j = Some r' /\
    lock g1 i = Some r /\ lock g2 j = Some r' /\ alike r r'.
Proof.
  intros Hk B1 B2. destruct (end_cases _ _ _ _ _ R1 A1 E1 Hk B1) as (r & N1 & L1 & C1).
  destruct (end_cases _ _ _ _ _ R2 A2 E2 Hk B2) as (r' & N2 & L2 & C2). exists r, r'. repeat (split; [assumption|]).
  assert (I1 : In (Install r) h1 -> reader_type r = k -> r' = r).
  { intros Hin <-. apply HI in Hin; [|exact Hk]. destruct (end_installed _ _ _ _ R2 E2 Hin) as (j' & B' & N'). congruence. }
  assert (I2 : In (Install r') h2 -> reader_type r' = k -> r = r').
  { intros Hin <-. apply HI in Hin; [|exact Hk]. destruct (end_installed _ _ _ _ R1 E1 Hin) as (j' & B' & N'). congruence. }
  assert (NP : forall t, In t ts -> typeIsPrimitive (n_name t) = false) by (intros t Ht; rewrite Forall_forall in Hp; now apply Hp).
  destruct C1 as [(p & -> & ->)|[[Hin E]|(t & Ht & <- & Rt)]].
  - destruct C2 as [(q & -> & Eq)|[[Hin E]|(t & Ht & E & Rt)]].
    + left. exists p. split; [reflexivity|]. destruct p, q; try discriminate; reflexivity.
    + right; left. rewrite <- (I2 Hin E). rewrite <- (I2 Hin E) in Hin. split; [|reflexivity]. exact (installed_custom _ _ _ R2 Hin).
    + pose proof (NP t Ht) as K. rewrite E, prim_name_primitive in K. discriminate.
  - right; left. split; [exact (installed_custom _ _ _ R1 Hin)|now apply I1].
  - destruct C2 as [(q & -> & Eq)|[[Hin E]|(t' & Ht' & E & Rt')]].
    + pose proof (NP t Ht) as K. rewrite Eq, prim_name_primitive in K. discriminate.
    + right; left. rewrite (I2 Hin E). split; [|reflexivity]. exact (installed_custom _ _ _ R2 Hin).
    + right; right. exists t. rewrite (HU t' t Ht' Ht E) in Rt'. auto.
Qed.

(** ** and show the same *)
Section Dump.
Context (fmt : N -> string) (custom : nat -> option string -> PM ivalue) (ke : bool) (s : schema).
Notation dump1 := (dump fmt custom ke g1 s).
Notation dump2 := (dump fmt custom ke g2 s).

Lemma bind_same {A B} (m m' : PM A) (k k' : A -> PM B) d : m d = m' d -> (forall a d, k a d = k' a d) -> bind m k d = bind m' k' d.
Proof. unfold bind. intros -> H. destruct (m' d); auto. Qed.
Lemma finally_same {A} (m m' : PM A) x d : m d = m' d -> finally m x d = finally m' x d.
Proof. unfold finally. now intros ->. Qed.

Lemma dump_same fuel : forall r r' name d, alike r r' -> dump1 fuel r name d = dump2 fuel r' name d.
Proof.
  induction fuel as [|fuel IH]; intros r r' name d H; [reflexivity|].
  assert (L : forall k i j, mentioned ts k -> byType g1 k = Some i -> byType g2 k = Some j ->
    exists q q', lock g1 i = Some q /\ lock g2 j = Some q' /\ alike q q').
  { intros k i j Hk B1 B2. destruct (end_alike k i j Hk B1 B2) as (q & q' & _ & _ & X1 & X2 & X3). eauto. }
  assert (El : forall q q' n d, alike q q' -> dump_elements (dump1 fuel) n (Some q) d = dump_elements (dump2 fuel) n (Some q') d).
  { intros q q' n. induction n as [|n IHn]; intros e Hq; [reflexivity|]. cbn [dump_elements].
    apply bind_same; [now apply IH|]. intros a e1. apply bind_same; [now apply IHn|]. reflexivity. }
  assert (Em : forall q q' p p' n d, alike q q' -> alike p p' ->
    dump_entries ke (dump1 fuel) n (Some q) (Some p) d = dump_entries ke (dump2 fuel) n (Some q') (Some p') d).
  { intros q q' p p' n e Hq Hr. revert n e. refine (well_founded_induction Wf_nat.lt_wf _ _). intros [|n] IHn e; [reflexivity|]. cbn [dump_entries].
    apply bind_same.
    - unfold dump_entry, dump_through. destruct ke; (apply bind_same; [now apply IH|]; intros a e1; apply bind_same; [now apply IH|]; reflexivity).
    - intros a e1. apply bind_same; [apply IHn; lia|]. reflexivity. }
  destruct H as [(p & -> & ->)|[[Hc ->]|(t & Ht & H1 & H2)]].
  - reflexivity.
  - destruct r; try contradiction; reflexivity.
  - assert (HM : forall k, named_by t k -> mentioned ts k) by (intros k Hk; exists t; auto).
    destruct t as [c|x]; cbn [reads named_by] in *.
    + destruct H1 as (ks & -> & F1). destruct H2 as (ks' & -> & F2). cbn [dump]. unfold dump_composite, auto_next. apply finally_same.
      destruct (is_null d); [reflexivity|]. apply bind_same; [|reflexivity].
      assert (Q : Forall2 (fun i j => exists k, mentioned ts k /\ byType g1 k = Some i /\ byType g2 k = Some j) ks ks').
      { clear - F1 F2 HM. assert (HF : forall fd ty, In fd (c_fields c) -> property_type fd = Some ty -> mentioned ts ty) by eauto. clear HM.
        revert ks ks' F1 F2. induction (c_fields c) as [|fd fds IHf]; intros ks ks' F1 F2.
        - inversion F1; subst; inversion F2; subst. constructor.
        - inversion F1 as [|? i ? l1 (ty & T1 & B1) G1]; subst; inversion F2 as [|? j ? l2 (ty' & T2 & B2) G2]; subst. constructor.
          + exists ty. rewrite T1 in T2. injection T2 as <-. split; [|auto]. eapply HF; [now left|eassumption].
          + apply IHf; auto. intros fd' ty0 Hin. apply HF. now right. }
      assert (En : List.length ks = List.length ks') by (clear - Q; induction Q; cbn [List.length]; congruence).
      assert (Df : forall fds e, dump_fields g1 (dump1 fuel) fds ks e = dump_fields g2 (dump2 fuel) fds ks' e).
      { clear - Q L IH. induction Q as [|i j ks ks' (k & Hk & B1 & B2) Q IHQ]; intros [|fd fds] e; try reflexivity. cbn [dump_fields].
        destruct (L k i j Hk B1 B2) as (q & q' & -> & -> & A). apply bind_same; [now apply IH|]. intros v e1.
        apply bind_same; [apply IHQ|]. reflexivity. }
      unfold composite_dump_. apply bind_same; [reflexivity|]. intros _ e. unfold auto_enter. apply finally_same.
      apply bind_same; [reflexivity|]. intros sym e1. apply bind_same; [reflexivity|]. intros [c'|x'] e2; [|reflexivity]. rewrite En.
      destruct (Nat.eqb _ _); [|reflexivity]. apply bind_same; [reflexivity|]. intros _ e3. apply bind_same; [reflexivity|]. intros _ e4.
      apply finally_same. apply Df.
    + destruct (r_kind x).
      * destruct H1 as (el & i & -> & Ho & B1). destruct H2 as (el' & j & -> & Ho' & B2). rewrite Ho in Ho'. injection Ho' as <-.
        cbn [dump]. unfold dump_list, auto_next. apply finally_same. apply bind_same; [|reflexivity].
        destruct (L el i j (HM el ltac:(rewrite Ho; now left)) B1 B2) as (q & q' & L1 & L2 & A).
        unfold list_dump_. apply bind_same; [reflexivity|]. intros _ e. unfold auto_enter. apply finally_same.
        apply bind_same; [reflexivity|]. intros fp e1. apply bind_same; [reflexivity|]. intros n e2.
        unfold auto_list_enter. apply finally_same. rewrite L1, L2. now apply El.
      * destruct H1 as (k & v & i1 & i2 & -> & Ho & B1 & B1'). destruct H2 as (k' & v' & j1 & j2 & -> & Ho' & B2 & B2'). rewrite Ho in Ho'. injection Ho' as <- <-.
        cbn [dump]. unfold dump_map, auto_next. apply finally_same. apply bind_same; [|reflexivity].
        destruct (L k i1 j1 (HM k ltac:(rewrite Ho; now left)) B1 B2) as (q & q' & L1 & L2 & A).
        destruct (L v i2 j2 (HM v ltac:(rewrite Ho; right; now left)) B1' B2') as (p & p' & L1' & L2' & A').
        unfold map_dump_. apply bind_same; [reflexivity|]. intros _ e. unfold auto_enter. apply finally_same.
        apply bind_same; [reflexivity|]. intros fp e1. apply bind_same; [reflexivity|]. intros n e2.
        unfold auto_map_enter. apply finally_same. rewrite L1, L2, L1', L2'. now apply Em.
      * subst r r'. reflexivity.
      * destruct H1 as (el & i & -> & Ho & B1). destruct H2 as (el' & j & -> & Ho' & B2). rewrite Ho in Ho'. injection Ho' as <-.
        cbn [dump]. unfold dump_list, auto_next. apply finally_same. apply bind_same; [|reflexivity].
        destruct (L el i j (HM el ltac:(rewrite Ho; now left)) B1 B2) as (q & q' & L1 & L2 & A).
        unfold list_dump_. apply bind_same; [reflexivity|]. intros _ e. unfold auto_enter. apply finally_same.
        apply bind_same; [reflexivity|]. intros fp e1. apply bind_same; [reflexivity|]. intros n e2.
        unfold auto_list_enter. apply finally_same. rewrite L1, L2. now apply El.
Qed.
End Dump.
End Same.

(** The entry a fingerprint leads to is the last one that has it. *)
Fixpoint last_with (d : string) (ts : list notation) : option notation :=
  match ts with
  | [] => None
  | t :: ts' => match last_with d ts' with
                | Some u => Some u
                | None => if String.eqb d (n_descriptor t) then Some t else None
                end
  end.
Lemma last_with_in d ts t : last_with d ts = Some t -> In t ts.
Proof.
  induction ts as [|u ts IH]; cbn; [discriminate|]. destruct (last_with d ts) as [v|]; [intros [= ->]; auto|].
  destruct (String.eqb d (n_descriptor u)); [intros [= ->]; auto|discriminate].
Qed.
Lemma last_with_none d ts : last_with d ts = None -> ~ In d (map n_descriptor ts).
Proof.
  induction ts as [|u ts IH]; cbn; [tauto|]. destruct (last_with d ts) as [v|]; [discriminate|].
  destruct (String.eqb_spec d (n_descriptor u)); [discriminate|]. intros _ [E|E]; [congruence|now apply IH].
Qed.
Lemma entries_last kf d ts : Forall proper ts -> forall f g, process_entries kf ts f = Ok tt g ->
  match last_with d ts with
  | Some t => exists i, byDescriptor g d = Some i /\ byType g (n_name t) = Some i
  | None => byDescriptor g d = byDescriptor f d
  end.
Proof.
  induction ts as [|t ts IH]; intros Hp f g H; cbn [process_entries] in H.
  - injection H as <-. reflexivity.
  - apply bind_Ok in H as ([] & f1 & H1 & H2). apply Forall_cons_iff in Hp as [Ht Hp].
    destruct (process_entry_cases kf t f (proper_okent t Ht)) as [(i & f0 & E & Hi & Hd & E1)|[(e & f0 & E & E1)|[E1|[E1|E1]]]];
      rewrite E1 in H1; try discriminate. injection H1 as <-.
    pose proof (entries_ext kf ts _ (propers_okent _ Hp) : lands (ext (set_descriptors (put (n_descriptor t) (Some i) (descriptors f0)) f0)) _) as X.
    rewrite H2 in X. specialize (IH Hp _ _ H2). cbn [last_with]. destruct (last_with d ts) as [u|]; [exact IH|].
    rewrite byDescriptor_put in IH. destruct (String.eqb d (n_descriptor t)).
    + exists i. split; [exact IH|]. apply X. exact Hi.
    + rewrite IH. unfold byDescriptor. now rewrite Hd.
Qed.

Theorem other_uses_read fmt custom mo kf fuel h1 f1 h2 f2 t :
  run mo h1 new_factory f1 -> run mo h2 new_factory f2 ->
  (forall e, read_envelope fuel (decoded t) = Ok e (decoded t) -> let ts := List.concat (s_types (e_schema e)) in
     (forall u, In u ts -> typeIsPrimitive (n_name u) = false) /\
     (forall u v, In u ts -> In v ts -> n_name u = n_name v -> u = v) /\
     apart h1 f1 ts /\ apart h2 f2 ts /\
     (forall r, mentioned ts (reader_type r) -> In (Install r) h1 <-> In (Install r) h2) /\
     (In (e_descriptor e) (map n_descriptor ts) \/
      ~ In (e_descriptor e) (map n_descriptor (entries_of h1)) /\ ~ In (e_descriptor e) (map n_descriptor (entries_of h2)))) ->
  same_result (dumpContents fmt custom mo kf fuel (decoded t, f1)) (dumpContents fmt custom mo kf fuel (decoded t, f2)).
Proof.
  intros R1 R2 H. unfold dumpContents, bind, on_data at 1 3.
  destruct (read_envelope fuel (decoded t)) as [e d|e d| | |] eqn:E; cbn; auto.
  apply read_envelope_inv in E. pose proof (parsed_made _ _ _ _ E) as Hm. apply accepts_only in E as [-> _]. fold (decoded t) in *.
  destruct (H e eq_refl) as (Hn & HU & A1 & A2 & HI & HD). clear H. unfold process.
  assert (Hp : Forall proper (List.concat (s_types (e_schema e)))).
  { apply Forall_forall. intros u Hu. split; [|now apply Hn]. cbn in Hm. rewrite Forall_forall in Hm. now apply Hm. }
  pose proof (start_pres mo h1 h2 f1 f2 _ R1 R2 A1 A2 HI) as P.
  pose proof (agree_entries _ mo _ Hp (fun k Hk => Hk) f1 f2 P) as G.
  destruct (process_entries mo (List.concat (s_types (e_schema e))) f1) as [[] g1|e1 g1| | |] eqn:E1,
           (process_entries mo (List.concat (s_types (e_schema e))) f2) as [[] g2|e2 g2| | |] eqn:E2; cbn [agree] in G; try contradiction; cbn; auto.
  set (d := e_descriptor e) in *. set (ts := List.concat (s_types (e_schema e))) in *.
  pose proof (entries_last mo d ts Hp _ _ E1) as L1. pose proof (entries_last mo d ts Hp _ _ E2) as L2.
  destruct (last_with d ts) as [u|] eqn:Lu.
  - destruct L1 as (i & D1 & B1). destruct L2 as (j & D2 & B2). rewrite D1, D2.
    assert (Hu : mentioned ts (n_name u)) by (exists u; split; [now apply (last_with_in d)|now left]).
    destruct (end_alike mo h1 h2 f1 f2 ts R1 R2 Hp A1 A2 HI HU g1 g2 E1 E2 _ _ _ Hu B1 B2) as (r & r' & N1 & N2 & _ & _ & Al).
    unfold reader_at. rewrite N1, N2. unfold on_data.
    assert (Ed : dump_payload fmt custom kf fuel g1 (e_schema e) r (decoded t) = dump_payload fmt custom kf fuel g2 (e_schema e) r' (decoded t)).
    { unfold dump_payload, auto_enter. apply finally_same. apply bind_same; [reflexivity|]. intros _ d1. apply bind_same; [reflexivity|]. intros _ d2.
      apply finally_same. apply bind_same; [|reflexivity].
      exact (dump_same mo h1 h2 f1 f2 ts R1 R2 Hp A1 A2 HI HU g1 g2 E1 E2 fmt custom kf (e_schema e) fuel r r' _ _ Al). }
    rewrite Ed. destruct (dump_payload fmt custom kf fuel g2 (e_schema e) r' (decoded t)); cbn; auto.
  - apply last_with_none in Lu. destruct HD as [HD|[D1 D2]]; [contradiction|]. rewrite L1, L2.
    assert (K : forall h f, run mo h new_factory f -> ~ In d (map n_descriptor (entries_of h)) -> byDescriptor f d = None).
    { intros h f R Hd. destruct (byDescriptor f d) as [i|] eqn:Ei; [|reflexivity].
      destruct (history_pointed _ _ _ R d i Ei) as (u & Hu & Eu & _). elim Hd. rewrite <- Eu. now apply in_map. }
    rewrite (K h1 f1 R1 D1), (K h2 f2 R2 D2). exact I.
Qed.

Theorem other_uses fmt custom mo kf fuel h1 f1 h2 f2 t :
  run mo h1 new_factory f1 -> run mo h2 new_factory f2 ->
  (forall e, accepted_envelope t e -> let ts := List.concat (s_types (e_schema e)) in
     (forall u, In u ts -> typeIsPrimitive (n_name u) = false) /\
     (forall u v, In u ts -> In v ts -> n_name u = n_name v -> u = v) /\
     apart h1 f1 ts /\ apart h2 f2 ts /\
     (forall r, mentioned ts (reader_type r) -> In (Install r) h1 <-> In (Install r) h2) /\
     (In (e_descriptor e) (map n_descriptor ts) \/
      ~ In (e_descriptor e) (map n_descriptor (entries_of h1)) /\ ~ In (e_descriptor e) (map n_descriptor (entries_of h2)))) ->
  same_result (dumpContents fmt custom mo kf fuel (decoded t, f1)) (dumpContents fmt custom mo kf fuel (decoded t, f2)).
Proof.
  intros R1 R2 H. apply (other_uses_read fmt custom mo kf fuel h1 f1 h2 f2 t R1 R2). intros e E. apply H.
  apply read_envelope_inv in E. now apply accepts_only in E as [_ A].
Qed.
