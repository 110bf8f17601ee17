(** Proofs for C99. *)
From Coq Require Import Lia.
From Verif Require Import SpecTypes Base Proton ProtonProofs TypeNames Schema SpecSchema SpecOrdering SchemaProofs Descriptors SpecDescriptors DescriptorsProofs
  Factory SpecFactory FactoryProofs Readers SpecReaders Blob ReadersProofs Writer SpecWriter Deserialise SpecDeserialise DeserialiseProofs Copies SpecCopies.
Import List ListNotations.
Open Scope string_scope.

(** ** The same as without counting *)

Definition tracks {A} (P : nat -> Prop) (m : CM A) (m0 : PM A) : Prop := forall d l,
  match m (d, l), m0 d with
  | Ok a (d', l'), Ok a0 d0 => a = a0 /\ d' = d0 /\ exists w, l' = (l ++ w)%list /\ Forall P w
  | Throw e (d', l'), Throw e0 d0 => e = e0 /\ d' = d0 /\ exists w, l' = (l ++ w)%list /\ Forall P w
  | Abort, Abort | UB, UB | Fuel, Fuel => True
  | _, _ => False
  end.

Section Tracks.
Context (P : nat -> Prop).
Lemma tracks_plain {A} (m : PM A) : tracks P (plain m) m.
Proof.
  intros d l. unfold plain. destruct (m d); auto; repeat split; exists []; rewrite app_nil_r; auto.
Qed.
Lemma tracks_ret {A} (a : A) : tracks P (ret a) (ret a).
Proof. exact (tracks_plain (ret a)). Qed.
Lemma tracks_throw {A} e : tracks P (@throw _ A e) (throw e).
Proof. exact (tracks_plain (@throw _ A e)). Qed.
Lemma tracks_lift {A} (m : res A) : tracks P (lift m) (lift m).
Proof. intros d l. unfold lift. destruct m; auto; repeat split; exists []; rewrite app_nil_r; auto. Qed.
Lemma tracks_ub {A} : tracks P (@ub _ A) ub.
Proof. intros d l. exact I. Qed.
Lemma tracks_abort {A} : tracks P (@abort _ A) abort.
Proof. intros d l. exact I. Qed.
Lemma tracks_bind {A B} (m : CM A) m0 (k : A -> CM B) k0 : tracks P m m0 -> (forall a, tracks P (k a) (k0 a)) ->
  tracks P (bind m k) (bind m0 k0).
Proof.
  intros H1 H2 d l. unfold bind. specialize (H1 d l).
  destruct (m (d, l)) as [a [d' l']|e [d' l']| | |], (m0 d) as [a0 d0|e0 d0| | |]; try contradiction; auto.
  destruct H1 as (<- & <- & w & -> & Hw). specialize (H2 a d' (l ++ w)%list).
  destruct (k a (d', l ++ w)%list) as [b [d2 l2]|e [d2 l2]| | |], (k0 a d') as [b0 d0|e0 d0| | |]; try contradiction; auto;
    destruct H2 as (<- & <- & w2 & -> & Hw2); repeat split; exists (w ++ w2)%list; rewrite app_assoc; split; auto; now apply Forall_app.
Qed.
Lemma tracks_finally {A} (m : CM A) m0 g : tracks P m m0 -> tracks P (finally m (move g)) (finally m0 g).
Proof.
  intros H d l. unfold finally. specialize (H d l).
  destruct (m (d, l)) as [a [d' l']|e [d' l']| | |], (m0 d) as [a0 d0|e0 d0| | |]; try contradiction; auto;
    destruct H as (<- & <- & w & -> & Hw); unfold move; cbn; eauto.
Qed.
Lemma tracks_next {A} (m : CM A) m0 : tracks P m m0 -> tracks P (next_after m) (auto_next m0).
Proof. intros H. now apply tracks_finally. Qed.
Lemma tracks_entered {A} b (m : CM A) m0 : tracks P m m0 -> tracks P (entered b m) (auto_enter b m0).
Proof. intros H d l. unfold entered, auto_enter, move at 2. cbn [fst snd]. now apply tracks_finally. Qed.
Lemma tracks_list {A} b (m : nat -> CM A) m0 : (forall n, tracks P (m n) (m0 n)) -> tracks P (list_entered b m) (auto_list_enter b m0).
Proof. intros H d l. unfold list_entered, auto_list_enter, move at 2. cbn [fst snd]. now apply tracks_finally. Qed.
Lemma tracks_map {A} b (m : nat -> CM A) m0 : (forall n, tracks P (m n) (m0 n)) -> tracks P (map_entered b m) (auto_map_enter b m0).
Proof. intros H d l. unfold map_entered, auto_map_enter, move at 2. cbn [fst snd]. now apply tracks_finally. Qed.

Lemma tracks_copied : (forall n, P n) -> tracks P copied_binary readAndNext_binary.
Proof.
  intros H d l. unfold copied_binary. destruct (readAndNext_binary d); auto; repeat split; eexists; split; eauto.
  now rewrite app_nil_r.
Qed.

Context (fmt : N -> string) (custom : nat -> option string -> PM ivalue) (kf : bool) (f : factory) (s : schema).
Definition may (r : reader) : Prop := copier r = true -> forall n, P n.

Section Nested.
Context (rec : reader -> option string -> CM ivalue) (rec0 : reader -> option string -> PM ivalue).
Hypothesis Hrec : forall r name, may r -> tracks P (rec r name) (rec0 r name).
Hypothesis Hheap : forall r, In r (heap f) -> may r.

Lemma lock_may i r : lock f i = Some r -> may r.
Proof. unfold lock. destruct (_ || _); [|discriminate]. intros H. apply nth_error_In in H. auto. Qed.

Lemma tracks_fields fs : forall ks, tracks P (c_fields_ f rec fs ks) (dump_fields f rec0 fs ks).
Proof.
  induction fs as [|fd fs IH]; intros [|k ks]; try apply tracks_ret. cbn [c_fields_ dump_fields].
  destruct (lock f k) as [r|] eqn:E; [|apply tracks_throw].
  apply tracks_bind; [apply Hrec; eapply lock_may; eauto|]. intros v. apply tracks_bind; [apply IH|]. intros vs. apply tracks_ret.
Qed.
Lemma tracks_composite ks name : tracks P (c_composite f s rec ks name) (dump_composite f s rec0 ks name).
Proof.
  apply tracks_next. intros d l. cbn [fst]. destruct (is_null d); [apply tracks_ret|].
  revert d l. apply tracks_bind; [|intros vs; apply tracks_ret]. unfold c_composite_, composite_dump_.
  apply tracks_bind; [apply tracks_plain|]. intros _. apply tracks_entered.
  apply tracks_bind; [apply tracks_plain|]. intros sym. apply tracks_bind; [apply tracks_lift|]. intros [c|r]; [|apply tracks_throw].
  destruct (Nat.eqb _ _); [|apply tracks_abort].
  apply tracks_bind; [apply tracks_plain|]. intros _. apply tracks_bind; [apply tracks_plain|]. intros _. apply tracks_entered, tracks_fields.
Qed.
Lemma tracks_elements r : (forall r', r = Some r' -> may r') -> forall n, tracks P (c_elements rec n r) (dump_elements rec0 n r).
Proof.
  intros Hr. induction n as [|n IH]; [apply tracks_ret|]. cbn [c_elements dump_elements]. destruct r as [r|]; [|apply tracks_ub].
  apply tracks_bind; [now apply Hrec, Hr|]. intros v. apply tracks_bind; [exact IH|]. intros vs. apply tracks_ret.
Qed.
Lemma tracks_c_list k name : tracks P (c_list f s rec k name) (dump_list f s rec0 k name).
Proof.
  apply tracks_next, tracks_bind; [|intros vs; apply tracks_ret].
  apply tracks_bind; [apply tracks_plain|]. intros _. apply tracks_entered.
  apply tracks_bind; [apply tracks_plain|]. intros fp. apply tracks_bind; [apply tracks_lift|]. intros _.
  apply tracks_list. apply tracks_elements. intros r. apply lock_may.
Qed.
Lemma tracks_through r : (forall r', r = Some r' -> may r') -> tracks P (c_through rec r) (dump_through rec0 r).
Proof. intros Hr. destruct r as [r|]; [now apply Hrec, Hr|apply tracks_ub]. Qed.
Lemma tracks_entries k v : (forall r', k = Some r' -> may r') -> (forall r', v = Some r' -> may r') ->
  forall n, tracks P (c_entries kf rec n k v) (dump_entries kf rec0 n k v).
Proof.
  intros Hk Hv n. induction n as [n IH] using lt_wf_ind. destruct n as [|n]; [apply tracks_ret|]. cbn [c_entries dump_entries].
  apply tracks_bind; [|intros e; apply tracks_bind; [apply IH; lia|intros es; apply tracks_ret]].
  unfold c_entry, dump_entry. destruct kf;
    (apply tracks_bind; [now apply tracks_through|]; intros a; apply tracks_bind; [now apply tracks_through|]; intros b; apply tracks_ret).
Qed.
Lemma tracks_c_map k v name : tracks P (c_map kf f s rec k v name) (dump_map kf f s rec0 k v name).
Proof.
  apply tracks_next, tracks_bind; [|intros vs; apply tracks_ret].
  apply tracks_bind; [apply tracks_plain|]. intros _. apply tracks_entered.
  apply tracks_bind; [apply tracks_plain|]. intros fp. apply tracks_bind; [apply tracks_lift|]. intros _.
  apply tracks_map. apply tracks_entries; intros r; apply lock_may.
Qed.
End Nested.

Lemma tracks_dump : (forall r, In r (heap f) -> may r) -> forall fuel r name, may r ->
  tracks P (c_dump fmt custom kf f s fuel r name) (dump fmt custom kf f s fuel r name).
Proof.
  intros Hheap. induction fuel as [|fuel IH]; intros r name Hr; [intros d l; exact I|]. cbn [c_dump dump].
  destruct r as [p|ty ks|ty cs|ty k|ty k|ty k v| |ty w].
  - destruct p; try apply tracks_plain. apply tracks_bind; [now apply tracks_copied, Hr|]. intros v. apply tracks_ret.
  - now apply tracks_composite.
  - apply tracks_plain.
  - now apply tracks_c_list.
  - now apply tracks_c_list.
  - now apply tracks_c_map.
  - destruct name as [n|]; [|apply tracks_throw]. cbn [c_public_key dump_public_key].
    apply tracks_next, tracks_bind; [apply tracks_plain|]. intros _. apply tracks_entered.
    apply tracks_bind; [apply tracks_plain|]. intros _. apply tracks_bind; [apply tracks_plain|]. intros _.
    apply tracks_bind; [now apply tracks_copied, Hr|]. intros v. apply tracks_ret.
  - apply tracks_plain.
Qed.
Lemma tracks_payload fuel r : (forall r, In r (heap f) -> may r) -> may r ->
  tracks P (c_payload fmt custom kf fuel f s r) (dump_payload fmt custom kf fuel f s r).
Proof.
  intros Hheap Hr. apply tracks_entered. apply tracks_bind; [apply tracks_plain|]. intros _. apply tracks_bind.
  - intros d l. cbn [fst]. destruct (Nat.eqb _ _); [apply tracks_ret|exact I].
  - intros _. apply tracks_entered, tracks_bind; [now apply tracks_dump|]. intros v. apply tracks_ret.
Qed.
End Tracks.

(** [dumpContents] and its counting version, for any property of the copies. *)
Lemma tracks_contents (P : nat -> Prop) fmt custom mo kf fuel d cf l :
  (forall e d', read_envelope fuel d = Ok e d' -> forall u cf', process mo (e_schema e) cf = Ok u cf' -> forall r, In r (heap cf') -> may P r) ->
  match c_dumpContents fmt custom mo kf fuel (d, cf, l), dumpContents fmt custom mo kf fuel (d, cf) with
  | Ok a (st, l'), Ok a0 st0 => a = a0 /\ st = st0 /\ exists w, l' = (l ++ w)%list /\ Forall P w
  | Throw e (st, l'), Throw e0 st0 => e = e0 /\ st = st0 /\ exists w, l' = (l ++ w)%list /\ Forall P w
  | Abort, Abort | UB, UB | Fuel, Fuel => True
  | _, _ => False
  end.
Proof.
  intros H. unfold c_dumpContents, dumpContents, bind, uncopied, on_data, on_data_c, on_factory.
  assert (N : exists w, l = (l ++ w)%list /\ Forall P w) by (exists []; rewrite app_nil_r; auto).
  destruct (read_envelope fuel d) as [e d1|x d1| | |] eqn:E; auto. specialize (H e d1 eq_refl).
  destruct (process mo (e_schema e) cf) as [u cf1|x cf1| | |] eqn:Ep; auto.
  cbn [fst snd]. destruct (byDescriptor cf1 (e_descriptor e)) as [i|]; [|exact I].
  destruct (reader_at i cf1) as [r|] eqn:Er; [|exact I]. specialize (H u cf1 eq_refl).
  assert (Hr : may P r) by (apply H; eapply nth_error_In; exact Er).
  pose proof (tracks_payload P fmt custom kf cf1 (e_schema e) fuel r H Hr d1 l) as T.
  destruct (c_payload fmt custom kf fuel cf1 (e_schema e) r (d1, l)) as [a [d2 l2]|x [d2 l2]| | |],
    (dump_payload fmt custom kf fuel cf1 (e_schema e) r d1) as [a0 d0|x0 d0| | |]; try contradiction; auto;
    destruct T as (<- & <- & T); auto.
Qed.

(** ** Without binary values nothing is copied *)

Definition clean (f : factory) : Prop := forall r, In r (heap f) -> copier r = false.
Definition keeps {A} (m : FM A) : Prop := forall f, clean f ->
  match m f with Ok _ f' | Throw _ f' => clean f' | _ => True end.
Lemma keeps_bind {A B} (m : FM A) (k : A -> FM B) : keeps m -> (forall a, keeps (k a)) -> keeps (bind m k).
Proof. intros H1 H2 f C. unfold bind. specialize (H1 f C). destruct (m f); auto. now apply H2. Qed.
Lemma keeps_ret {A} (a : A) : keeps (ret a).
Proof. intros f C. exact C. Qed.
Lemma keeps_throw {A} e : keeps (@throw _ A e).
Proof. intros f C. exact C. Qed.
Lemma keeps_make r : copier r = false -> keeps (Factory.make r).
Proof. intros H f C x Hx. cbn in Hx. apply in_app_or in Hx as [Hx|[<- |[]]]; auto. Qed.
Lemma keeps_types_at k : keeps (types_at k).
Proof. intros f C. unfold types_at. destruct assoc; exact C. Qed.
Lemma keeps_compute k m : keeps m -> keeps (computeIfAbsent k m).
Proof.
  intros H f C. unfold computeIfAbsent. destruct assoc as [[i|]|]; auto.
  revert f C. apply (keeps_bind m); [exact H|]. intros i f C.
  destruct nth_error as [r|]; [|exact I]. destruct (String.eqb _ _); [exact C|exact I].
Qed.
Lemma keeps_property t : t <> "binary" -> keeps (make_property t).
Proof.
  intros H f C. unfold make_property, bind, lift, makePropertyReader.
  repeat match goal with |- context [String.eqb ?a ?b] => destruct (String.eqb_spec a b); [try (now apply keeps_make); contradiction|] end.
  exact C.
Qed.
Lemma keeps_fetch t : t <> "binary" -> keeps (fetchReaderForRestricted t).
Proof.
  intros H. unfold fetchReaderForRestricted. destruct (typeIsPrimitive t); [now apply keeps_compute, keeps_property|].
  apply keeps_bind; [apply keeps_types_at|]. intros [i|]; [apply keeps_ret|apply keeps_throw].
Qed.
Lemma keeps_properties self name fs : (forall fd, In fd fs -> f_type fd <> "binary") -> keeps (property_readers self name fs).
Proof.
  induction fs as [|fd fs IH]; intros H; cbn [property_readers]; [apply keeps_ret|].
  apply keeps_bind. { intros f C. unfold lift. destruct (resolvedType fd); auto. }
  intros t. apply keeps_bind.
  - destruct (f_kind fd); try (destruct (String.eqb t name); [apply keeps_ret|]); try apply keeps_types_at.
    apply keeps_bind; [apply keeps_compute, keeps_property, H; now left|]. intros i. apply keeps_ret.
  - intros [i|]; [|apply keeps_throw]. apply keeps_bind; [apply IH; intros x Hx; apply H; now right|]. intros is. apply keeps_ret.
Qed.
Lemma of_binary (r : restricted) : ~ In "binary" (r_of r) -> of0 r <> "binary" /\ of1 r <> "binary".
Proof.
  intros H. unfold of0, of1. destruct (r_of r) as [|a [|b l]]; cbn in *; split; intros E; (discriminate || apply H; subst; tauto).
Qed.
Lemma keeps_type kf t : no_binary t -> keeps (process_type kf t).
Proof.
  intros H. unfold process_type. apply keeps_compute. destruct t as [c|r]; cbn [no_binary] in H.
  - apply keeps_bind; [now apply keeps_make|]. intros self. apply keeps_bind; [now apply keeps_properties|]. intros ks.
    apply keeps_bind; [|intros _; apply keeps_ret]. intros f C. unfold install_kids. destruct nth_error as [x|] eqn:E; [|exact I].
    destruct x; auto. intros y Hy. cbn in Hy. apply in_app_or in Hy as [Hy|[<- |Hy]]; [|reflexivity|].
    + apply C. rewrite <- (firstn_skipn self (heap f)). apply in_or_app. now left.
    + apply C. rewrite <- (firstn_skipn (S self) (heap f)). apply in_or_app. now right.
  - apply of_binary in H as [H0 H1]. unfold processRestricted. destruct (r_kind r).
    + apply keeps_bind; [now apply keeps_fetch|]. intros e. now apply keeps_make.
    + unfold processMap. apply keeps_bind; [|intros [k v]; now apply keeps_make].
      destruct kf; (apply keeps_bind; [now apply keeps_fetch|]); intros a; (apply keeps_bind; [now apply keeps_fetch|]); intros b; apply keeps_ret.
    + now apply keeps_make.
    + apply keeps_bind; [now apply keeps_fetch|]. intros e. now apply keeps_make.
Qed.
Lemma keeps_process kf s : Forall no_binary (List.concat (s_types s)) -> keeps (process kf s).
Proof.
  unfold process. induction (List.concat (s_types s)) as [|t ts IH]; intros H; cbn [process_entries]; [apply keeps_ret|].
  apply Forall_inv in H as Ht. apply Forall_inv_tail in H.
  apply keeps_bind; [|intros _; now apply IH]. apply keeps_bind; [now apply keeps_type|]. intros _.
  apply keeps_bind; [apply keeps_types_at|]. intros p f C. exact C.
Qed.
Lemma clean_run mo h f f' : run mo h f f' -> clean f -> Forall without_binary h -> clean f'.
Proof.
  intros R. induction R as [|o h f f1 f2 Hc Hs R IH]; intros C H; [exact C|].
  apply Forall_inv in H as Ho. apply Forall_inv_tail in H. apply IH; [|exact H].
  destruct o as [s|r]; cbn [without_binary] in Ho.
  - pose proof (keeps_process mo s Ho f C) as K. destruct Hs as [E|[e E]]; cbn [effect] in E; rewrite E in K; exact K.
  - assert (K : keeps (installCustomSerialiser r)).
    { apply keeps_bind; [now apply keeps_make|]. intros i g Cg. exact Cg. }
    specialize (K f C). destruct Hs as [E|[e E]]; cbn [effect] in E; rewrite E in K; exact K.
Qed.

Theorem none_copied : forall fmt custom mo kf fuel d h cf l, run mo h new_factory cf -> Forall without_binary h ->
  (forall e d', read_envelope fuel d = Ok e d' -> Forall no_binary (List.concat (s_types (e_schema e)))) ->
  match c_dumpContents fmt custom mo kf fuel (d, cf, l) with
  | Ok _ (_, l') | Throw _ (_, l') => l' = l
  | _ => True
  end.
Proof.
  intros fmt custom mo kf fuel d h cf l R Hh He.
  assert (C : clean cf) by (eapply clean_run; eauto; intros r []).
  assert (M : forall e d', read_envelope fuel d = Ok e d' -> forall u cf', process mo (e_schema e) cf = Ok u cf' -> forall r, In r (heap cf') -> may (fun _ => False) r).
  { intros e d' E u cf' Ep r Hr Hx. pose proof (keeps_process mo _ (He e d' E) cf C) as K. rewrite Ep in K. rewrite (K r Hr) in Hx. discriminate. }
  pose proof (tracks_contents _ fmt custom mo kf fuel d cf l M) as T.
  destruct (c_dumpContents fmt custom mo kf fuel (d, cf, l)) as [a [st l']|x [st l']| | |], (dumpContents fmt custom mo kf fuel (d, cf)); auto; try contradiction;
    destruct T as (_ & _ & w & -> & Hw); (destruct w as [|n w]; [apply app_nil_r|apply Forall_inv in Hw; contradiction]).
Qed.

Theorem same_contents : forall fmt custom mo kf fuel d cf l,
  match c_dumpContents fmt custom mo kf fuel (d, cf, l) with
  | Ok a (st, l') => dumpContents fmt custom mo kf fuel (d, cf) = Ok a st /\ exists w, l' = (l ++ w)%list
  | Throw e (st, l') => dumpContents fmt custom mo kf fuel (d, cf) = Throw e st /\ exists w, l' = (l ++ w)%list
  | Abort => dumpContents fmt custom mo kf fuel (d, cf) = Abort
  | UB => dumpContents fmt custom mo kf fuel (d, cf) = UB
  | Fuel => dumpContents fmt custom mo kf fuel (d, cf) = Fuel
  end.
Proof.
  intros fmt custom mo kf fuel d cf l.
  pose proof (tracks_contents (fun _ => True) fmt custom mo kf fuel d cf l ltac:(intros; intros _ ?; exact I)) as T.
  destruct (c_dumpContents fmt custom mo kf fuel (d, cf, l)) as [a [st l']|x [st l']| | |], (dumpContents fmt custom mo kf fuel (d, cf)); auto; try contradiction;
    destruct T as (<- & <- & w & -> & _); eauto.
Qed.
