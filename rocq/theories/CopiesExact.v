(** Proofs for C99: exactly which copies are made of an object. *)
From Coq Require Import Lia.
From Verif Require Import SpecTypes Base Proton ProtonProofs TypeNames Schema SpecSchema SpecOrdering SchemaProofs Descriptors SpecDescriptors DescriptorsProofs
  Factory SpecFactory FactoryProofs Readers SpecReaders Blob ReadersProofs ManyProofs Writer Deserialise Copies SpecCopies CopiesProofs.
Import List ListNotations.
Open Scope string_scope.

Lemma next_ok {A} (m : CM A) d l a d1 l1 : m (d, l) = Ok a (d1, l1) -> next_after m (d, l) = Ok a (pn_next d1, l1).
Proof. unfold next_after, finally. now intros -> . Qed.
Lemma entered_ok {A} (m : CM A) d l a d1 l1 : m (w_enter d, l) = Ok a (d1, l1) -> entered false m (d, l) = Ok a (pn_exit d1, l1).
Proof. unfold entered, finally, move. cbn [fst snd]. now intros -> . Qed.
Lemma entered2_ok {A} (m : CM A) d l a d1 l1 : m (pn_next (w_enter d), l) = Ok a (d1, l1) -> entered true m (d, l) = Ok a (pn_exit d1, l1).
Proof. unfold entered, finally, move. cbn [fst snd]. now intros -> . Qed.
Lemma list_entered_ok {A} (m : nat -> CM A) d l a d1 l1 :
  m (pn_get_list d) (pn_next (pn_enter d), l) = Ok a (d1, l1) -> list_entered true m (d, l) = Ok a (pn_exit d1, l1).
Proof. unfold list_entered, finally, move. cbn [fst snd]. now intros -> . Qed.
Lemma map_entered_ok {A} (m : nat -> CM A) d l a d1 l1 :
  m (pn_get_map d) (pn_next (pn_enter d), l) = Ok a (d1, l1) -> map_entered true m (d, l) = Ok a (pn_exit d1, l1).
Proof. unfold map_entered, finally, move. cbn [fst snd]. now intros -> . Qed.
Lemma plain_ok {L A} (m : PM A) d (l : L) a d1 : m d = Ok a d1 -> plain m (d, l) = Ok a (d1, l).
Proof. unfold plain. now intros -> . Qed.

Section Exact.
Context (fmt : N -> string) (custom : nat -> option string -> PM ivalue) (kf : bool) (f : factory) (s : schema).
Notation ts := (List.concat (s_types s)).
Hypothesis Hready : ready f ts.
Hypothesis Hdistinct : distinct_fingerprints ts.

Definition copies (rec : reader -> option string -> CM ivalue) (ty : string) (v : value) : Prop :=
  forall i r, byType f ty = Some i -> lock f i = Some r ->
  forall name d rest l, ahead d = encode v :: rest -> rec r name (d, l) = Ok (image fmt name v) (pn_next d, l ++ binaries v)%list.

Lemma fields_copy rec fields ks ps : 
  Forall2 (fun fd i => exists ty, property_type fd = Some ty /\ byType f ty = Some i) fields ks ->
  Forall2 (fun fd p => fst p = f_name fd /\
     exists ty, property_type fd = Some ty /\ copies rec ty (snd p) /\ (forall i, byType f ty = Some i -> exists r, lock f i = Some r)) fields ps ->
  forall d l, (ps <> [] -> ahead d = map (fun p => encode (snd p)) ps) ->
  exists d', c_fields_ f rec fields ks (d, l) = Ok (map (fun p => image fmt (Some (fst p)) (snd p)) ps) (d', l ++ flat_map (fun p => binaries (snd p)) ps)%list /\ same_level d d'.
Proof.
  intros H. revert ps. induction H as [|fd i fields ks (ty & Hty & Hi) _ IH]; intros ps Hp d l Hd; inversion Hp as [|? p ? ps' H1 H2]; subst.
  - exists d. cbn. rewrite app_nil_r. split; [reflexivity|apply same_level_refl].
  - destruct H1 as (Hn & ty' & Hty' & Hpr & Hl). rewrite Hty in Hty'. injection Hty' as <-.
    destruct (Hl _ Hi) as (r & Hr). cbn [c_fields_]. rewrite Hr.
    specialize (Hd ltac:(discriminate)). cbn [map] in Hd.
    unfold bind at 1. rewrite (Hpr i r Hi Hr (Some (f_name fd)) d _ l Hd).
    destruct (IH ps' H2 (pn_next d) (l ++ binaries (snd p))%list) as (d' & E & L).
    { intros Hne. destruct ps' as [|q ps']; [now elim Hne|]. cbn [map] in *. eapply ahead_next; eauto. }
    exists d'. unfold bind. rewrite E. cbn. rewrite Hn, app_assoc. split; [reflexivity|]. eapply same_level_trans; [apply next_same|exact L].
Qed.

Lemma elements_copy rec e i r vs : byType f e = Some i -> lock f i = Some r -> Forall (copies rec e) vs ->
  forall d l, (vs <> [] -> ahead d = map encode vs) ->
  exists d', c_elements rec (List.length vs) (Some r) (d, l) = Ok (map (image fmt None) vs) (d', l ++ flat_map binaries vs)%list /\ same_level d d'.
Proof.
  intros Hi Hr H. induction H as [|v vs Hv _ IH]; intros d l Hd.
  - exists d. cbn. rewrite app_nil_r. split; [reflexivity|apply same_level_refl].
  - cbn [List.length c_elements]. specialize (Hd ltac:(discriminate)). cbn [map] in Hd.
    unfold bind at 1. rewrite (Hv i r Hi Hr None d _ l Hd).
    destruct (IH (pn_next d) (l ++ binaries v)%list) as (d' & E & L).
    { intros Hne. destruct vs as [|q vs]; [now elim Hne|]. cbn [map] in *. eapply ahead_next; eauto. }
    exists d'. unfold bind. rewrite E. cbn [flat_map]. rewrite app_assoc. split; [reflexivity|]. eapply same_level_trans; [apply next_same|exact L].
Qed.

Lemma entries_copy rec k v i j r q kvs : kf = true ->
  byType f k = Some i -> lock f i = Some r -> byType f v = Some j -> lock f j = Some q ->
  Forall (fun kv => copies rec k (fst kv) /\ copies rec v (snd kv)) kvs ->
  forall d l, (kvs <> [] -> ahead d = flat_map (fun kv => [encode (fst kv); encode (snd kv)]) kvs) ->
  exists d', c_entries kf rec (List.length (flat_map (fun kv => [encode (fst kv); encode (snd kv)]) kvs)) (Some r) (Some q) (d, l)
    = Ok (map (fun kv => IEntry (image fmt None (fst kv)) (image fmt None (snd kv))) kvs)
         (d', l ++ flat_map (fun kv => binaries (fst kv) ++ binaries (snd kv)) kvs)%list /\ same_level d d'.
Proof.
  intros Hkf Hi Hr Hj Hq H. induction H as [|[a b] kvs [Ha Hb] _ IH]; intros d l Hd.
  - exists d. cbn. rewrite app_nil_r. split; [reflexivity|apply same_level_refl].
  - cbn [flat_map app List.length c_entries pred]. specialize (Hd ltac:(discriminate)). cbn [flat_map app] in Hd.
    cbn [fst snd] in *. unfold c_entry, c_through. rewrite Hkf.
    unfold bind at 1 2. rewrite (Ha i r Hi Hr None d _ l Hd).
    pose proof (ahead_next _ _ _ _ Hd) as Hd2.
    unfold bind at 1. rewrite (Hb j q Hj Hq None _ _ _ Hd2). unfold ret at 1.
    destruct (IH (pn_next (pn_next d)) ((l ++ binaries a) ++ binaries b)%list) as (d' & E & L).
    { intros Hne. destruct kvs as [|[a' b'] kvs]; [now elim Hne|]. cbn [flat_map app] in *. eapply ahead_next; eauto. }
    exists d'. unfold bind. rewrite <- Hkf at 1. rewrite E. rewrite <- !app_assoc. split; [reflexivity|].
    eapply same_level_trans; [apply next_same|]. eapply same_level_trans; [apply next_same|exact L].
Qed.

Lemma object_copies rec c ks ps name d rest l : In (TComposite c) ts -> List.length ks = List.length (Schema.c_fields c) ->
  (forall d l, (ps <> [] -> ahead d = map (fun p => encode (snd p)) ps) ->
     exists d', c_fields_ f rec (Schema.c_fields c) ks (d, l) = Ok (map (fun p => image fmt (Some (fst p)) (snd p)) ps) (d', l ++ flat_map (fun p => binaries (snd p)) ps)%list /\ same_level d d') ->
  ahead d = encode (VObject (c_descriptor c) ps) :: rest ->
  c_composite f s rec ks name (d, l) = Ok (image fmt name (VObject (c_descriptor c) ps)) (pn_next d, l ++ binaries (VObject (c_descriptor c) ps))%list.
Proof.
  intros Hin Hlen Hf Hd. apply ahead_at in Hd as (lf & u & ->).
  pose proof (fromDescriptor_found s _ Hdistinct Hin) as F. cbn [n_descriptor] in F.
  destruct (Hf (pn_next (Data (Before (map (fun p => encode (snd p)) ps))
    (Frame [leaf (ASymbol (c_descriptor c))] AList [] :: Frame lf ADescribed rest :: u))) l) as (d' & E & L).
  { intros Hne. destruct ps as [|p ps']; [now elim Hne|]. reflexivity. }
  apply next_ok. cbn beta. eapply bind_ok; [|reflexivity].
  eapply bind_ok; [reflexivity|].
  erewrite entered_ok with (d1 := Data (At [leaf (ASymbol (c_descriptor c))] (list_of (map (fun p => encode (snd p)) ps)) []) (Frame lf ADescribed rest :: u));
    [reflexivity|].
  eapply bind_ok; [reflexivity|]. eapply bind_ok; [unfold lift; rewrite F; reflexivity|].
  cbn beta iota. rewrite Hlen, Nat.eqb_refl. eapply bind_ok; [reflexivity|]. eapply bind_ok; [reflexivity|].
  erewrite entered_ok; [|exact E]. f_equal. f_equal. apply exit_list. eapply same_level_trans; [apply next_same|exact L].
Qed.

Lemma list_copies rec t i r vs name d rest l : In t ts -> lock f i = Some r ->
  (forall d l, (vs <> [] -> ahead d = map encode vs) ->
     exists d', c_elements rec (List.length vs) (Some r) (d, l) = Ok (map (image fmt None) vs) (d', l ++ flat_map binaries vs)%list /\ same_level d d') ->
  ahead d = encode (VList (n_descriptor t) vs) :: rest ->
  c_list f s rec i name (d, l) = Ok (image fmt name (VList (n_descriptor t) vs)) (pn_next d, l ++ binaries (VList (n_descriptor t) vs))%list.
Proof.
  intros Hin Hr Hf Hd. apply ahead_at in Hd as (lf & u & ->).
  destruct (Hf (pn_next (Data (Before (map encode vs))
    (Frame [leaf (ASymbol (n_descriptor t))] AList [] :: Frame lf ADescribed rest :: u))) l) as (d' & E & L).
  { intros Hne. destruct vs as [|p vs']; [now elim Hne|]. reflexivity. }
  apply next_ok. eapply bind_ok; [|reflexivity].
  eapply bind_ok; [reflexivity|].
  erewrite entered_ok with (d1 := Data (At [leaf (ASymbol (n_descriptor t))] (list_of (map encode vs)) []) (Frame lf ADescribed rest :: u));
    [reflexivity|].
  eapply bind_ok; [reflexivity|]. eapply bind_ok; [unfold lift; rewrite (fromDescriptor_found s _ Hdistinct Hin); reflexivity|].
  cbn beta. rewrite Hr. erewrite list_entered_ok.
  2:{ cbn beta. replace (pn_get_list _) with (List.length vs) by (symmetry; apply map_length). exact E. }
  f_equal. f_equal. apply exit_list. eapply same_level_trans; [apply next_same|exact L].
Qed.

Lemma map_copies rec t i j r q kvs name d rest l : In t ts -> lock f i = Some r -> lock f j = Some q ->
  (forall d l, (kvs <> [] -> ahead d = flat_map (fun kv => [encode (fst kv); encode (snd kv)]) kvs) ->
     exists d', c_entries kf rec (List.length (flat_map (fun kv => [encode (fst kv); encode (snd kv)]) kvs)) (Some r) (Some q) (d, l)
       = Ok (map (fun kv => IEntry (image fmt None (fst kv)) (image fmt None (snd kv))) kvs)
            (d', l ++ flat_map (fun kv => binaries (fst kv) ++ binaries (snd kv)) kvs)%list /\ same_level d d') ->
  ahead d = encode (VMap (n_descriptor t) kvs) :: rest ->
  c_map kf f s rec i j name (d, l) = Ok (image fmt name (VMap (n_descriptor t) kvs)) (pn_next d, l ++ binaries (VMap (n_descriptor t) kvs))%list.
Proof.
  intros Hin Hr Hq Hf Hd. apply ahead_at in Hd as (lf & u & ->).
  set (cs := flat_map (fun kv => [encode (fst kv); encode (snd kv)]) kvs) in *.
  destruct (Hf (pn_next (Data (Before cs)
    (Frame [leaf (ASymbol (n_descriptor t))] AMap [] :: Frame lf ADescribed rest :: u))) l) as (d' & E & L).
  { intros Hne. unfold cs. destruct kvs as [|p vs']; [now elim Hne|]. reflexivity. }
  apply next_ok. eapply bind_ok; [|reflexivity].
  eapply bind_ok; [reflexivity|].
  erewrite entered_ok with (d1 := Data (At [leaf (ASymbol (n_descriptor t))] (Node AMap cs) []) (Frame lf ADescribed rest :: u));
    [reflexivity|].
  eapply bind_ok; [reflexivity|]. eapply bind_ok; [unfold lift; rewrite (fromDescriptor_found s _ Hdistinct Hin); reflexivity|].
  cbn beta. rewrite Hr, Hq. erewrite map_entered_ok; [|exact E].
  f_equal. f_equal. apply exit_list. eapply same_level_trans; [apply next_same|exact L].
Qed.

Lemma reader_copies : forall fuel ty v, conforms ts ty v -> kf = true \/ map_free v -> height (encode v) < fuel ->
  copies (c_dump fmt custom kf f s fuel) ty v.
Proof.
  induction fuel as [|fuel IH]; intros ty v H Hm Hh; [lia|].
  assert (Hprim : forall p, ty = prim_name p -> forall i r, byType f ty = Some i -> lock f i = Some r -> r = RProperty p).
  { intros p -> i r Hi Hr. rewrite (proj1 Hready p i Hi) in Hr. congruence. }
  intros i r Hi Hr name d rest l Hd.
  inversion H as [z|z|b|b|x|x|c Hin|c ps Hin Hps|q e vs Hin Hk Hof Hvs|q k w kvs Hin Hk Hof Hkvs|q c o Hin Hk Hc]; subst; cbn [c_dump];
    try (change (binaries _) with (@nil nat); rewrite app_nil_r).
  - rewrite (Hprim PInt eq_refl i r Hi Hr). apply ahead_at in Hd as (lf & u & ->). reflexivity.
  - rewrite (Hprim PLong eq_refl i r Hi Hr). apply ahead_at in Hd as (lf & u & ->). reflexivity.
  - rewrite (Hprim PDouble eq_refl i r Hi Hr). apply ahead_at in Hd as (lf & u & ->). reflexivity.
  - rewrite (Hprim PBoolean eq_refl i r Hi Hr). apply ahead_at in Hd as (lf & u & ->). reflexivity.
  - rewrite (Hprim PString eq_refl i r Hi Hr). apply ahead_at in Hd as (lf & u & ->). reflexivity.
  - rewrite (Hprim PBinary eq_refl i r Hi Hr). apply ahead_at in Hd as (lf & u & ->). reflexivity.
  - destruct (entry_reader f s Hready (TComposite c) i r Hin Hi Hr) as (ks & -> & _).
    apply ahead_at in Hd as (lf & u & ->). reflexivity.
  - destruct (entry_reader f s Hready (TComposite c) i r Hin Hi Hr) as (ks & -> & Hks).
    apply object_copies with (rest := rest); [assumption|symmetry; eapply Forall2_len; eauto| |assumption].
    intros d0 l0 Hd0. apply fields_copy; [assumption| |assumption].
    assert (Hs : forall p, In p ps -> (kf = true \/ map_free (snd p)) /\ height (encode (snd p)) < fuel).
    { intros p Hp. split.
      - destruct Hm as [Hm|Hm]; [now left|right]. eapply map_free_object; eauto.
      - cbn [encode] in Hh. unfold payload_tree, list_of in Hh. rewrite height_node, !heights_cons, height_node in Hh.
        pose proof (heights_in (encode (snd p)) (map (fun p => encode (snd p)) ps)) as X.
        specialize (X ltac:(apply in_map_iff; eauto)). lia. }
    clear - IH Hps Hs Hready Hdistinct. induction Hps as [|fd p fs ps (Hn & ty & Hty & Hc) _ IHp]; constructor.
    + split; [assumption|]. exists ty. split; [assumption|]. destruct (Hs p) as [H1 H2]; [now left|]. split; [now apply IH|].
      intros i Hi. eapply registered_locked; eauto using conforms_known.
    + apply IHp. intros p' Hp'. apply Hs. now right.
  - assert (Hs : Forall (copies (c_dump fmt custom kf f s fuel) e) vs).
    { rewrite Forall_forall in *. intros v Hv. apply IH; [auto| |].
      - destruct Hm as [Hm|Hm]; [now left|right]. eapply map_free_list; eauto.
      - cbn [encode] in Hh. unfold payload_tree, list_of in Hh. rewrite height_node, !heights_cons, height_node in Hh.
        pose proof (heights_in (encode v) (map encode vs)) as X. specialize (X ltac:(apply in_map_iff; eauto)). lia. }
    assert (exists i', byType f e = Some i' /\ (r = RList (r_name q) i' \/ r = RArray (r_name q) i')) as (i' & Hi' & Hrr).
    { pose proof (entry_reader f s Hready (TRestricted q) i r Hin Hi Hr) as R. cbn [reads] in R. destruct Hk as [Hk|Hk]; rewrite Hk in R;
      destruct R as (e' & i' & -> & He & Hi'); rewrite Hof in He; injection He as <-; eauto. }
    assert (X : c_list f s (c_dump fmt custom kf f s fuel) i' name (d, l) = Ok (image fmt name (VList (r_descriptor q) vs)) (pn_next d, l ++ binaries (VList (r_descriptor q) vs))%list).
    { destruct vs as [|v0 vs'].
      - (* nothing is asked of the element reader *)
        clear Hs. apply ahead_at in Hd as (lf & u & ->). cbn [binaries flat_map]. rewrite app_nil_r.
        pose proof (fromDescriptor_found s _ Hdistinct Hin) as F. cbn [n_descriptor] in F.
        apply next_ok. eapply bind_ok; [|reflexivity]. eapply bind_ok; [reflexivity|].
        erewrite entered_ok with (d1 := Data (At [leaf (ASymbol (r_descriptor q))] (list_of []) []) (Frame lf ADescribed rest :: u)); [reflexivity|].
        eapply bind_ok; [reflexivity|]. eapply bind_ok; [unfold lift; rewrite F; reflexivity|]. reflexivity.
      - destruct (registered_locked f s Hready e i' Hi') as (r' & Hr').
        { apply (conforms_known s e v0). now apply Forall_inv in Hvs. }
        apply (list_copies (c_dump fmt custom kf f s fuel) (TRestricted q) i' r' (v0 :: vs') name d rest l Hin Hr'); [|exact Hd].
        intros d0 l0 Hd0. now apply elements_copy with (e := e) (i := i'). }
    destruct Hrr as [-> | ->]; exact X.
  - pose proof (entry_reader f s Hready (TRestricted q) i r Hin Hi Hr) as R. cbn [reads] in R. rewrite Hk in R.
    destruct R as (k' & w' & i1 & i2 & -> & Ho & H1 & H2). rewrite Hof in Ho. injection Ho as <- <-.
    destruct Hm as [Hm|Hm]; [|destruct Hm].
    assert (Hs : Forall (fun kv => copies (c_dump fmt custom kf f s fuel) k (fst kv) /\ copies (c_dump fmt custom kf f s fuel) w (snd kv)) kvs).
    { rewrite Forall_forall in *. intros kv Hv. destruct (Hkvs kv Hv) as [A1 A2].
      cbn [encode] in Hh. unfold payload_tree in Hh. rewrite height_node, !heights_cons, height_node in Hh.
      pose proof (heights_in (encode (fst kv)) (flat_map (fun kv => [encode (fst kv); encode (snd kv)]) kvs)) as X.
      specialize (X ltac:(apply in_flat_map; exists kv; split; [assumption|now left])).
      pose proof (heights_in (encode (snd kv)) (flat_map (fun kv => [encode (fst kv); encode (snd kv)]) kvs)) as Y.
      specialize (Y ltac:(apply in_flat_map; exists kv; split; [assumption|right; now left])).
      split; (apply IH; [auto|now left|lia]). }
    destruct kvs as [|[k0 w0] kvs'].
    + clear Hs. apply ahead_at in Hd as (lf & u & ->). cbn [binaries flat_map]. rewrite app_nil_r.
      pose proof (fromDescriptor_found s _ Hdistinct Hin) as F. cbn [n_descriptor] in F.
      apply next_ok. eapply bind_ok; [|reflexivity]. eapply bind_ok; [reflexivity|].
      erewrite entered_ok with (d1 := Data (At [leaf (ASymbol (r_descriptor q))] (Node AMap []) []) (Frame lf ADescribed rest :: u)); [reflexivity|].
      eapply bind_ok; [reflexivity|]. eapply bind_ok; [unfold lift; rewrite F; reflexivity|]. reflexivity.
    + apply Forall_inv in Hkvs as [A1 A2].
      destruct (registered_locked f s Hready k i1 H1 (conforms_known _ _ _ A1)) as (r1 & Hr1).
      destruct (registered_locked f s Hready w i2 H2 (conforms_known _ _ _ A2)) as (r2 & Hr2).
      apply (map_copies (c_dump fmt custom kf f s fuel) (TRestricted q) i1 i2 r1 r2 ((k0, w0) :: kvs') name d rest l Hin Hr1 Hr2); [|exact Hd].
      intros d0 l0 Hd0. now apply entries_copy with (k := k) (v := w) (i := i1) (j := i2).
  - pose proof (entry_reader f s Hready (TRestricted q) i r Hin Hi Hr) as R. cbn [reads] in R. rewrite Hk in R. subst r.
    apply plain_ok. eapply enum_prints; eauto.
Qed.
End Exact.

(** ** Blobs *)

Lemma contents_copied fmt custom mo kf fuel groups x v t e h cf cf' l :
  let blob := envelope_tree (encode v) groups [x] in
  let ts := List.concat (s_types (e_schema e)) in
  dispatchDescribed (S fuel) (decoded blob) = Ok (EEnvelope e) (decoded blob) -> Some (e_descriptor e) = fingerprint_of v ->
  run mo h new_factory cf -> Forall proper ts -> process mo (e_schema e) cf = Ok tt cf' ->
  consistent h ts -> distinct_fingerprints ts ->
  In t ts -> conforms ts (n_name t) v -> fingerprint_of v = Some (n_descriptor t) -> kf = true \/ map_free v ->
  height blob < fuel ->
  c_dumpContents fmt custom mo kf fuel (decoded blob, cf, l)
  = Ok ("{ Parsed : " ++ printed fmt dec v ++ " }") (decoded blob, cf', l ++ binaries v)%list.
Proof.
  intros blob ts Hparse Hfp R Hp H Hc Hd Ht Hv Hfv Hm Hh.
  pose proof (history_ready _ _ _ _ _ R Hp H Hc) as Hr.
  assert (One : one_name_per_fingerprint ts) by (intros a b Ha Hb E; now rewrite (Hd a b Ha Hb E)).
  destruct (processed_resolves mo cf (e_schema e) cf' ltac:(eexists; eauto) Hp One H t Ht) as (i & r & H1 & H2 & H3 & _).
  unfold c_dumpContents. unfold bind at 1. unfold uncopied at 1, on_data at 1. rewrite (read_envelope_parsed fuel (decoded blob) e I Hparse).
  unfold bind at 1, uncopied, on_factory. rewrite H. cbn [fst snd].
  rewrite Hfv in Hfp. injection Hfp as ->. rewrite H2. unfold reader_at. rewrite (lock_heap _ _ _ H3).
  unfold on_data_c, c_payload.
  assert (Hb : height (encode v) < fuel).
  { unfold blob, envelope_tree, described, list_of in Hh. rewrite height_node, !heights_cons, height_node, heights_cons in Hh. lia. }
  set (U := [Frame [leaf (AULong (vendor 1))] AList []; Frame [] ADescribed []]).
  pose proof (reader_copies fmt custom kf cf' (e_schema e) Hr Hd fuel _ _ Hv Hm Hb i r H1 H3 (Some "{ Parsed")
    (Data (At [] (encode v) [schema_tree groups; x]) U) [schema_tree groups; x] l eq_refl) as D.
  erewrite entered2_ok with (d1 := Data (At [leaf (AULong (vendor 1))] (list_of [encode v; schema_tree groups; x]) []) [Frame [] ADescribed []]); [reflexivity|].
  eapply bind_ok; [reflexivity|]. eapply bind_ok; [reflexivity|].
  erewrite entered_ok; [|eapply bind_ok; [exact D|reflexivity]].
  rewrite show_image. unfold labelled. reflexivity.
Qed.

Lemma consistent_again h s : consistent h (List.concat (s_types s)) -> consistent (h ++ [Process s])%list (List.concat (s_types s)).
Proof.
  intros [H1 H2]. split.
  - intros t u Ht Hu. apply H1; [exact Ht|]. unfold entries_of in Hu. rewrite map_app, concat_app in Hu. cbn in Hu.
    rewrite !app_nil_r in Hu. fold (entries_of h) in Hu. apply in_or_app. apply in_app_or in Hu as [Hu|Hu]; [|now right].
    apply in_app_or in Hu as [Hu|Hu]; auto.
  - intros r Hr. apply in_app_or in Hr as [Hr|[Hr|[]]]; [auto|discriminate].
Qed.

Lemma again_copied fmt custom mo kf fuel groups x v t e :
  let blob := envelope_tree (encode v) groups [x] in
  let ts := List.concat (s_types (e_schema e)) in
  dispatchDescribed (S fuel) (decoded blob) = Ok (EEnvelope e) (decoded blob) -> Some (e_descriptor e) = fingerprint_of v ->
  Forall proper ts -> distinct_fingerprints ts ->
  In t ts -> conforms ts (n_name t) v -> fingerprint_of v = Some (n_descriptor t) -> kf = true \/ map_free v ->
  height blob < fuel -> forall n h cf cf' l,
  run mo h new_factory cf -> consistent h ts -> process mo (e_schema e) cf = Ok tt cf' -> exists cf'',
  c_again fmt custom mo kf n fuel (decoded blob, cf, l)
  = Ok (repeat ("{ Parsed : " ++ printed fmt dec v ++ " }") n) (decoded blob, cf'', l ++ List.concat (repeat (binaries v) n))%list.
Proof.
  intros blob ts Hparse Hfp Hp Hd Ht Hv Hfv Hm Hh. induction n as [|n IH]; intros h cf cf' l R Hc H.
  - exists cf. cbn. now rewrite app_nil_r.
  - cbn [c_again]. unfold bind at 1. unfold blob.
    rewrite (contents_copied fmt custom mo kf fuel groups x v t e h cf cf' l Hparse Hfp R Hp H Hc Hd Ht Hv Hfv Hm Hh).
    destruct (process_again mo h cf (e_schema e) cf' [] cf' R Hp H (run_nil _ _)) as (cf2 & H2 & _).
    destruct (IH (h ++ [Process (e_schema e)])%list cf' cf2 (l ++ binaries v)%list) as (cf'' & E);
      [eapply run_snoc; eauto|now apply consistent_again|exact H2|].
    exists cf''. unfold bind. unfold blob in E. rewrite E. cbn [repeat List.concat]. rewrite app_assoc. reflexivity.
Qed.

Theorem binaries_lost : forall fmt custom mo kf fuel groups x v h cf,
  Forall readable_type (List.concat groups) -> height (envelope_tree (encode v) groups [x]) < fuel ->
  run mo h new_factory cf ->
  exists ts s, Forall2 type_means (List.concat groups) ts /\ Permutation.Permutation (List.concat (s_types s)) ts /\
    forall t cf' n l,
      (forall u, In u ts -> typeIsPrimitive (n_name u) = false) -> consistent h ts -> distinct_fingerprints ts ->
      In t ts -> conforms ts (n_name t) v -> fingerprint_of v = Some (n_descriptor t) -> kf = true \/ map_free v ->
      process mo s cf = Ok tt cf' -> exists cf'',
      c_again fmt custom mo kf n fuel (decoded (envelope_tree (encode v) groups [x]), cf, l)
      = Ok (repeat ("{ Parsed : " ++ printed fmt dec v ++ " }") n)
           (decoded (envelope_tree (encode v) groups [x]), cf'', l ++ List.concat (repeat (binaries v) n))%list.
Proof.
  intros fmt custom mo kf fuel groups x v h cf Hg Hh R.
  destruct (type_results _ Hg) as (ts & H1 & H2 & H3).
  destruct (fingerprint_of v) as [fp|] eqn:Efp.
  - destruct (encode_payload v fp Efp) as (body & Eb). destruct (blob_high _ _ _ _ Hh) as (m & Em).
    destruct (envelope_wire m fp body groups [x] ts [] [] [] H1 H3) as (e & A1 & A2 & A3).
    rewrite <- Eb in A1. fold (decoded (envelope_tree (encode v) groups [x])) in A1. rewrite <- Em in A1.
    exists ts, (e_schema e). split; [assumption|]. split; [assumption|].
    intros t cf' n l Hn Hc Hd Ht Hv Hf Hm HP.
    assert (Hp : Forall proper ts).
    { rewrite Forall_forall in *. intros u Hu. apply entry_proper; auto. }
    eapply again_copied with (e := e) (t := t) (h := h); eauto using distinct_perm, consistent_perm, proper_perm.
    + congruence.
    + eapply incl_perm; eauto.
    + eapply conforms_incl; [eapply incl_perm; eauto|exact Hv].
    + now rewrite Efp.
  - exists ts, (schema_of [ts]). split; [assumption|]. split; [cbn; rewrite app_nil_r; apply Permutation.Permutation_refl|].
    intros. discriminate.
Qed.
