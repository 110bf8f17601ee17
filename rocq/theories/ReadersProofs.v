From Coq Require Import Lia DecimalString DecimalZ.
From Verif Require Import Base Proton ProtonProofs TypeNames Ordering SpecOrdering Schema SpecSchema SchemaProofs Descriptors SpecDescriptors DescriptorsProofs
  Factory SpecFactory FactoryProofs Readers SpecReaders Blob.
Import List ListNotations.
Open Scope string_scope.

(** ** Levels *)

Lemma loose_seq {A B} n (m : PM A) (f : A -> PM B) : loose n m -> (forall a, loose n (f a)) -> loose n (bind m f).
Proof.
  intros Hm Hf d Hb. unfold bind. specialize (Hm d Hb). destruct (m d) as [a d1|e d1| | |]; try tauto.
  specialize (Hf a d1 (same_level_below _ _ _ Hm Hb)).
  destruct (f a d1) as [b d2|e d2| | |]; auto; eapply same_level_trans; eauto.
Qed.
Lemma loose_ret {A} n (a : A) : loose n (ret a).
Proof. intros d _. apply same_level_refl. Qed.
Lemma loose_throw {A} n e : loose n (@throw data A e).
Proof. intros d _. apply same_level_refl. Qed.
Lemma loose_abort {A} n : loose n (@abort data A).
Proof. intros d _. exact I. Qed.
Lemma loose_ub {A} n : loose n (@ub data A).
Proof. intros d _. exact I. Qed.
Lemma loose_next n : loose n next_.
Proof. intros d _. apply next_same. Qed.
Lemma loose_auto_next {A} n (m : PM A) : loose n m -> loose n (auto_next m).
Proof.
  intros H d Hb. unfold auto_next, finally. specialize (H d Hb).
  destruct (m d); auto; eapply same_level_trans; eauto using next_same.
Qed.
Lemma loose_lift {A} n (m : res A) : m <> NoFuel -> loose n (lift m).
Proof. intros Hm d _. unfold lift. destruct m; auto using same_level_refl. Qed.
Lemma loose_stays {A} n (m : PM A) : stays_put m -> loose n m.
Proof. intros H d _. specialize (H d). destruct (m d); auto. Qed.
Lemma fromDescriptor_fuel s k : fromDescriptor s k <> NoFuel.
Proof. unfold fromDescriptor. destruct first_with; discriminate. Qed.

(** After a check that the current node exists. *)
Lemma loose_checked {A B} n (m : PM A) (f : A -> PM B) : probing n m -> (forall a, restoring n (f a)) -> loose n (bind m f).
Proof. intros Hm Hf. apply loose_bind; [assumption|]. intros a. apply restoring_steady, Hf. Qed.

Section Levels.
Context (fmt : N -> string) (custom : nat -> option string -> PM ivalue) (kf : bool) (f : factory) (s : schema).
Hypothesis custom_stays : forall which name, stays_put (custom which name).

Section Step.
Context (F : nat) (rec : reader -> option string -> PM ivalue).
Hypothesis rec_loose : forall k r name, k < F -> loose k (rec r name).

Lemma property_loose p name k : loose k (dump_property fmt p name).
Proof.
  destruct p; cbn [dump_property]; apply loose_seq; intros; try apply loose_ret; try apply read_raw_loose.
  - apply probing_loose, readAndNext_string_probing.
  - apply loose_throw.
Qed.
Lemma enum_loose name k : loose k (dump_enum name).
Proof.
  apply loose_auto_next. apply loose_bind; [apply require_probing; discriminate|]. intros _.
  apply steady_bind; [|intros v; apply ret_steady]. unfold enum_value.
  apply steady_bind; [apply probing_steady, require_probing; discriminate|]. intros _.
  apply restoring_steady, auto_enter_restoring. intros _.
  apply loose_seq.
  { intros d _. destruct (is_type TULong d && _); apply same_level_refl. }
  intros _. apply loose_checked; [apply readAndNext_string_probing|]. intros _.
  apply auto_list_enter_restoring. intros _ _. apply probing_loose, readAndNext_string_probing.
Qed.
Lemma public_key_loose name k : loose k (dump_public_key name).
Proof.
  unfold dump_public_key. destruct name as [name|]; [|apply loose_throw].
  apply loose_auto_next. apply loose_checked; [apply require_probing; discriminate|]. intros _.
  apply auto_enter_restoring. intros _. apply loose_seq; [apply loose_next|]. intros _.
  apply loose_seq; [apply probing_loose, require_probing; discriminate|]. intros _.
  apply loose_seq; [apply read_raw_loose|]. intros b. apply loose_ret.
Qed.
Lemma fields_loose k : k < F -> forall fields ks, loose k (dump_fields f rec fields ks).
Proof.
  intros Hk. induction fields as [|fd fields IH]; intros [|i ks]; cbn [dump_fields]; try apply loose_ret.
  destruct (lock f i); [|apply loose_throw].
  apply loose_seq; [apply rec_loose; lia|]. intros v. apply loose_seq; [apply IH|]. intros vs. apply loose_ret.
Qed.
Lemma composite_loose k ks name : k <= F -> loose k (dump_composite f s rec ks name).
Proof.
  intros Hk. apply loose_auto_next. intros d Hb. destruct (is_null d); [apply same_level_refl|].
  revert d Hb. change (loose k (let! vs := composite_dump_ f s rec ks in ret (IBraces name vs))).
  apply loose_seq; [|intros vs; apply loose_ret].
  apply loose_checked; [apply require_probing; discriminate|]. intros _.
  apply auto_enter_restoring. intros Hn. apply loose_seq; [apply probing_loose, get_symbol_probing|]. intros sym.
  apply loose_seq; [apply loose_lift, fromDescriptor_fuel|]. intros [c|r]; [|apply loose_throw].
  destruct (Nat.eqb _ _); [|apply loose_abort].
  apply loose_seq; [apply loose_next|]. intros _.
  apply loose_checked; [apply require_probing; discriminate|]. intros _.
  apply auto_enter_restoring. intros Hn2. apply fields_loose. lia.
Qed.
Lemma elements_loose k : k < F -> forall n r, loose k (dump_elements rec n r).
Proof.
  intros Hk. induction n as [|n IH]; intros r; cbn [dump_elements]; [apply loose_ret|].
  destruct r as [r|]; [|apply loose_ub].
  apply loose_seq; [apply rec_loose; lia|]. intros v. apply loose_seq; [apply IH|]. intros vs. apply loose_ret.
Qed.
Lemma list_loose k i name : k <= F -> loose k (dump_list f s rec i name).
Proof.
  intros Hk. apply loose_auto_next. apply loose_seq; [|intros vs; apply loose_ret].
  apply loose_checked; [apply require_probing; discriminate|]. intros _.
  apply auto_enter_restoring. intros Hn. apply loose_bind; [apply readAndNext_string_probing|]. intros fp.
  apply steady_bind; [apply restoring_steady, lift_restoring, fromDescriptor_fuel|]. intros _.
  apply restoring_steady, auto_list_enter_restoring. intros n Hn2. apply elements_loose. lia.
Qed.
Lemma entries_loose k : k < F -> forall c n a b, n <= c -> loose k (dump_entries kf rec n a b).
Proof.
  intros Hk. induction c as [|c IH]; intros n a b Hn.
  { replace n with 0 by lia. apply loose_ret. }
  destruct n as [|n]; cbn [dump_entries]; [apply loose_ret|]. 
  assert (Hl : forall r, loose k (dump_through rec r)) by (intros [r|]; [apply rec_loose; lia|apply loose_ub]).
  apply loose_seq.
  - unfold dump_entry. destruct kf; (apply loose_seq; [apply Hl|]); intros x;
      (apply loose_seq; [apply Hl|]); intros y; apply loose_ret.
  - intros e. apply loose_seq; [apply IH; lia|]. intros es. apply loose_ret.
Qed.
Lemma map_loose k i j name : k <= F -> loose k (dump_map kf f s rec i j name).
Proof.
  intros Hk. apply loose_auto_next. apply loose_seq; [|intros vs; apply loose_ret].
  apply loose_checked; [apply require_probing; discriminate|]. intros _.
  apply auto_enter_restoring. intros Hn. apply loose_bind; [apply readAndNext_string_probing|]. intros fp.
  apply steady_bind; [apply restoring_steady, lift_restoring, fromDescriptor_fuel|]. intros _.
  apply restoring_steady, auto_map_enter_restoring. intros n Hn2. apply entries_loose with (c := n); [lia|apply le_n].
Qed.
End Step.

Lemma dump_loose : forall F k r name, k < F -> loose k (dump fmt custom kf f s F r name).
Proof.
  induction F as [|F IH]; intros k r name Hk; [lia|]. cbn [dump].
  destruct r; try (apply loose_stays, custom_stays);
    eauto using property_loose, enum_loose, public_key_loose.
  - apply composite_loose with (F := F); [auto|lia].
  - apply list_loose with (F := F); [auto|lia].
  - apply list_loose with (F := F); [auto|lia].
  - apply map_loose with (F := F); [auto|lia].
Qed.

Lemma payload_restoring F k r : k <= S F -> restoring k (dump_payload fmt custom kf F f s r).
Proof.
  intros Hk. apply auto_enter_restoring. intros Hn. apply loose_checked; [apply require_probing; discriminate|].
  intros _ d Hb Ha. destruct d as [[cs|l t r'] u]; [destruct Ha|].
  unfold bind at 1. destruct (Nat.eqb _ _); [|exact I].
  revert Ha Hb. set (d := Data (At l t r') u). intros Ha Hb.
  assert (R : restoring (k - 1) (auto_enter false (let! v := dump fmt custom kf f s F r (Some "{ Parsed") in ret (show v ++ " }")))).
  { apply auto_enter_restoring. intros Hn2. apply loose_seq; [|intros v; apply loose_ret]. apply dump_loose. lia. }
  specialize (R d Hb Ha). exact R.
Qed.
End Levels.

(** ** The envelope *)

Lemma registered_zero : registered 0%N = None.
Proof. vm_compute. reflexivity. Qed.

Lemma read_envelope_restores F d : isAt d -> belowc F d ->
  match read_envelope F d with
  | Ok _ d' => d' = d | Throw _ d' => d' = d | Fuel => False | _ => True
  end.
Proof.
  intros Ha Hb. unfold read_envelope. destruct (is_described d); [|exact I].
  assert (R : restoring F (auto_enter false (fun d => build_id (dispatchDescribed F) (pn_get_ulong d) d))).
  { apply auto_enter_restoring. intros Hn d1 Hb1. unfold build_id.
    destruct (registered (pn_get_ulong d1)) as [desc|] eqn:E; [|exact I].
    assert (Ha1 : isAt d1).
    { destruct d1 as [[cs|l t r] u]; [|exact I]. exfalso. change (registered 0%N = Some desc) in E. rewrite registered_zero in E. discriminate. }
    pose proof (build_steady F (dispatchDescribed F)
      (fun j Hj => proj1 (dispatch_levels F j Hj)) (fun j Hj => proj2 (dispatch_levels F j Hj)) (F - 1) desc ltac:(lia) d1 Hb1 Ha1) as B.
    destruct (build _ desc d1); tauto. }
  specialize (R d Hb Ha). unfold bind. destruct (auto_enter _ _ d) as [e d'|e d'| | |]; auto. subst d'.
  destruct e; cbn; auto.
Qed.

Lemma read_envelope_parsed F d e : isAt d -> dispatchDescribed (S F) d = Ok (EEnvelope e) d -> read_envelope F d = Ok e d.
Proof.
  intros Ha. cbn [dispatchDescribed]. unfold read_envelope. unfold bind at 1. unfold attest_is_described, require.
  change (is_type TDescribed d) with (is_described d). destruct (is_described d); [|discriminate].
  unfold auto_enter, finally, bind, is_ulong, require. destruct (is_type TULong (w_enter d)); [|discriminate].
  destruct (build_id _ _ (w_enter d)) as [x d1|x d1| | |]; try discriminate.
  intros H. injection H as -> H. rewrite H. reflexivity.
Qed.

(** ** The factory always comes to an end *)

Definition ends {A} (m : FM A) : Prop := forall f, m f <> Fuel.
Lemma ends_bind {A B} (m : FM A) (k : A -> FM B) : ends m -> (forall a, ends (k a)) -> ends (bind m k).
Proof. intros H1 H2 f. unfold bind. specialize (H1 f). destruct (m f); [apply H2|discriminate|discriminate|discriminate|now elim H1]. Qed.
Lemma ends_ret {A} (a : A) : ends (ret a).
Proof. intros f. discriminate. Qed.
Lemma ends_make r : ends (make r).
Proof. intros f. discriminate. Qed.
Lemma ends_types_at k : ends (types_at k).
Proof. intros f. unfold types_at. destruct assoc; discriminate. Qed.
Lemma ends_compute k m : ends m -> ends (computeIfAbsent k m).
Proof.
  intros H f. unfold computeIfAbsent. destruct assoc as [[]|]; try discriminate. revert f.
  apply (ends_bind m); [assumption|]. intros i f. destruct nth_error as [r|]; [|discriminate]. destruct (String.eqb k (reader_type r)); discriminate.
Qed.
Lemma ends_property t : ends (make_property t).
Proof.
  apply ends_bind; [|intros r; apply ends_make]. intros f. unfold lift, makePropertyReader.
  repeat match goal with |- context [String.eqb ?a ?b] => destruct (String.eqb a b) end; discriminate.
Qed.
Lemma ends_fetch t : ends (fetchReaderForRestricted t).
Proof.
  unfold fetchReaderForRestricted. destruct (typeIsPrimitive t); [apply ends_compute, ends_property|].
  apply ends_bind; [apply ends_types_at|]. intros [i|] f; discriminate.
Qed.
Lemma ends_properties self name fs : ends (property_readers self name fs).
Proof.
  induction fs as [|fd fs IH]; cbn [property_readers]; [apply ends_ret|].
  apply ends_bind. { intros f. unfold lift, resolvedType. destruct (f_kind fd), (f_requires fd); discriminate. }
  intros t. apply ends_bind.
  - destruct (f_kind fd); try (destruct (String.eqb t name); [apply ends_ret|]); try apply ends_types_at.
    apply ends_bind; [apply ends_compute, ends_property|]. intros i. apply ends_ret.
  - intros [i|]; [|intros f; discriminate]. apply ends_bind; [exact IH|]. intros is. apply ends_ret.
Qed.
Lemma ends_type kf t : ends (process_type kf t).
Proof.
  unfold process_type. apply ends_compute. destruct t as [c|r].
  - apply ends_bind; [apply ends_make|]. intros self. apply ends_bind; [apply ends_properties|]. intros ks.
    apply ends_bind; [|intros _; apply ends_ret]. intros f. unfold install_kids. destruct nth_error as [[]|]; discriminate.
  - unfold processRestricted. destruct (r_kind r).
    + apply ends_bind; [apply ends_fetch|]. intros e. apply ends_make.
    + unfold processMap. apply ends_bind; [|intros [k v]; apply ends_make].
      destruct kf; (apply ends_bind; [apply ends_fetch|]); intros a; (apply ends_bind; [apply ends_fetch|]); intros b; apply ends_ret.
    + apply ends_make.
    + apply ends_bind; [apply ends_fetch|]. intros e. apply ends_make.
Qed.
Lemma process_ends kf s : ends (process kf s).
Proof.
  unfold process. induction (List.concat (s_types s)) as [|t ts IH]; cbn [process_entries]; [apply ends_ret|].
  apply ends_bind; [|intros _; exact IH]. apply ends_bind; [apply ends_type|]. intros _.
  apply ends_bind; [apply ends_types_at|]. intros p f. discriminate.
Qed.

(** ** C30 *)

Theorem contents_restored : forall fmt custom mo kf, (forall which name, stays_put (custom which name)) ->
  forall fuel d cf, isAt d -> belowc fuel d ->
  match dumpContents fmt custom mo kf fuel (d, cf) with
  | Ok _ (d', _) => d' = d
  | Throw _ (d', _) => d' = d
  | Fuel => False
  | _ => True
  end.
Proof.
  intros fmt custom mo kf Hc fuel d cf Ha Hb. unfold dumpContents. unfold bind at 1. unfold on_data at 1.
  pose proof (read_envelope_restores fuel d Ha Hb) as E.
  destruct (read_envelope fuel d) as [e d1|e d1| | |]; auto. subst d1.
  unfold bind at 1. unfold on_factory at 1.
  destruct (process mo (e_schema e) cf) as [[] cf1|x cf1| | |] eqn:P; auto; [|now elim (process_ends mo (e_schema e) cf)]. cbn [snd].
  destruct (byDescriptor cf1 (e_descriptor e)) as [i|]; [|exact I].
  destruct (reader_at i cf1) as [r|]; [|exact I].
  assert (R : restoring fuel (dump_payload fmt custom kf fuel cf1 (e_schema e) r)).
  { apply payload_restoring; [assumption|lia]. }
  specialize (R d Hb Ha). unfold on_data. destruct (dump_payload _ _ _ _ _ _ _ d); auto.
Qed.

(** ** C31: values are printed as they are *)

(** The node the cursor is on and those to its right. *)
Definition ahead (d : data) : list tree := match here d with Before _ => [] | At _ t r => t :: r end.
Lemma ahead_next d t t' rest : ahead d = t :: t' :: rest -> ahead (pn_next d) = t' :: rest.
Proof. destruct d as [[cs|l a [|b r]] u]; cbn; congruence. Qed.
Lemma ahead_at d t rest : ahead d = t :: rest -> exists l u, d = Data (At l t rest) u.
Proof. destruct d as [[cs|l a r] u]; cbn; [discriminate|]. intros H. injection H as -> ->. eauto. Qed.

Fixpoint image (fmt : N -> string) (name : option string) (v : value) : ivalue :=
  match v with
  | VInt z | VLong z => IText name (dec z)
  | VDouble b => IText name (fmt b)
  | VBoolean b => IText name (bit b)
  | VString s => IText name (quoted s)
  | VBinary s => IText name ("<<<binary: " ++ dec (Z.of_nat (String.length s)) ++ " bytes>>>")
  | VNull => INull name
  | VObject _ ps => IBraces name (map (fun p => image fmt (Some (fst p)) (snd p)) ps)
  | VList _ es => IBrackets name (map (image fmt None) es)
  | VMap _ kvs => IBraces name (map (fun kv => IEntry (image fmt None (fst kv)) (image fmt None (snd kv))) kvs)
  | VEnum _ c _ => IText name c
  end.

Lemma commas_concat l : commas l = String.concat ", " l.
Proof.
  induction l as [|s l IH]; [reflexivity|]. destruct l as [|s' l]; [reflexivity|].
  change (s ++ ", " ++ commas (s' :: l) = s ++ ", " ++ String.concat ", " (s' :: l)). now rewrite IH.
Qed.
(** An induction principle for values. *)
Lemma value_ind' (P : value -> Prop) :
  (forall z, P (VInt z)) -> (forall z, P (VLong z)) -> (forall b, P (VDouble b)) -> (forall b, P (VBoolean b)) ->
  (forall s, P (VString s)) -> (forall s, P (VBinary s)) -> P VNull ->
  (forall fp ps, Forall (fun p => P (snd p)) ps -> P (VObject fp ps)) ->
  (forall fp es, Forall P es -> P (VList fp es)) ->
  (forall fp kvs, Forall (fun kv => P (fst kv) /\ P (snd kv)) kvs -> P (VMap fp kvs)) ->
  (forall fp c o, P (VEnum fp c o)) -> forall v, P v.
Proof.
  intros H1 H2 H3 H4 H5 H6 H7 H8 H9 H10 H11. fix rec 1.
  intros [z|z|b|b|s|s| |fp ps|fp es|fp kvs|fp c o];
    [apply H1|apply H2|apply H3|apply H4|apply H5|apply H6|apply H7|apply H8|apply H9|apply H10|apply H11].
  - induction ps as [|p ps IH]; constructor; [apply rec|apply IH].
  - induction es as [|p ps IH]; constructor; [apply rec|apply IH].
  - induction kvs as [|p ps IH]; constructor; [split; apply rec|apply IH].
Qed.
Lemma show_image fmt v : forall name, show (image fmt name v) = labelled name (printed fmt dec v).
Proof.
  induction v as [z|z|b|b|s|s| |fp ps IH|fp es IH|fp kvs IH|fp c o] using value_ind'; intros name; try reflexivity.
  - cbn [image show printed]. rewrite commas_concat, map_map.
    replace (map (fun x => show (image fmt (Some (fst x)) (snd x))) ps)
      with (map (fun p => fst p ++ " : " ++ printed fmt dec (snd p)) ps); [reflexivity|].
    induction IH as [|p ps Hp _ IH]; [reflexivity|]. cbn [map]. now rewrite IH, Hp.
  - cbn [image show printed]. rewrite commas_concat, map_map.
    replace (map (fun x => show (image fmt None x)) es) with (map (printed fmt dec) es); [reflexivity|].
    induction IH as [|p ps Hp _ IH]; [reflexivity|]. cbn [map]. now rewrite IH, Hp.
  - cbn [image show printed]. rewrite commas_concat, map_map.
    replace (map (fun x => show (IEntry (image fmt None (fst x)) (image fmt None (snd x)))) kvs)
      with (map (fun kv => printed fmt dec (fst kv) ++ " : " ++ printed fmt dec (snd kv)) kvs); [reflexivity|].
    induction IH as [|p ps [Hp Hq] _ IH]; [reflexivity|]. cbn [map show]. now rewrite IH, Hp, Hq.
Qed.

(** A factory that has processed the entries. *)
Definition ready (f : factory) (ts : list notation) : Prop :=
  (forall p i, byType f (prim_name p) = Some i -> lock f i = Some (RProperty p)) /\
  (forall t, In t ts -> exists i r, byType f (n_name t) = Some i /\ lock f i = Some r /\ reads f t r).

Lemma fromDescriptor_found s t : distinct_fingerprints (List.concat (s_types s)) -> In t (List.concat (s_types s)) ->
  fromDescriptor s (n_descriptor t) = Ret t.
Proof.
  intros Hd Ht. unfold fromDescriptor, first_with.
  destruct (find _ _) as [u|] eqn:E.
  - apply find_some in E as [Hu E]. apply String.eqb_eq in E. now rewrite (Hd u t Hu Ht E).
  - apply find_none with (x := t) in E; [|assumption]. rewrite String.eqb_refl in E. discriminate.
Qed.

Lemma bind_ok {S A B} (m : S -> outcome S A) (k : A -> S -> outcome S B) d a d1 X :
  m d = Ok a d1 -> k a d1 = X -> bind m k d = X.
Proof. unfold bind. now intros -> . Qed.
Lemma auto_next_ok {A} (m : PM A) d a d1 : m d = Ok a d1 -> auto_next m d = Ok a (pn_next d1).
Proof. unfold auto_next, finally. now intros -> . Qed.
Lemma auto_enter_ok {A} (m : PM A) d a d1 : m (w_enter d) = Ok a d1 -> auto_enter false m d = Ok a (pn_exit d1).
Proof. unfold auto_enter, finally. now intros -> . Qed.
Lemma auto_enter2_ok {A} (m : PM A) d a d1 : m (pn_next (w_enter d)) = Ok a d1 -> auto_enter true m d = Ok a (pn_exit d1).
Proof. unfold auto_enter, finally. now intros -> . Qed.
Lemma auto_list_enter_ok {A} (m : nat -> PM A) d a d1 :
  m (pn_get_list d) (pn_next (pn_enter d)) = Ok a d1 -> auto_list_enter true m d = Ok a (pn_exit d1).
Proof. unfold auto_list_enter, finally. now intros -> . Qed.
Lemma auto_map_enter_ok {A} (m : nat -> PM A) d a d1 :
  m (pn_get_map d) (pn_next (pn_enter d)) = Ok a d1 -> auto_map_enter true m d = Ok a (pn_exit d1).
Proof. unfold auto_map_enter, finally. now intros -> . Qed.

Section Fidelity.
Context (fmt : N -> string) (custom : nat -> option string -> PM ivalue) (kf : bool) (f : factory) (s : schema).
Notation ts := (List.concat (s_types s)).
Hypothesis Hready : ready f ts.
Hypothesis Hdistinct : distinct_fingerprints ts.

Definition prints (rec : reader -> option string -> PM ivalue) (ty : string) (v : value) : Prop :=
  forall i r, byType f ty = Some i -> lock f i = Some r ->
  forall name d rest, ahead d = encode v :: rest -> rec r name d = Ok (image fmt name v) (pn_next d).

(** Going back up after having moved along the level. *)
Lemma enter_back d d' : isAt d -> same_level (pn_enter d) d' -> pn_exit d' = d.
Proof. apply enter_exit. Qed.

Lemma fields_print rec fields ks ps : 
  Forall2 (fun fd i => exists ty, property_type fd = Some ty /\ byType f ty = Some i) fields ks ->
  Forall2 (fun fd p => fst p = f_name fd /\
     exists ty, property_type fd = Some ty /\ prints rec ty (snd p) /\ (forall i, byType f ty = Some i -> exists r, lock f i = Some r)) fields ps ->
  forall d, (ps <> [] -> ahead d = map (fun p => encode (snd p)) ps) ->
  exists d', dump_fields f rec fields ks d = Ok (map (fun p => image fmt (Some (fst p)) (snd p)) ps) d' /\ same_level d d'.
Proof.
  intros H. revert ps. induction H as [|fd i fields ks (ty & Hty & Hi) _ IH]; intros ps Hp d Hd; inversion Hp as [|? p ? ps' H1 H2]; subst.
  - exists d. split; [reflexivity|apply same_level_refl].
  - destruct H1 as (Hn & ty' & Hty' & Hpr & Hl). rewrite Hty in Hty'. injection Hty' as <-.
    destruct (Hl _ Hi) as (r & Hr). cbn [dump_fields]. rewrite Hr.
    specialize (Hd ltac:(discriminate)). cbn [map] in Hd.
    unfold bind at 1. rewrite (Hpr i r Hi Hr (Some (f_name fd)) d _ Hd).
    destruct (IH ps' H2 (pn_next d)) as (d' & E & L).
    { intros Hne. destruct ps' as [|q ps']; [now elim Hne|]. cbn [map] in *. eapply ahead_next; eauto. }
    exists d'. unfold bind. rewrite E. cbn. rewrite Hn. split; [reflexivity|]. eapply same_level_trans; [apply next_same|exact L].
Qed.

Lemma elements_print rec e i r vs : byType f e = Some i -> lock f i = Some r -> Forall (prints rec e) vs ->
  forall d, (vs <> [] -> ahead d = map encode vs) ->
  exists d', dump_elements rec (List.length vs) (Some r) d = Ok (map (image fmt None) vs) d' /\ same_level d d'.
Proof.
  intros Hi Hr H. induction H as [|v vs Hv _ IH]; intros d Hd.
  - exists d. split; [reflexivity|apply same_level_refl].
  - cbn [List.length dump_elements]. specialize (Hd ltac:(discriminate)). cbn [map] in Hd.
    unfold bind at 1. rewrite (Hv i r Hi Hr None d _ Hd).
    destruct (IH (pn_next d)) as (d' & E & L).
    { intros Hne. destruct vs as [|q vs]; [now elim Hne|]. cbn [map] in *. eapply ahead_next; eauto. }
    exists d'. unfold bind. rewrite E. split; [reflexivity|]. eapply same_level_trans; [apply next_same|exact L].
Qed.

Lemma entries_print rec k v i j r q kvs : kf = true ->
  byType f k = Some i -> lock f i = Some r -> byType f v = Some j -> lock f j = Some q ->
  Forall (fun kv => prints rec k (fst kv) /\ prints rec v (snd kv)) kvs ->
  forall d, (kvs <> [] -> ahead d = flat_map (fun kv => [encode (fst kv); encode (snd kv)]) kvs) ->
  exists d', dump_entries kf rec (List.length (flat_map (fun kv => [encode (fst kv); encode (snd kv)]) kvs)) (Some r) (Some q) d
    = Ok (map (fun kv => IEntry (image fmt None (fst kv)) (image fmt None (snd kv))) kvs) d' /\ same_level d d'.
Proof.
  intros Hkf Hi Hr Hj Hq H. induction H as [|[a b] kvs [Ha Hb] _ IH]; intros d Hd.
  - exists d. split; [reflexivity|apply same_level_refl].
  - cbn [flat_map app List.length dump_entries pred]. specialize (Hd ltac:(discriminate)). cbn [flat_map app] in Hd.
    cbn [fst snd] in *. unfold dump_entry, dump_through. rewrite Hkf.
    unfold bind at 1 2. rewrite (Ha i r Hi Hr None d _ Hd).
    pose proof (ahead_next _ _ _ _ Hd) as Hd2.
    unfold bind at 1. rewrite (Hb j q Hj Hq None _ _ Hd2). unfold ret at 1.
    destruct (IH (pn_next (pn_next d))) as (d' & E & L).
    { intros Hne. destruct kvs as [|[a' b'] kvs]; [now elim Hne|]. cbn [flat_map app] in *. eapply ahead_next; eauto. }
    exists d'. unfold bind. rewrite <- Hkf at 1. rewrite E. split; [reflexivity|].
    eapply same_level_trans; [apply next_same|]. eapply same_level_trans; [apply next_same|exact L].
Qed.

Lemma exit_list l rest u a cs d' : same_level (Data (Before cs) (Frame l a rest :: u)) d' ->
  pn_exit d' = Data (At l (Node a cs) rest) u.
Proof. intros [H1 H2]. unfold pn_exit. rewrite H1. cbn [ups]. rewrite H2. reflexivity. Qed.

Lemma object_prints rec c ks ps name d rest : In (TComposite c) ts -> List.length ks = List.length (c_fields c) ->
  (forall d, (ps <> [] -> ahead d = map (fun p => encode (snd p)) ps) ->
     exists d', dump_fields f rec (c_fields c) ks d = Ok (map (fun p => image fmt (Some (fst p)) (snd p)) ps) d' /\ same_level d d') ->
  ahead d = encode (VObject (c_descriptor c) ps) :: rest ->
  dump_composite f s rec ks name d = Ok (image fmt name (VObject (c_descriptor c) ps)) (pn_next d).
Proof.
  intros Hin Hlen Hf Hd. apply ahead_at in Hd as (l & u & ->).
  pose proof (fromDescriptor_found s _ Hdistinct Hin) as F. cbn [n_descriptor] in F.
  destruct (Hf (pn_next (Data (Before (map (fun p => encode (snd p)) ps))
    (Frame [leaf (ASymbol (c_descriptor c))] AList [] :: Frame l ADescribed rest :: u)))) as (d' & E & L).
  { intros Hne. destruct ps as [|p ps']; [now elim Hne|]. reflexivity. }
  apply auto_next_ok. cbn beta. eapply bind_ok; [|reflexivity].
  eapply bind_ok; [reflexivity|].
  erewrite auto_enter_ok with (d1 := Data (At [leaf (ASymbol (c_descriptor c))] (list_of (map (fun p => encode (snd p)) ps)) []) (Frame l ADescribed rest :: u));
    [reflexivity|].
  eapply bind_ok; [reflexivity|]. eapply bind_ok; [unfold lift; rewrite F; reflexivity|].
  cbn beta iota. rewrite Hlen, Nat.eqb_refl. eapply bind_ok; [reflexivity|]. eapply bind_ok; [reflexivity|].
  erewrite auto_enter_ok; [|exact E]. f_equal. apply exit_list. eapply same_level_trans; [apply next_same|exact L].
Qed.

Lemma list_prints rec t i r vs name d rest : In t ts -> lock f i = Some r ->
  (forall d, (vs <> [] -> ahead d = map encode vs) ->
     exists d', dump_elements rec (List.length vs) (Some r) d = Ok (map (image fmt None) vs) d' /\ same_level d d') ->
  ahead d = encode (VList (n_descriptor t) vs) :: rest ->
  dump_list f s rec i name d = Ok (image fmt name (VList (n_descriptor t) vs)) (pn_next d).
Proof.
  intros Hin Hr Hf Hd. apply ahead_at in Hd as (l & u & ->).
  destruct (Hf (pn_next (Data (Before (map encode vs))
    (Frame [leaf (ASymbol (n_descriptor t))] AList [] :: Frame l ADescribed rest :: u)))) as (d' & E & L).
  { intros Hne. destruct vs as [|p vs']; [now elim Hne|]. reflexivity. }
  apply auto_next_ok. eapply bind_ok; [|reflexivity].
  eapply bind_ok; [reflexivity|].
  erewrite auto_enter_ok with (d1 := Data (At [leaf (ASymbol (n_descriptor t))] (list_of (map encode vs)) []) (Frame l ADescribed rest :: u));
    [reflexivity|].
  eapply bind_ok; [reflexivity|]. eapply bind_ok; [unfold lift; rewrite (fromDescriptor_found s _ Hdistinct Hin); reflexivity|].
  cbn beta. rewrite Hr. erewrite auto_list_enter_ok.
  2:{ cbn beta. replace (pn_get_list _) with (List.length vs) by (symmetry; apply map_length). exact E. }
  f_equal. apply exit_list. eapply same_level_trans; [apply next_same|exact L].
Qed.

Lemma map_prints rec t i j r q kvs name d rest : In t ts -> lock f i = Some r -> lock f j = Some q ->
  (forall d, (kvs <> [] -> ahead d = flat_map (fun kv => [encode (fst kv); encode (snd kv)]) kvs) ->
     exists d', dump_entries kf rec (List.length (flat_map (fun kv => [encode (fst kv); encode (snd kv)]) kvs)) (Some r) (Some q) d
       = Ok (map (fun kv => IEntry (image fmt None (fst kv)) (image fmt None (snd kv))) kvs) d' /\ same_level d d') ->
  ahead d = encode (VMap (n_descriptor t) kvs) :: rest ->
  dump_map kf f s rec i j name d = Ok (image fmt name (VMap (n_descriptor t) kvs)) (pn_next d).
Proof.
  intros Hin Hr Hq Hf Hd. apply ahead_at in Hd as (l & u & ->).
  set (cs := flat_map (fun kv => [encode (fst kv); encode (snd kv)]) kvs) in *.
  destruct (Hf (pn_next (Data (Before cs)
    (Frame [leaf (ASymbol (n_descriptor t))] AMap [] :: Frame l ADescribed rest :: u)))) as (d' & E & L).
  { intros Hne. unfold cs. destruct kvs as [|p vs']; [now elim Hne|]. reflexivity. }
  apply auto_next_ok. eapply bind_ok; [|reflexivity].
  eapply bind_ok; [reflexivity|].
  erewrite auto_enter_ok with (d1 := Data (At [leaf (ASymbol (n_descriptor t))] (Node AMap cs) []) (Frame l ADescribed rest :: u));
    [reflexivity|].
  eapply bind_ok; [reflexivity|]. eapply bind_ok; [unfold lift; rewrite (fromDescriptor_found s _ Hdistinct Hin); reflexivity|].
  cbn beta. rewrite Hr, Hq. erewrite auto_map_enter_ok; [|exact E].
  f_equal. apply exit_list. eapply same_level_trans; [apply next_same|exact L].
Qed.

Lemma enum_prints fp c o name d rest : ahead d = encode (VEnum fp c o) :: rest ->
  dump_enum name d = Ok (image fmt name (VEnum fp c o)) (pn_next d).
Proof. intros Hd. apply ahead_at in Hd as (l & u & ->). reflexivity. Qed.

Lemma entry_reader t i r : In t ts -> byType f (n_name t) = Some i -> lock f i = Some r -> reads f t r.
Proof.
  intros Hin Hi Hr. destruct (proj2 Hready t Hin) as (i' & r' & Hi' & Hr' & H). congruence.
Qed.
Lemma registered_locked ty i : byType f ty = Some i -> (exists p, ty = prim_name p) \/ (exists t, In t ts /\ ty = n_name t) ->
  exists r, lock f i = Some r.
Proof.
  intros Hi [(p & ->)|(t & Ht & ->)]; [exists (RProperty p); now apply Hready|].
  destruct (proj2 Hready t Ht) as (i' & r' & Hi' & Hr' & _). exists r'. congruence.
Qed.
Lemma conforms_known ty v : conforms ts ty v -> (exists p, ty = prim_name p) \/ (exists t, In t ts /\ ty = n_name t).
Proof.
  intros H. inversion H; subst;
    first [left; first [now exists PInt|now exists PLong|now exists PDouble|now exists PBoolean|now exists PString|now exists PBinary]
          |right; eexists; split; [eassumption|reflexivity]].
Qed.
Lemma map_free_object fp ps : map_free (VObject fp ps) -> forall p, In p ps -> map_free (snd p).
Proof. cbn. induction ps as [|q ps IH]; cbn; [tauto|]. intros [H1 H2] p [<- |H]; auto. Qed.
Lemma map_free_list fp vs : map_free (VList fp vs) -> forall v, In v vs -> map_free v.
Proof. cbn. induction vs as [|q ps IH]; cbn; [tauto|]. intros [H1 H2] p [<- |H]; auto. Qed.
Lemma Forall2_len {A B} (R : A -> B -> Prop) l l' : Forall2 R l l' -> List.length l = List.length l'.
Proof. induction 1; cbn; congruence. Qed.

Lemma reader_prints : forall fuel ty v, conforms ts ty v -> kf = true \/ map_free v -> height (encode v) < fuel ->
  prints (dump fmt custom kf f s fuel) ty v.
Proof.
  induction fuel as [|fuel IH]; intros ty v H Hm Hh; [lia|].
  assert (Hprim : forall p, ty = prim_name p -> forall i r, byType f ty = Some i -> lock f i = Some r -> r = RProperty p).
  { intros p -> i r Hi Hr. rewrite (proj1 Hready p i Hi) in Hr. congruence. }
  intros i r Hi Hr name d rest Hd.
  inversion H as [z|z|b|b|x|x|c Hin|c ps Hin Hps|q e vs Hin Hk Hof Hvs|q k w kvs Hin Hk Hof Hkvs|q c o Hin Hk Hc]; subst; cbn [dump].
  - rewrite (Hprim PInt eq_refl i r Hi Hr). apply ahead_at in Hd as (l & u & ->). reflexivity.
  - rewrite (Hprim PLong eq_refl i r Hi Hr). apply ahead_at in Hd as (l & u & ->). reflexivity.
  - rewrite (Hprim PDouble eq_refl i r Hi Hr). apply ahead_at in Hd as (l & u & ->). reflexivity.
  - rewrite (Hprim PBoolean eq_refl i r Hi Hr). apply ahead_at in Hd as (l & u & ->). reflexivity.
  - rewrite (Hprim PString eq_refl i r Hi Hr). apply ahead_at in Hd as (l & u & ->). reflexivity.
  - rewrite (Hprim PBinary eq_refl i r Hi Hr). apply ahead_at in Hd as (l & u & ->). reflexivity.
  - destruct (entry_reader (TComposite c) i r Hin Hi Hr) as (ks & -> & _).
    apply ahead_at in Hd as (l & u & ->). reflexivity.
  - destruct (entry_reader (TComposite c) i r Hin Hi Hr) as (ks & -> & Hks).
    apply object_prints with (rest := rest); [assumption|symmetry; eapply Forall2_len; eauto| |assumption].
    intros d0 Hd0. apply fields_print; [assumption| |assumption].
    assert (Hs : forall p, In p ps -> (kf = true \/ map_free (snd p)) /\ height (encode (snd p)) < fuel).
    { intros p Hp. split.
      - destruct Hm as [Hm|Hm]; [now left|right]. eapply map_free_object; eauto.
      - cbn [encode] in Hh. unfold payload_tree, list_of in Hh. rewrite height_node, !heights_cons, height_node in Hh.
        pose proof (heights_in (encode (snd p)) (map (fun p => encode (snd p)) ps)) as X.
        specialize (X ltac:(apply in_map_iff; eauto)). lia. }
    clear - IH Hps Hs Hready Hdistinct. induction Hps as [|fd p fs ps (Hn & ty & Hty & Hc) _ IHp]; constructor.
    + split; [assumption|]. exists ty. split; [assumption|]. destruct (Hs p) as [H1 H2]; [now left|]. split; [now apply IH|].
      intros i Hi. eapply registered_locked; eauto using conforms_known.
    + apply IHp. intros p' Hp'. apply Hs. now right.
  - assert (Hs : Forall (prints (dump fmt custom kf f s fuel) e) vs).
    { rewrite Forall_forall in *. intros v Hv. apply IH; [auto| |].
      - destruct Hm as [Hm|Hm]; [now left|right]. eapply map_free_list; eauto.
      - cbn [encode] in Hh. unfold payload_tree, list_of in Hh. rewrite height_node, !heights_cons, height_node in Hh.
        pose proof (heights_in (encode v) (map encode vs)) as X. specialize (X ltac:(apply in_map_iff; eauto)). lia. }
    assert (exists i', byType f e = Some i' /\ (r = RList (r_name q) i' \/ r = RArray (r_name q) i')) as (i' & Hi' & Hrr).
    { pose proof (entry_reader (TRestricted q) i r Hin Hi Hr) as R. cbn [reads] in R. destruct Hk as [Hk|Hk]; rewrite Hk in R;
      destruct R as (e' & i' & -> & He & Hi'); rewrite Hof in He; injection He as <-; eauto. }
    assert (X : dump_list f s (dump fmt custom kf f s fuel) i' name d = Ok (image fmt name (VList (r_descriptor q) vs)) (pn_next d)).
    { destruct vs as [|v0 vs'].
      - (* nothing is asked of the element reader *)
        clear Hs. apply ahead_at in Hd as (l & u & ->).
        pose proof (fromDescriptor_found s _ Hdistinct Hin) as F. cbn [n_descriptor] in F.
        apply auto_next_ok. eapply bind_ok; [|reflexivity]. eapply bind_ok; [reflexivity|].
        erewrite auto_enter_ok with (d1 := Data (At [leaf (ASymbol (r_descriptor q))] (list_of []) []) (Frame l ADescribed rest :: u)); [reflexivity|].
        eapply bind_ok; [reflexivity|]. eapply bind_ok; [unfold lift; rewrite F; reflexivity|]. reflexivity.
      - destruct (registered_locked e i' Hi') as (r' & Hr').
        { apply (conforms_known e v0). now apply Forall_inv in Hvs. }
        apply (list_prints (dump fmt custom kf f s fuel) (TRestricted q) i' r' (v0 :: vs') name d rest Hin Hr'); [|exact Hd].
        intros d0 Hd0. now apply elements_print with (e := e) (i := i'). }
    destruct Hrr as [-> | ->]; exact X.
  - pose proof (entry_reader (TRestricted q) i r Hin Hi Hr) as R. cbn [reads] in R. rewrite Hk in R.
    destruct R as (k' & w' & i1 & i2 & -> & Ho & H1 & H2). rewrite Hof in Ho. injection Ho as <- <-.
    destruct Hm as [Hm|Hm]; [|destruct Hm].
    assert (Hs : Forall (fun kv => prints (dump fmt custom kf f s fuel) k (fst kv) /\ prints (dump fmt custom kf f s fuel) w (snd kv)) kvs).
    { rewrite Forall_forall in *. intros kv Hv. destruct (Hkvs kv Hv) as [A1 A2].
      cbn [encode] in Hh. unfold payload_tree in Hh. rewrite height_node, !heights_cons, height_node in Hh.
      pose proof (heights_in (encode (fst kv)) (flat_map (fun kv => [encode (fst kv); encode (snd kv)]) kvs)) as X.
      specialize (X ltac:(apply in_flat_map; exists kv; split; [assumption|now left])).
      pose proof (heights_in (encode (snd kv)) (flat_map (fun kv => [encode (fst kv); encode (snd kv)]) kvs)) as Y.
      specialize (Y ltac:(apply in_flat_map; exists kv; split; [assumption|right; now left])).
      split; (apply IH; [auto|now left|lia]). }
    destruct kvs as [|[k0 w0] kvs'].
    + clear Hs. apply ahead_at in Hd as (l & u & ->).
      pose proof (fromDescriptor_found s _ Hdistinct Hin) as F. cbn [n_descriptor] in F.
      apply auto_next_ok. eapply bind_ok; [|reflexivity]. eapply bind_ok; [reflexivity|].
      erewrite auto_enter_ok with (d1 := Data (At [leaf (ASymbol (r_descriptor q))] (Node AMap []) []) (Frame l ADescribed rest :: u)); [reflexivity|].
      eapply bind_ok; [reflexivity|]. eapply bind_ok; [unfold lift; rewrite F; reflexivity|]. reflexivity.
    + apply Forall_inv in Hkvs as [A1 A2].
      destruct (registered_locked k i1 H1 (conforms_known _ _ A1)) as (r1 & Hr1).
      destruct (registered_locked w i2 H2 (conforms_known _ _ A2)) as (r2 & Hr2).
      apply (map_prints (dump fmt custom kf f s fuel) (TRestricted q) i1 i2 r1 r2 ((k0, w0) :: kvs') name d rest Hin Hr1 Hr2); [|exact Hd].
      intros d0 Hd0. now apply entries_print with (k := k) (v := w) (i := i1) (j := i2).
  - pose proof (entry_reader (TRestricted q) i r Hin Hi Hr) as R. cbn [reads] in R. rewrite Hk in R. subst r.
    eapply enum_prints; eauto.
Qed.
End Fidelity.

(** ** Blobs *)

Lemma history_ready kf h f s f' : run kf h new_factory f -> Forall proper (List.concat (s_types s)) ->
  process kf s f = Ok tt f' -> consistent h (List.concat (s_types s)) -> ready f' (List.concat (s_types s)).
Proof.
  intros R Hp H [Hu Hi]. split.
  - intros p i Hb. pose proof (history_backed _ _ _ R) as B.
    assert (B' : backed (installed h) (entries_of h ++ List.concat (s_types s)) f).
    { eapply backed_incl; [apply incl_refl|apply incl_appl, incl_refl|exact B]. }
    assert (N : incl (List.concat (s_types s)) (entries_of h ++ List.concat (s_types s))) by apply incl_appr, incl_refl.
    pose proof (entries_backed kf (installed h) _ _ Hp N f B') as X. unfold process in H. rewrite H in X. cbn in X.
    destruct (X _ _ Hb) as (r & Hr & C). apply byType_lock with (r := r) in Hb; [|assumption]. rewrite Hb. f_equal.
    destruct C as [(q & -> & E)|[[C E]|(u & Hu1 & Hu2 & Hu3)]].
    + f_equal. destruct p, q; cbn in E; congruence.
    + destruct (Hi r (installed_in _ _ C)) as [Z _]. rewrite E, prim_name_primitive in Z. discriminate.
    + exfalso. apply in_app_or in Hu1 as [Hu1|Hu1].
      * assert (P : proper u).
        { clear - R Hu1. induction R as [|o h f f1 f2 Hc Hs R IH]; [destruct Hu1|].
          change (o :: h) with ([o] ++ h)%list in Hu1. unfold entries_of in Hu1. rewrite map_app, concat_app in Hu1.
          apply in_app_or in Hu1 as [Hu1|Hu1]; [|auto]. destruct o as [s|r]; cbn in Hu1; [|destruct Hu1].
          rewrite app_nil_r in Hu1. cbn in Hc. rewrite Forall_forall in Hc. auto. }
        destruct P as [_ P]. rewrite Hu2, prim_name_primitive in P. discriminate.
      * rewrite Forall_forall in Hp. destruct (Hp u Hu1) as [_ P]. rewrite Hu2, prim_name_primitive in P. discriminate.
  - intros t Ht. eapply processed_reads; eauto. intros r Hr. now apply Hi.
Qed.

Lemma conforms_incl ts ts' : incl ts ts' -> forall v ty, conforms ts ty v -> conforms ts' ty v.
Proof.
  intros Hi v. induction v as [z|z|b|b|x|x| |fp ps IH|fp es IH|fp kvs IH|fp c o] using value_ind'; intros ty H; inversion H; subst;
    try (constructor; auto; fail).
  - apply conf_object; [auto|]. match goal with X : Forall2 _ _ _ |- _ => rename X into HP end. clear - HP IH.
    induction HP as [|fd p fs ps (Hn & t & Ht & Hc) _ IHp]; constructor; [|apply IHp; now inversion IH].
    apply Forall_inv in IH. eauto.
  - eapply conf_list; eauto. match goal with X : Forall (conforms ts _) _ |- _ => rename X into HP end.
    rewrite Forall_forall in *. auto.
  - eapply conf_map; eauto. match goal with X : Forall (fun kv => conforms ts _ _ /\ _) _ |- _ => rename X into HP end.
    rewrite Forall_forall in *. intros kv Hkv. destruct (HP kv Hkv), (IH kv Hkv). auto.
Qed.

Lemma contents_printed fmt custom mo kf fuel groups x v t e h cf cf' :
  let blob := envelope_tree (encode v) groups [x] in
  let ts := List.concat (s_types (e_schema e)) in
  dispatchDescribed (S fuel) (decoded blob) = Ok (EEnvelope e) (decoded blob) -> Some (e_descriptor e) = fingerprint_of v ->
  run mo h new_factory cf -> Forall proper ts -> process mo (e_schema e) cf = Ok tt cf' ->
  consistent h ts -> distinct_fingerprints ts ->
  In t ts -> conforms ts (n_name t) v -> fingerprint_of v = Some (n_descriptor t) -> kf = true \/ map_free v ->
  height blob < fuel ->
  dumpContents fmt custom mo kf fuel (decoded blob, cf)
  = Ok ("{ Parsed : " ++ printed fmt dec v ++ " }") (decoded blob, cf').
Proof.
  intros blob ts Hparse Hfp R Hp H Hc Hd Ht Hv Hfv Hm Hh.
  pose proof (history_ready _ _ _ _ _ R Hp H Hc) as Hr.
  assert (One : one_name_per_fingerprint ts) by (intros a b Ha Hb E; now rewrite (Hd a b Ha Hb E)).
  destruct (processed_resolves mo cf (e_schema e) cf' ltac:(eexists; eauto) Hp One H t Ht) as (i & r & H1 & H2 & H3 & _).
  unfold dumpContents. unfold bind at 1. unfold on_data at 1. rewrite (read_envelope_parsed fuel (decoded blob) e I Hparse).
  unfold bind at 1, on_factory. rewrite H. cbn [snd].
  rewrite Hfv in Hfp. injection Hfp as ->. rewrite H2. unfold reader_at. rewrite (lock_heap _ _ _ H3).
  unfold on_data, dump_payload.
  assert (Hb : height (encode v) < fuel).
  { unfold blob, envelope_tree, described, list_of in Hh. rewrite height_node, !heights_cons, height_node, heights_cons in Hh. lia. }
  set (U := [Frame [leaf (AULong (vendor 1))] AList []; Frame [] ADescribed []]).
  pose proof (reader_prints fmt custom kf cf' (e_schema e) Hr Hd fuel _ _ Hv Hm Hb i r H1 H3 (Some "{ Parsed")
    (Data (At [] (encode v) [schema_tree groups; x]) U) [schema_tree groups; x] eq_refl) as D.
  erewrite auto_enter2_ok with (d1 := Data (At [leaf (AULong (vendor 1))] (list_of [encode v; schema_tree groups; x]) []) [Frame [] ADescribed []]); [reflexivity|].
  eapply bind_ok; [reflexivity|]. eapply bind_ok; [reflexivity|].
  erewrite auto_enter_ok; [|eapply bind_ok; [exact D|reflexivity]].
  rewrite show_image. unfold labelled. reflexivity.
Qed.

Lemma encode_payload v fp : fingerprint_of v = Some fp -> exists body, encode v = payload_tree fp body.
Proof. destruct v; cbn; try discriminate; intros H; injection H as ->; eauto. Qed.

Lemma distinct_perm ts ts' : Permutation.Permutation ts' ts -> distinct_fingerprints ts -> distinct_fingerprints ts'.
Proof. intros P H t u Ht Hu. apply H; eapply Permutation.Permutation_in; eauto. Qed.
Lemma consistent_perm h ts ts' : Permutation.Permutation ts' ts -> consistent h ts -> consistent h ts'.
Proof.
  intros P [H1 H2]. split.
  - intros t u Ht Hu. apply H1; [eapply Permutation.Permutation_in; eauto|]. apply in_app_or in Hu as [Hu|Hu]; apply in_or_app; [auto|].
    right. eapply Permutation.Permutation_in; eauto.
  - intros r Hr. destruct (H2 r Hr) as [A B]. split; [assumption|]. intros t Ht. apply B. eapply Permutation.Permutation_in; eauto.
Qed.
Lemma proper_perm ts ts' : Permutation.Permutation ts' ts -> Forall proper ts -> Forall proper ts'.
Proof. intros P. rewrite !Forall_forall. intros H t Ht. apply H. eapply Permutation.Permutation_in; eauto. Qed.
Lemma incl_perm {A} (ts ts' : list A) : Permutation.Permutation ts' ts -> incl ts ts'.
Proof. intros P t Ht. eapply Permutation.Permutation_in; [symmetry; exact P|assumption]. Qed.

Lemma blob_high v groups x n : height (envelope_tree (encode v) groups [x]) < n -> exists m, S n = S (S (S (S m))).
Proof.
  unfold envelope_tree, described, list_of. rewrite height_node, !heights_cons, height_node, heights_cons. intros H.
  assert (1 <= height (encode v)) by (destruct (encode v); rewrite height_node; lia).
  destruct n as [|[|[|n]]]; try lia. eauto.
Qed.

(** The entries are properly named. *)
Lemma entry_proper t : entry_ok t -> typeIsPrimitive (n_name t) = false -> proper t.
Proof. intros (H & _) Hn. now split. Qed.

Theorem dump_faithful : forall fmt custom mo kf fuel groups x v h cf,
  Forall readable_type (List.concat groups) -> height (envelope_tree (encode v) groups [x]) < fuel ->
  run mo h new_factory cf ->
  exists ts s, Forall2 type_means (List.concat groups) ts /\ Permutation.Permutation (List.concat (s_types s)) ts /\
    forall t,
      (forall u, In u ts -> typeIsPrimitive (n_name u) = false) -> consistent h ts -> distinct_fingerprints ts ->
      In t ts -> conforms ts (n_name t) v -> fingerprint_of v = Some (n_descriptor t) -> kf = true \/ map_free v ->
      let blob := decoded (envelope_tree (encode v) groups [x]) in
      dumpContents fmt custom mo kf fuel (blob, cf)
      = match process mo s cf with
        | Ok _ cf' => Ok ("{ Parsed : " ++ printed fmt dec v ++ " }") (blob, cf')
        | Throw e cf' => Throw e (blob, cf')
        | Abort => Abort | UB => UB | Fuel => Fuel
        end.
Proof.
  intros fmt custom mo kf fuel groups x v h cf Hg Hh R.
  destruct (type_results _ Hg) as (ts & H1 & H2 & H3).
  destruct (fingerprint_of v) as [fp|] eqn:Efp.
  - destruct (encode_payload v fp Efp) as (body & Eb). destruct (blob_high _ _ _ _ Hh) as (m & Em).
    destruct (envelope_wire m fp body groups [x] ts [] [] [] H1 H3) as (e & A1 & A2 & A3).
    rewrite <- Eb in A1. fold (decoded (envelope_tree (encode v) groups [x])) in A1. rewrite <- Em in A1.
    exists ts, (e_schema e). split; [assumption|]. split; [assumption|].
    intros t Hn Hc Hd Ht Hv Hf Hm.
    assert (Hp : Forall proper ts).
    { rewrite Forall_forall in *. intros u Hu. apply entry_proper; auto. }
    intros blob. destruct (process mo (e_schema e) cf) as [[] cf'|ex cf'| | |] eqn:HP.
    2-5: unfold dumpContents; unfold bind at 1; unfold on_data at 1; unfold blob;
      rewrite (read_envelope_parsed fuel (decoded (envelope_tree (encode v) groups [x])) e I A1); unfold bind at 1, on_factory; rewrite HP; reflexivity.
    eapply contents_printed with (e := e) (t := t) (h := h); eauto using distinct_perm, consistent_perm, proper_perm.
    + congruence.
    + eapply incl_perm; eauto.
    + eapply conforms_incl; [eapply incl_perm; eauto|exact Hv].
    + now rewrite Efp.
  - exists ts, (schema_of [ts]). split; [assumption|]. split; [cbn; rewrite app_nil_r; apply Permutation.Permutation_refl|].
    intros. discriminate.
Qed.

(** With the entries given, and what becomes of the factory. *)
Lemma dump_known fmt custom mo kf fuel groups x v h cf ts t :
  Forall2 (fun w t => type_result w = Ret t) (List.concat groups) ts -> Forall entry_ok ts ->
  height (envelope_tree (encode v) groups [x]) < fuel -> run mo h new_factory cf -> (forall k, unpoisoned cf k) ->
  regular ts -> listed ts -> closed cf ts ->
  (forall u, In u ts -> typeIsPrimitive (n_name u) = false) -> consistent h ts -> distinct_fingerprints ts ->
  In t ts -> conforms ts (n_name t) v -> fingerprint_of v = Some (n_descriptor t) -> kf = true \/ map_free v ->
  exists s cf', Permutation.Permutation (List.concat (s_types s)) ts /\ Forall proper ts /\ process mo s cf = Ok tt cf' /\
  dumpContents fmt custom mo kf fuel (decoded (envelope_tree (encode v) groups [x]), cf)
  = Ok ("{ Parsed : " ++ printed fmt dec v ++ " }") (decoded (envelope_tree (encode v) groups [x]), cf').
Proof.
  intros H1 H3 Hh R Hclean Hreg Hdep Hcl Hn Hcons Hd Ht Hv Hf Hm.
  assert (Hp : Forall proper ts).
  { rewrite Forall_forall in *. intros u Hu. apply entry_proper; auto. }
  destruct (ordered_processed mo cf ts Hclean Hreg Hdep Hp Hcl) as (levels & cf' & Hi & HP).
  destruct (inserts_conserve ts H3) as (levels' & Hi' & Hperm & _). rewrite Hi in Hi'. injection Hi' as <-.
  destruct (encode_payload v _ Hf) as (body & Eb). destruct (blob_high _ _ _ _ Hh) as (m & Em).
  exists (schema_of levels), cf'. split; [exact Hperm|]. split; [exact Hp|]. split; [exact HP|].
  eapply contents_printed with (e := {| e_schema := schema_of levels; e_descriptor := n_descriptor t |}) (t := t) (h := h);
    cbn [e_schema e_descriptor s_types schema_of]; eauto using distinct_perm, proper_perm.
  - rewrite Eb. unfold decoded. rewrite Em, envelope_parses. unfold envelope_result, schema_result.
    rewrite (add_types_spec _ _ _ H1), Hi. reflexivity.
  - eapply consistent_perm; [exact Hperm|assumption].
  - eapply incl_perm; eauto.
  - eapply conforms_incl; [eapply incl_perm; eauto|exact Hv].
Qed.

Theorem dump_faithful_ordered : forall fmt custom mo kf fuel groups x v h cf,
  Forall readable_type (List.concat groups) -> height (envelope_tree (encode v) groups [x]) < fuel ->
  run mo h new_factory cf -> (forall k, unpoisoned cf k) ->
  exists ts, Forall2 type_means (List.concat groups) ts /\ Forall entry_ok ts /\
    forall t, regular ts -> listed ts -> closed cf ts ->
      (forall u, In u ts -> typeIsPrimitive (n_name u) = false) -> consistent h ts -> distinct_fingerprints ts ->
      In t ts -> conforms ts (n_name t) v -> fingerprint_of v = Some (n_descriptor t) -> kf = true \/ map_free v ->
      exists cf',
      dumpContents fmt custom mo kf fuel (decoded (envelope_tree (encode v) groups [x]), cf)
      = Ok ("{ Parsed : " ++ printed fmt dec v ++ " }") (decoded (envelope_tree (encode v) groups [x]), cf').
Proof.
  intros fmt custom mo kf fuel groups x v h cf Hg Hh R Hclean.
  destruct (type_results _ Hg) as (ts & H1 & H2 & H3). exists ts. split; [assumption|]. split; [assumption|].
  intros t Hreg Hdep Hcl Hn Hcons Hd Ht Hv Hf Hm.
  destruct (dump_known fmt custom mo kf fuel groups x v h cf ts t) as (s & cf' & _ & _ & _ & E); eauto.
Qed.

Theorem dump_faithful_well : forall fmt custom mo kf fuel groups x v h cf,
  Forall readable_type (List.concat groups) -> height (envelope_tree (encode v) groups [x]) < fuel ->
  run_well mo h new_factory cf ->
  exists ts, Forall2 type_means (List.concat groups) ts /\ Forall entry_ok ts /\
    forall t, regular ts -> listed ts -> closed cf ts ->
      (forall u, In u ts -> typeIsPrimitive (n_name u) = false) -> consistent h ts -> distinct_fingerprints ts ->
      In t ts -> conforms ts (n_name t) v -> fingerprint_of v = Some (n_descriptor t) -> kf = true \/ map_free v ->
      exists cf',
      dumpContents fmt custom mo kf fuel (decoded (envelope_tree (encode v) groups [x]), cf)
      = Ok ("{ Parsed : " ++ printed fmt dec v ++ " }") (decoded (envelope_tree (encode v) groups [x]), cf').
Proof.
  intros fmt custom mo kf fuel groups x v h cf Hg Hh HR. apply successes_clean in HR as [HR Hc]. now apply dump_faithful_ordered.
Qed.

Theorem dump_faithful_fresh : forall fmt custom mo kf fuel groups x v,
  Forall readable_type (List.concat groups) -> height (envelope_tree (encode v) groups [x]) < fuel ->
  exists ts, Forall2 type_means (List.concat groups) ts /\ Forall entry_ok ts /\
    forall t, regular ts -> listed ts -> closed new_factory ts ->
      (forall u, In u ts -> typeIsPrimitive (n_name u) = false) -> distinct_fingerprints ts ->
      In t ts -> conforms ts (n_name t) v -> fingerprint_of v = Some (n_descriptor t) -> kf = true \/ map_free v ->
      exists cf',
      dumpContents fmt custom mo kf fuel (decoded (envelope_tree (encode v) groups [x]), new_factory)
      = Ok ("{ Parsed : " ++ printed fmt dec v ++ " }") (decoded (envelope_tree (encode v) groups [x]), cf').
Proof.
  intros fmt custom mo kf fuel groups x v Hg Hh.
  destruct (dump_faithful_ordered fmt custom mo kf fuel groups x v [] new_factory Hg Hh (run_nil _ _) new_unpoisoned) as (ts & H1 & H2 & H3).
  exists ts. split; [assumption|]. split; [assumption|]. intros t Hreg Hdep Hcl Hn Hd Ht Hv Hf Hm. apply (H3 t); auto.
  split; [|intros r []]. cbn. intros a b Ha Hb E.
  destruct Hreg as (_ & ND & _). clear - ND Ha Hb E. induction ts as [|c ts IH]; [destruct Ha|].
  cbn in ND. inversion ND as [|? ? N1 N2]; subst.
  destruct Ha as [<- |Ha], Hb as [<- |Hb]; auto; exfalso; apply N1, in_map_iff; eauto.
Qed.
