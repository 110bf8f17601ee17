From Coq Require Import Lia.
From Verif Require Import Base Proton ProtonProofs Descriptors SpecDescriptors Writer SpecWriter WriterProofs
  Script SpecScript ScriptProofs ScriptWireProofs CordaFile Tools Memory SpecMemory.
Import List ListNotations.
Open Scope string_scope.

(** ** Sizes of maps *)
Section Sizes.
Context {K V : Type} (cmp : K -> K -> comparison) (size : V -> nat).
Definition total (m : list (K * V)) : nat := fold_right (fun e n => size (snd e) + n) 0 m.
Lemma total_cons e m : total (e :: m) = size (snd e) + total m.
Proof. reflexivity. Qed.
Lemma set_new k v m : m_find cmp k m = None -> total (m_set cmp k v m) = size v + total m.
Proof.
  induction m as [|[k' v'] m IH]; cbn [m_find m_set]; [reflexivity|]. destruct (cmp k k'); [discriminate|reflexivity|].
  intros H. rewrite !total_cons, (IH H). cbn [snd]. lia.
Qed.
Lemma set_old k v v0 m : m_find cmp k m = Some v0 -> total (m_set cmp k v m) + size v0 = size v + total m.
Proof.
  induction m as [|[k' v'] m IH]; cbn [m_find m_set]; [discriminate|]. destruct (cmp k k'); [|discriminate|]; rewrite !total_cons; cbn [snd].
  - intros [= ->]. lia.
  - intros H. specialize (IH H). lia.
Qed.
End Sizes.

Definition size_of (b : schema_blob) : nat := match b with CompositeBlob fs => List.length fs | ListBlob _ => 0 end.
Definition fields (w : writer) : nat := total size_of (m_schemas w).

Lemma length_total {K V} (m : list (K * V)) : List.length m = total (fun _ => 1) m.
Proof. induction m as [|e m IH]; [reflexivity|]. rewrite total_cons, <- IH. reflexivity. Qed.

(** ** The heap follows the writer *)

Definition follows (w w' : writer) (h h' : heap) : Prop :=
  trees h' + fields w = trees h + fields w' /\ fields w <= fields w' /\ buffers h' = buffers h.
Definition tracks {A} (m : HM A) (m0 : WM A) : Prop :=
  forall w h, match m0 w with
  | Ok a w' => exists h', m (w, h) = Ok a (w', h') /\ follows w w' h h'
  | Throw e w' => exists h', m (w, h) = Throw e (w', h') /\ follows w w' h h'
  | Abort => m (w, h) = Abort
  | UB => m (w, h) = UB
  | Fuel => m (w, h) = Fuel
  end.

Lemma follows_refl w w' h : fields w' = fields w -> follows w w' h h.
Proof. unfold follows. lia. Qed.
Lemma follows_trans w1 w2 w3 h1 h2 h3 : follows w1 w2 h1 h2 -> follows w2 w3 h2 h3 -> follows w1 w3 h1 h3.
Proof. unfold follows. lia. Qed.

Definition keeps {A} (m : WM A) : Prop :=
  forall w, match m w with Ok _ w' | Throw _ w' => fields w' = fields w | _ => True end.
Lemma tracks_plain {A} (m : WM A) : keeps m -> tracks (plain m) m.
Proof.
  intros K w h. specialize (K w). unfold plain. cbn [fst snd]. destruct (m w); auto; eexists; (split; [reflexivity|now apply follows_refl]).
Qed.
Lemma keeps_bind {A B} (m : WM A) (k : A -> WM B) : keeps m -> (forall a, keeps (k a)) -> keeps (bind m k).
Proof.
  intros K1 K2 w. specialize (K1 w). unfold bind. destruct (m w) as [a w1|e w1| | |]; auto. specialize (K2 a w1).
  destruct (k a w1); auto; congruence.
Qed.
Lemma keeps_put f : keeps (on_payload f).
Proof. intros w. reflexivity. Qed.
Lemma keeps_absent id b : size_of b = 0 -> keeps (schema_if_absent id b).
Proof.
  intros Z w. unfold schema_if_absent. destruct (m_find kcmp id (m_schemas w)) eqn:E; [reflexivity|].
  unfold fields. cbn [m_schemas]. rewrite (set_new kcmp size_of _ _ _ E), Z. reflexivity.
Qed.
Lemma keeps_composite id : keeps (startComposite id).
Proof.
  apply keeps_bind; [now apply keeps_absent|]. intros _. apply keeps_bind; [apply keeps_put|]. intros _. apply keeps_put.
Qed.
Lemma keeps_restricted id jt : keeps (startRestricted id jt).
Proof.
  apply keeps_bind; [now apply keeps_absent|]. intros _. apply keeps_bind; [apply keeps_put|]. intros _.
  apply keeps_bind; [|intros _; apply keeps_put]. destruct (String.eqb jt "map"); [apply keeps_put|].
  destruct (String.eqb jt "list"); [apply keeps_put|]. intros w. reflexivity.
Qed.
Lemma keeps_log t v : keeps (log_pointer t v).
Proof. intros w. destruct t; cbn; try reflexivity. destruct v as [[]|]; try exact I. destruct z; try exact I. reflexivity. Qed.

Lemma tracks_bind {A B} (m : HM A) m0 (k : A -> HM B) k0 : tracks m m0 -> (forall a, tracks (k a) (k0 a)) -> tracks (bind m k) (bind m0 k0).
Proof.
  intros T1 T2 w h. specialize (T1 w h). unfold bind. destruct (m0 w) as [a w1|e w1| | |].
  - destruct T1 as (h1 & -> & F1). specialize (T2 a w1 h1). destruct (k0 a w1) as [b w2|e w2| | |]; auto.
    all: destruct T2 as (h2 & -> & F2); exists h2; (split; [reflexivity|eapply follows_trans; eauto]).
  - destruct T1 as (h1 & -> & F1). eauto.
  - now rewrite T1.
  - now rewrite T1.
  - now rewrite T1.
Qed.
Lemma tracks_finally (m : HM unit) (m0 : WM unit) : tracks m m0 -> tracks (finally m ended_h) (finally m0 ended).
Proof.
  intros T w h. specialize (T w h). unfold finally. destruct (m0 w) as [a w1|e w1| | |].
  1,2: destruct T as (h1 & -> & F); exists h1; (split; [reflexivity|exact F]).
  all: now rewrite T.
Qed.
Lemma tracks_swallow (m : HM unit) (m0 : WM unit) : tracks m m0 -> tracks (swallow_h m) (swallow m0).
Proof.
  intros T w h. specialize (T w h). unfold swallow_h, swallow. destruct (m0 w) as [[] w1|e w1| | |].
  1,2: destruct T as (h1 & -> & F); exists h1; (split; [reflexivity|exact F]).
  all: now rewrite T.
Qed.
Lemma tracks_ret : tracks (ret tt : HM unit) (ret tt : WM unit).
Proof. intros w h. exists h. split; [reflexivity|now apply follows_refl]. Qed.
Lemma tracks_throw e : tracks (throw e : HM unit) (throw e : WM unit).
Proof. intros w h. exists h. split; [reflexivity|now apply follows_refl]. Qed.
Lemma tracks_field parent name f : tracks (add_field_h parent name f) (add_field parent name f).
Proof.
  intros w h. unfold add_field_h, add_field. destruct (m_find kcmp parent (m_schemas w)) as [[fs|]|] eqn:E; auto.
  - destruct (m_find scmp name fs) eqn:Ef.
    + exists h. split; [reflexivity|now apply follows_refl].
    + eexists. split; [reflexivity|]. unfold follows, fields. cbn [m_schemas trees buffers pn_data_made].
      pose proof (set_old kcmp size_of parent (CompositeBlob (m_set scmp name f fs)) _ _ E) as S. cbn [size_of] in S.
      rewrite !length_total in S. rewrite (set_new scmp (fun _ => 1) _ _ _ Ef) in S. lia.
  - exists h. split; [reflexivity|now apply follows_refl].
Qed.

Definition exec_property_h (id : key) (pn ty : string) (v : obj) : HM unit :=
  match v with
  | OPrim p => writePrimitive_h (prim_atom p) (type_of p) false pn id
  | OPrimPtr t p => plain (log_pointer t p) ;; writePrimitive_h (prim_ptr_atom p) t true pn id
  | OObject _ _ _ => writeComposite_h pn ty id ;; exec_h v
  | OVector _ _ _ | OMap _ _ _ => writeRestricted_h pn ty id ;; exec_h v
  | OPointer o => writeComposite_h pn ty id ;; exec_h o
  | ONull => writeComposite_h pn ty id ;; writeNull_h pn ty id
  end.

Lemma script_tracks :
  (forall o, tracks (exec_h o) (exec o) /\ forall id pn ty, tracks (exec_property_h id pn ty o) (exec_property id pn ty o)) /\
  (forall a id, tracks (exec_acts_h id a) (exec_acts id a)) /\
  (forall es, tracks (exec_objs_h es) (exec_objs es)) /\
  (forall kvs, tracks (exec_pairs_h kvs) (exec_pairs kvs)).
Proof.
  pose proof (fun a => tracks_plain _ (keeps_put (pn_put a))) as TP.
  apply script_ind.
  - intros v. split; [apply TP|]. intros id pn ty. apply tracks_bind; [apply tracks_field|intros _; apply TP].
  - intros t v. pose proof (tracks_plain _ (keeps_log t v)) as TL.
    split; [apply tracks_bind; [exact TL|intros _; apply TP]|]. intros id pn ty. apply tracks_bind; [exact TL|]. intros _.
    apply tracks_bind; [apply tracks_field|intros _; apply TP].
  - intros n fp body IH.
    assert (X : tracks (exec_h (OObject n fp body)) (exec (OObject n fp body))).
    { apply tracks_bind; [apply tracks_plain, keeps_composite|]. intros _. apply tracks_finally. apply IH. }
    split; [exact X|]. intros id pn ty. apply tracks_bind; [apply tracks_field|intros _; exact X].
  - intros n fp es IH.
    assert (X : tracks (exec_h (OVector n fp es)) (exec (OVector n fp es))).
    { apply tracks_bind; [apply tracks_plain, keeps_restricted|]. intros _. apply tracks_finally. apply IH. }
    split; [exact X|]. intros id pn ty. apply tracks_bind; [apply tracks_field|intros _; exact X].
  - intros n fp kvs IH.
    assert (X : tracks (exec_h (OMap n fp kvs)) (exec (OMap n fp kvs))).
    { apply tracks_bind; [apply tracks_plain, keeps_restricted|]. intros _. apply tracks_finally. apply IH. }
    split; [exact X|]. intros id pn ty. apply tracks_bind; [apply tracks_field|intros _; exact X].
  - intros o [IH _]. split; [intros w h; reflexivity|]. intros id pn ty. apply tracks_bind; [apply tracks_field|intros _; exact IH].
  - split; [intros w h; reflexivity|]. intros id pn ty. apply tracks_bind; [apply tracks_field|]. intros _.
    apply tracks_bind; [apply tracks_field|intros _; apply TP].
  - intros id. apply tracks_ret.
  - intros pn ty v [_ IHv] rest IHr id.
    change (exec_acts id (AWrite pn ty v rest)) with (exec_property id pn ty v ;; exec_acts id rest).
    change (exec_acts_h id (AWrite pn ty v rest)) with (exec_property_h id pn ty v ;; exec_acts_h id rest).
    apply tracks_bind; auto.
  - intros e id. apply tracks_throw.
  - intros b IHb rest IHr id. cbn [exec_acts exec_acts_h]. apply tracks_bind; [apply tracks_swallow, IHb|intros _; apply IHr].
  - apply tracks_ret.
  - intros o [IHo _] es IHe. cbn [exec_objs exec_objs_h]. apply tracks_bind; auto.
  - apply tracks_ret.
  - intros k [IHk _] v [IHv _] kvs IH. cbn [exec_pairs exec_pairs_h]. apply tracks_bind; [exact IHk|]. intros _. apply tracks_bind; auto.
Qed.

Lemma exec_tracked o w h :
  match exec o w with
  | Ok a w' => exists h', exec_h o (w, h) = Ok a (w', h') /\ follows w w' h h'
  | Throw e w' => exists h', exec_h o (w, h) = Throw e (w', h') /\ follows w w' h h'
  | Abort => exec_h o (w, h) = Abort
  | UB => exec_h o (w, h) = UB
  | Fuel => exec_h o (w, h) = Fuel
  end.
Proof. exact (proj1 (proj1 script_tracks o) w h). Qed.

Lemma repeated_more n h : repeated n h = more_trees n h.
Proof. revert h. induction n as [|n IH]; intros h; cbn; [now destruct h|]. rewrite IH. unfold more_trees, pn_data_made. cbn. f_equal. lia. Qed.

(** ** Serialising *)

Lemma serialise_same o h :
  match exec_blob o new_writer with
  | Ok d w => serialise_h o h = Ok d (more_trees (3 + List.length (m_schemas w) + fields w) h)
  | Throw e w => serialise_h o h = Throw e (more_trees (1 + fields w) h)
  | Abort => serialise_h o h = Abort
  | UB => serialise_h o h = UB
  | Fuel => serialise_h o h = Fuel
  end.
Proof.
  unfold serialise_h, exec_blob, bind. pose proof (exec_tracked o new_writer (pn_data_made h)) as T.
  destruct (exec o new_writer) as [[] w|e w| | |].
  - destruct T as (h' & -> & F1 & F2 & F3). cbn [toBlob toBlob_h destroy_writer]. unfold toBlob_h. cbn [toBlob]. f_equal.
    rewrite repeated_more. unfold more_trees, pn_data_made. cbn [trees buffers pn_data_made] in *. change (fields new_writer) with 0 in F1.
    unfold destroy_writer. f_equal; lia.
  - destruct T as (h' & -> & F1 & F2 & F3). f_equal. unfold more_trees, destroy_writer. destruct h' as [t b]. cbn [trees buffers pn_data_made] in *.
    change (fields new_writer) with 0 in F1. f_equal; lia.
  - now rewrite T.
  - now rewrite T.
  - now rewrite T.
Qed.

Lemma sizes_total m ts : map blob_size m = map type_size ts -> total size_of m = properties_in ts.
Proof.
  revert ts. induction m as [|[k b] m IH]; intros [|t ts]; cbn [map]; try discriminate; [reflexivity|].
  intros [= E1 E2]. rewrite total_cons, (IH _ E2). cbn [properties_in fold_right]. f_equal. destruct t; exact E1.
Qed.

Theorem serialise_trees : forall o, allowed o -> is_ref o = false -> no_clash_begun o ->
  exists ts, schema_begun o ts /\ forall h, serialise_h o h =
    match thrown o with
    | None => Ok (decoded (envelope_tree (written o) [ts] [leaf ANull])) (more_trees (3 + List.length ts + properties_in ts) h)
    | Some e => Throw e (more_trees (1 + properties_in ts) h)
    end.
Proof.
  intros o W P C. destruct (proj1 (proj1 (script_runs (begun o) C) o W (incl_refl _)) P pn_data []) as (m & E & G).
  - apply tidy_empty.
  - intros k s Hk [=].
  - intros k [].
  - destruct (entries_sized _ _ _ G) as (ts & E1 & ES & E2). exists ts. split; [exact E2|]. intros h.
    set (w := Writer (put_all [written o] pn_data) m) in *. change (Writer pn_data []) with new_writer in E.
    assert (B : toBlob w = Ok (decoded (envelope_tree (written o) [ts] [leaf ANull])) w).
    { unfold toBlob, w. cbn [m_payload m_schemas]. rewrite E1. rewrite DescriptorsProofs.schema_makeProton_spec.
      exact (f_equal (fun d => Ok d _) (DescriptorsProofs.envelope_makeProton_spec (written o) [ts])). }
    assert (X : exec_blob o new_writer = match thrown o with None => Ok (decoded (envelope_tree (written o) [ts] [leaf ANull])) w | Some e => Throw e w end).
    { unfold exec_blob, bind. rewrite E. destruct (thrown o); cbn; [reflexivity|exact B]. }
    pose proof (serialise_same o h) as S. rewrite X in S.
    assert (L : List.length (m_schemas w) = List.length ts).
    { apply (f_equal (@List.length _)) in ES. rewrite !map_length in ES. exact ES. }
    assert (Fs : fields w = properties_in ts) by (apply sizes_total; exact ES).
    destruct (thrown o); rewrite S, Fs, ?L; reflexivity.
Qed.

Lemma never_released o h :
  match serialise_h o h with
  | Ok _ h' => trees h + 3 <= trees h' /\ buffers h' = buffers h
  | Throw _ h' => trees h + 1 <= trees h' /\ buffers h' = buffers h
  | _ => True
  end.
Proof.
  pose proof (serialise_same o h) as S. destruct (exec_blob o new_writer) as [d w|e w| | |]; rewrite S; auto; cbn; lia.
Qed.

Lemma save_same encode o h :
  match serialise_h o h with
  | Ok d h' => save_h encode o h = Ok (toFile (of_blob (encode (forest d)))) h'
  | Throw e h' => save_h encode o h = Throw e h'
  | Abort => save_h encode o h = Abort | UB => save_h encode o h = UB | Fuel => save_h encode o h = Fuel
  end.
Proof. unfold save_h. destruct (serialise_h o h) as [d h'|e h'| | |]; auto. destruct h'; reflexivity. Qed.

Theorem save_trees : forall encode o, allowed o -> is_ref o = false -> no_clash_begun o -> thrown o = None ->
  exists ts, schema_begun o ts /\ forall n h,
    save_all_h encode (repeat o n) h =
      Ok (repeat (toFile (of_blob (encode [envelope_tree (written o) [ts] [leaf ANull]]))) n)
         (more_trees (n * (3 + List.length ts + properties_in ts)) h).
Proof.
  intros encode o W P C T. destruct (serialise_trees o W P C) as (ts & S & E). rewrite T in E. exists ts. split; [exact S|].
  induction n as [|n IH]; intros h; cbn [repeat save_all_h]; [now destruct h|].
  pose proof (save_same encode o h) as X. rewrite E in X. rewrite X, IH. cbn [forest decoded]. f_equal.
  unfold more_trees. cbn [trees buffers]. f_equal. lia.
Qed.

(** ** Files *)

Lemma bytes_released {A} f config (use : CordaBytes -> heap -> outcome heap A) h :
  (forall cb h1, match use cb h1 with Ok _ h2 | Throw _ h2 => buffers h2 = buffers h1 | _ => True end) ->
  match with_bytes_h f config use h with Ok _ h' | Throw _ h' => buffers h' = buffers h | _ => True end.
Proof.
  intros H. unfold with_bytes_h, open_h. destruct (open_ f config) as [cb|e| | |]; auto. unfold finally.
  specialize (H cb (new_buffer h)). destruct (use cb (new_buffer h)); auto; cbn in *; now rewrite H.
Qed.

Lemma read_trees {S A} decode f config (use : data -> outcome S A) h :
  match read_h decode f config use h with
  | Ok _ h' => h' = more_trees 1 h
  | Throw _ h' => h' = h \/ h' = more_trees 1 h
  | _ => True
  end.
Proof.
  unfold read_h, with_bytes_h, open_h. destruct (open_ f config) as [cb|e| | |]; auto. unfold finally, with_blob_h, AMQPBlob_h.
  destruct (AMQPBlob_ decode cb) as [d|e| | |]; auto.
  - destruct (use d); auto; unfold more_trees; cbn; auto.
  - cbn. left. unfold destroy_bytes, delete_buffer, new_buffer. cbn. now destruct h.
Qed.

Lemma read_result {S A} decode f config (use : data -> outcome S A) h :
  match open_ f config with
  | Ret cb => match decode (cb_bytes cb) with
              | Some t => match use (decoded t) with
                          | Ok a _ => read_h decode f config use h = Ok a (more_trees 1 h)
                          | Throw e _ => read_h decode f config use h = Throw e (more_trees 1 h)
                          | Abort => read_h decode f config use h = Abort
                          | UB => read_h decode f config use h = UB
                          | Fuel => read_h decode f config use h = Fuel
                          end
              | None => read_h decode f config use h = Abort
              end
  | Exc e => read_h decode f config use h = Throw e h
  | Abrt => read_h decode f config use h = Abort
  | Undef => read_h decode f config use h = UB
  | NoFuel => read_h decode f config use h = Fuel
  end.
Proof.
  unfold read_h, with_bytes_h, open_h. destruct (open_ f config) as [cb|e| | |]; auto. unfold finally, with_blob_h, AMQPBlob_h, AMQPBlob_.
  destruct (decode (cb_bytes cb)); auto. destruct (use (decoded t)); auto.
Qed.
