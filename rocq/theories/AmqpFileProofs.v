(** Proofs: blobs as AMQP 1.0 bytes in files. *)
From Coq Require Import Lia.
From Verif Require Import Base Proton ProtonProofs CordaFile SpecFile Schema SpecDescriptors Factory Readers SpecReaders Blob SchemaDump SpecSchemaDump
  Writer SpecWriter WriterProofs SpecWriteRead Programs SpecPrograms Tools SpecTools SpecFrame SpecCrash CrashProofs Amqp SpecAmqp AmqpProofs.
Import List ListNotations.
Open Scope string_scope.

Definition propers (ts : list tree) : Prop := fold_right (fun c P => proper c /\ P) True ts.
Lemma propers_forall ts : propers ts <-> Forall proper ts.
Proof.
  induction ts as [|t ts IH]; cbn [propers fold_right]; [split; constructor|]. split.
  - intros [H1 H2]. constructor; [exact H1|apply IH, H2].
  - intros H. inversion_clear H as [|? ? H1 H2]. split; [exact H1|apply IH, H2].
Qed.

Lemma fold_and {A} (P : A -> Prop) l : fold_right (fun a Q => P a /\ Q) True l <-> forall a, In a l -> P a.
Proof.
  induction l as [|x l IH]; cbn [fold_right In]; [tauto|]. rewrite IH. split.
  - intros [H1 H2] a [<-|H]; auto.
  - intros H. split; auto.
Qed.

Lemma proper_list cs : Forall proper cs -> proper (list_of cs).
Proof. intros H. cbn [list_of proper]. split; [exact I|]. split; [exact I|]. apply propers_forall, H. Qed.
Lemma proper_str s : proper (str s).
Proof. cbn. auto. Qed.
Lemma proper_strs l : Forall proper (map str l).
Proof. apply Forall_forall. intros t H. apply in_map_iff in H as (s & <- & _). apply proper_str. Qed.
Lemma proper_opt o : proper (opt_str o).
Proof. destruct o; [apply proper_str|cbn; auto]. Qed.
Lemma proper_described code t : (code < 100)%N -> proper t -> proper (described code t).
Proof.
  intros Hc H. cbn [described proper in_range leaf fold_right]. split; [exact I|]. split; [reflexivity|]. split; [|split; [exact H|exact I]].
  split; [|split; [reflexivity|exact I]]. unfold bits, vendor. rewrite N2Z.inj_add, N2Z.inj_mul, N2Z.inj_pow. lia.
Qed.
Lemma proper_field w : proper (field_tree w).
Proof.
  apply proper_described; [reflexivity|]. apply proper_list. repeat (apply Forall_cons); [apply proper_str|apply proper_str| |apply proper_opt|apply proper_opt|cbn; auto|cbn; auto|constructor].
  apply proper_list, proper_strs.
Qed.
Lemma proper_fingerprint fp : proper (fingerprint_tree fp [leaf ANull]).
Proof. apply proper_described; [reflexivity|]. apply proper_list. repeat (apply Forall_cons); [cbn; auto|cbn; auto|constructor]. Qed.
Lemma proper_type t : proper (type_tree t).
Proof.
  destruct t as [c|r]; apply proper_described; try reflexivity; apply proper_list.
  - repeat (apply Forall_cons); [apply proper_str|apply proper_opt| |apply proper_fingerprint| |constructor].
    + apply proper_list, proper_strs.
    + apply proper_list. apply Forall_forall. intros x H. apply in_map_iff in H as (f & <- & _). apply proper_field.
  - repeat (apply Forall_cons); [apply proper_str|apply proper_opt| |apply proper_str|apply proper_fingerprint| |constructor].
    + apply proper_list, proper_strs.
    + apply proper_list. apply Forall_forall. intros x H. apply in_map_iff in H as (f & <- & _).
      apply proper_described; [reflexivity|]. apply proper_list. constructor; [apply proper_str|constructor].
Qed.
Lemma proper_payload fp a cs : a = AList \/ a = AMap -> Forall proper cs -> proper (payload_tree fp [Node a cs]).
Proof.
  intros Ha H. apply propers_forall in H. cbn [payload_tree proper in_range leaf fold_right]. repeat split; auto; destruct Ha as [-> | ->]; cbn; auto.
Qed.
Lemma proper_prim v : prim_ok v -> prim_in_range v -> proper (prim_tree v).
Proof.
  destruct v; cbn [prim_tree prim_ok prim_in_range proper in_range leaf str fold_right]; intros H R; auto. split; [|auto]. unfold bits.
  change (2 ^ 32)%Z with 4294967296%Z. destruct (Z.ltb_spec z 0); lia.
Qed.

Lemma proper_wire : forall i, well_formed i -> values_in_range i -> proper (wire i).
Proof.
  intros i. induction i using item_induction; intros W R; cbn [wire].
  - apply proper_prim; assumption.
  - destruct v as [v|]; [|cbn; auto]. destruct W as (_ & W & _). apply proper_prim; assumption.
  - apply proper_payload; [auto|]. apply Forall_forall. intros t Ht. apply in_map_iff in Ht as (p & <- & Hp).
    rewrite Forall_forall in H. cbn [well_formed values_in_range] in W, R. apply H; [exact Hp| |].
    + exact (proj1 (fold_and _ _) W p Hp).
    + exact (proj1 (fold_and _ _) R p Hp).
  - apply proper_payload; [auto|]. apply Forall_forall. intros t Ht. apply in_map_iff in Ht as (p & <- & Hp).
    rewrite Forall_forall in H. cbn [well_formed values_in_range] in W, R. apply H; [exact Hp| |].
    + exact (proj2 (proj1 (fold_and _ _) W p Hp)).
    + exact (proj1 (fold_and _ _) R p Hp).
  - apply proper_payload; [auto|]. apply Forall_forall. intros t Ht. apply in_flat_map in Ht as (p & Hp & Ht).
    rewrite Forall_forall in H. cbn [well_formed values_in_range] in W, R.
    assert (W' : forall q, In q kvs -> well_formed (fst q) /\ well_formed (snd q)).
    { clear -W. induction kvs as [|q kvs IH]; [intros _ []|]. cbn [fold_right] in W. intros x [<-|Hx]; [tauto|]. apply IH; [tauto|exact Hx]. }
    destruct (W' p Hp) as [Wa Wb], (proj1 (fold_and _ _) R p Hp) as [Ra Rb], (H p Hp) as [Ha Hb]. destruct Ht as [<-|[<-|[]]]; auto.
  - cbn; auto.
  - apply IHi; [exact (proj2 W)|exact R].
Qed.

Lemma proper_envelope payload ts : proper payload -> proper (envelope_tree payload [ts] [leaf ANull]).
Proof.
  intros H. apply proper_described; [reflexivity|]. apply proper_list. repeat (apply Forall_cons); [exact H| |cbn; auto|constructor].
  apply proper_described; [reflexivity|]. apply proper_list. constructor; [|constructor]. apply proper_list.
  apply Forall_forall. intros x Hx. apply in_map_iff in Hx as (t & <- & _). apply proper_type.
Qed.

Lemma blob_proper : forall root blob w, well_formed root -> is_pointer root = false -> no_clash root -> values_in_range root ->
  serialise_blob root new_writer = Ok blob w -> exists t, forest blob = [t] /\ proper t.
Proof.
  intros root blob w W P N R E. destruct (serialise_correct root W P N) as (w' & ts & E' & _). rewrite E in E'. injection E' as -> _.
  eexists. split; [reflexivity|]. apply proper_envelope, proper_wire; assumption.
Qed.

Lemma encode_one t : amqp_encode [t] = encode_tree t.
Proof. apply app_nil_s. Qed.

Lemma blob_follows : forall root blob w, well_formed root -> is_pointer root = false -> no_clash root -> values_in_range root ->
  serialise_blob root new_writer = Ok blob w -> (N.of_nat (String.length (amqp_encode (forest blob))) < 2 ^ 32)%N ->
  follows_amqp amqp_encode blob /\ exists t, forest blob = [t].
Proof.
  intros root blob w W P N R E L. destruct (blob_proper root blob w W P N R E) as (t & F & H). split; [|exists t; exact F].
  intros t' F'. rewrite F in F', L. injection F' as <-. rewrite encode_one in *. apply encode_encodes; assumption.
Qed.

Lemma follows_decodes encode blob : follows_amqp encode blob -> (exists t, forest blob = [t]) -> decodes amqp_decode encode blob.
Proof. intros H (t & F). exists t. split; [exact F|]. apply decode_encoded, H, F. Qed.

Lemma follows_delimiting encode blob : follows_amqp encode blob -> (exists t, forest blob = [t]) -> self_delimiting amqp_decode encode blob.
Proof. intros H (t & F) p r Hr E. specialize (H t F). rewrite F in E. rewrite E in H. exact (decode_prefix t p r H Hr). Qed.

Lemma one_tree root blob w : serialise_blob root new_writer = Ok blob w -> well_formed root -> is_pointer root = false -> no_clash root ->
  exists t, forest blob = [t].
Proof.
  intros E W P N. destruct (serialise_correct root W P N) as (w' & ts & E' & _). rewrite E in E'. injection E' as -> _. eexists. reflexivity.
Qed.
