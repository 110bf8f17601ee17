(** C88: the bytes of a saved blob.  Specification: SpecAmqp.v. *)
From Coq Require Import Lia.
From Verif Require Import Base Proton ProtonProofs CordaFile SpecFile Schema SpecDescriptors Factory Readers SpecReaders Blob SchemaDump SpecSchemaDump
  Writer SpecWriter WriterProofs SpecWriteRead Programs SpecPrograms ProgramsProofs WriterTests SpecWriterTests Tools SpecTools ToolsProofs SpecFrame FrameObjects PropFrame
  SpecCrash CrashProofs Amqp SpecAmqp AmqpProofs AmqpFileProofs.
Import List ListNotations.
Open Scope string_scope.

(** Every AMQP 1.0 encoding of a value, whatever forms were chosen, is decoded to
    that value. *)
Theorem C88_decoded : forall t s, encodes t s -> amqp_decode s = Some t.
Proof. exact decode_encoded. Qed.
Print Assumptions C88_decoded.

(** So no bytes stand for two values, nor does the beginning of an encoded value
    stand for another one; *)
Theorem C88_unambiguous : forall t t' s r, encodes t s -> encodes t' (s ++ r) -> r = "" /\ t = t'.
Proof.
  intros t t' s r H H'. assert (E : r = "").
  { destruct r as [|c r]; [reflexivity|]. pose proof (decode_prefix t' s (String c r) H' ltac:(discriminate)) as N.
    rewrite (decode_encoded t s H) in N. discriminate. }
  split; [exact E|]. subst r. rewrite app_nil_s in H'. apply decode_encoded in H, H'. congruence.
Qed.
Print Assumptions C88_unambiguous.
(** ... it is not decoded at all. *)
Theorem C88_prefix : forall t p r, encodes t (p ++ r) -> r <> "" -> amqp_decode p = None.
Proof. exact decode_prefix. Qed.
Print Assumptions C88_prefix.

(** Nor are bytes that go on after the value. *)
Theorem C88_surplus : forall t s r, encodes t s -> r <> "" -> amqp_decode (s ++ r) = None.
Proof. exact decode_surplus. Qed.
Print Assumptions C88_surplus.

(** Values in the range of their types have an encoding if it is shorter than 4
    GiB; *)
Theorem C88_encoded : forall t, proper t -> (N.of_nat (String.length (amqp_encode [t])) < 2 ^ 32)%N -> encodes t (amqp_encode [t]).
Proof. intros t. rewrite encode_one. apply encode_encodes. Qed.
Print Assumptions C88_encoded.

(** so the blob of every object has one. *)
Theorem C88_objects : forall root blob w,
  well_formed root -> is_pointer root = false -> no_clash root -> values_in_range root ->
  serialise_blob root new_writer = Ok blob w -> (N.of_nat (String.length (amqp_encode (forest blob))) < 2 ^ 32)%N ->
  exists t, forest blob = [t] /\ encodes t (amqp_encode (forest blob)) /\ amqp_decode (amqp_encode (forest blob)) = Some t.
Proof.
  intros root blob w W P N R E L. destruct (blob_follows root blob w W P N R E L) as [F (t & Et)].
  exists t. specialize (F t Et). rewrite Et. split; [reflexivity|]. split; [exact F|]. apply decode_encoded, F.
Qed.
Print Assumptions C88_objects.

(** The assumption about proton in C64, C80 and C86 is met by every AMQP 1.0
    encoder and this decoder; *)
Theorem C88_assumptions_met : forall root blob w encode,
  well_formed root -> is_pointer root = false -> no_clash root ->
  serialise_blob root new_writer = Ok blob w -> follows_amqp encode blob ->
  decodes amqp_decode encode blob /\ self_delimiting amqp_decode encode blob.
Proof.
  intros root blob w encode W P N E F. pose proof (one_tree root blob w E W P N) as T.
  split; [apply follows_decodes|apply follows_delimiting]; assumption.
Qed.
Print Assumptions C88_assumptions_met.

(** and so, without assumptions about proton: the file of an object of
    bin/writer-tests is shown with the text that inspection gives, or the
    exception escapes; *)
Theorem C88_writer_tests : forall fmt custom root result encode fs mo kf prog name blob w,
  sample root -> inspection fmt custom root result -> kf = true \/ map_free (shown root) ->
  serialise_blob root new_writer = Ok blob w -> follows_amqp encode blob ->
  fs name = saved encode blob -> fits (magic ++ String "000" (encode (forest blob))) ->
  exists n, forall fuel, n < fuel ->
  let r := blob_inspector amqp_decode fmt custom mo kf fuel fs [prog; name] in
  match result with inl text => SpecTools.shows r text | inr _ => r = Terminated end.
Proof.
  intros fmt custom root result encode fs mo kf prog name blob w HS HI HK E F Hf Hl.
  destruct (sample_typed root HS) as (P & T & H1 & H2 & H3 & H4 & H5).
  apply (C80_writer_tests fmt custom root result HS HI amqp_decode encode fs mo kf prog name blob w HK E); [|exact Hf|exact Hl].
  apply follows_decodes; [exact F|]. apply (one_tree root blob w E H4).
  - pose proof (root_target P H1 T root H2 H3). destruct root; try discriminate; reflexivity.
  - eapply root_no_clash; eauto.
Qed.
Print Assumptions C88_writer_tests.

(** the data-dumper prints an object without maps; *)
Theorem C88_data_dumper : forall encode fs root blob w double float fuel prog name,
  well_formed root -> is_target root = true -> no_clash root -> without_maps root ->
  serialise_blob root new_writer = Ok blob w -> follows_amqp encode blob ->
  fs name = saved encode blob -> fits (magic ++ String "000" (encode (forest blob))) -> height (wire root) <= fuel ->
  SpecTools.shows (data_dumper amqp_decode double float fuel fs [prog; name]) (raw_text double float dec (as_raw root)).
Proof.
  intros encode fs root blob w double float fuel prog name W T N M E F Hf Hl Hh.
  eapply data_dumped; eauto. apply follows_decodes; [exact F|]. apply (one_tree root blob w E W); [|exact N].
  destruct root; try discriminate; reflexivity.
Qed.
Print Assumptions C88_data_dumper.

(** and whatever is cut off, no tool takes the rest of the file for a blob. *)
Theorem C88_interrupted : forall root blob w encode fmt custom mo kf double float tn fuel fs prog name mode p,
  well_formed root -> is_pointer root = false -> no_clash root ->
  serialise_blob root new_writer = Ok blob w -> follows_amqp encode blob ->
  In mode ["avro"; "raw"] -> fits (magic ++ String nul (encode (forest blob))) ->
  interrupted (saved encode blob) (fs name) -> fs name = File p -> 8 <= String.length p ->
  blob_inspector amqp_decode fmt custom mo kf fuel fs [prog; name] = Aborted /\
  data_dumper amqp_decode double float fuel fs [prog; name] = Aborted /\
  schema_dumper amqp_decode tn fuel fs [prog; name; mode] = Aborted.
Proof.
  intros root blob w encode fmt custom mo kf double float tn fuel fs prog name mode p W P N E F Hm Hl HI Hp H8.
  eapply interrupted_late; eauto. apply follows_delimiting; [exact F|]. eapply one_tree; eauto.
Qed.
Print Assumptions C88_interrupted.

(** ** A file, byte by byte *)

(** The object of writer-test-01. *)
Example C88_ex : exists blob w,
  serialise_blob (object1 100) new_writer = Ok blob w /\ sample (object1 100) /\
  well_formed (object1 100) /\ values_in_range (object1 100) /\ no_clash (object1 100) /\
  (N.of_nat (String.length (amqp_encode (forest blob))) < 2 ^ 32)%N /\ follows_amqp amqp_encode blob /\
  fits (magic ++ String "000" (amqp_encode (forest blob))) /\
  forall fmt custom,
  SpecTools.shows (blob_inspector amqp_decode fmt custom true true 40 (fun _ => saved amqp_encode blob) ["bi"; "file"])
    "{ Parsed : { m_val : 100, m_val2 : 150 } }".
Proof.
  destruct (serialise_blob (object1 100) new_writer) as [blob w| | | |] eqn:E; try (vm_compute in E; discriminate).
  assert (W : well_formed (object1 100)) by (cbn; repeat split; discriminate).
  assert (R : values_in_range (object1 100)) by (vm_compute; intuition discriminate).
  assert (N : no_clash (object1 100)) by (intros k s H1 H2; cbn in H1, H2; repeat match goal with H : _ \/ _ |- _ => destruct H end; try contradiction; congruence).
  assert (L : (N.of_nat (String.length (amqp_encode (forest blob))) < 2 ^ 32)%N) by (vm_compute in E; injection E as <- _; vm_compute; reflexivity).
  exists blob, w. split; [reflexivity|]. split; [constructor|]. split; [exact W|]. split; [exact R|]. split; [exact N|]. split; [exact L|].
  split; [exact (proj1 (blob_follows _ _ _ W eq_refl N R E L))|].
  split; [vm_compute in E; injection E as <- _; vm_compute; reflexivity|].
  intros fmt custom. vm_compute in E. injection E as <- _. vm_compute. reflexivity.
Qed.

(** Some values and their bytes. *)
Definition hex (l : list N) : string := fold_right (fun n s => String (ascii_of_N n) s) "" l.
Example C88_ex_bytes :
  amqp_encode [leaf (AInt 5)] = hex [0x54; 0x05]%N /\
  amqp_encode [leaf (AInt (-129))] = hex [0x71; 0xff; 0xff; 0xff; 0x7f]%N /\
  amqp_encode [leaf (ALong 4294967296)] = hex [0x81; 0; 0; 0; 1; 0; 0; 0; 0]%N /\
  amqp_encode [payload_tree "f" [list_of [leaf (AString "ab"); leaf ANull; leaf (ABool true)]]] =
    hex [0x00; 0xa3; 0x01; 0x66; 0xd0; 0; 0; 0; 10; 0; 0; 0; 3; 0xa1; 0x02; 0x61; 0x62; 0x40; 0x41]%N /\
  amqp_decode (hex [0x00; 0xb3; 0; 0; 0; 1; 0x66; 0xc0; 7; 3; 0xa1; 0x02; 0x61; 0x62; 0x40; 0x56; 0x01]%N) =
    Some (payload_tree "f" [list_of [leaf (AString "ab"); leaf ANull; leaf (ABool true)]]) /\
  proper (payload_tree "f" [list_of [leaf (AString "ab"); leaf ANull; leaf (ABool true)]]).
Proof. repeat split. Qed.
