(** Proofs about the command-line tools. *)
From Coq Require Import Lia Permutation.
From Verif Require Import Base TypeNames Proton ProtonProofs CordaFile SpecFile CordaFileProofs Schema SpecSchema SpecDescriptors DescriptorsProofs
  Descriptors Factory SpecFactory FactoryProofs Readers SpecReaders Blob ReadersProofs RawProofs Writer SpecWriter WriterProofs SpecWriteRead WriteReadProofs ManyProofs
  SchemaDump SchemaDumpProofs SpecSchemaDump RawSchemaProofs Deserialise SpecHistory HistoryProofs Tools SpecTools.
Import List ListNotations.
Open Scope string_scope.

Definition lenient : AMQPConfig := {| ignoreHeader := true; header := AMQP_DEFAULT |}.
Lemma lenient_good : good_config lenient.
Proof. unfold good_config. cbn. auto. Qed.
Lemma default_good : good_config default_config.
Proof. unfold good_config. cbn. auto. Qed.

(** ** A file that is fine *)
Lemma open_marked c e body : good_config c -> fits (magic ++ String (marker e) body) ->
  exists cb, open_ (File (magic ++ String (marker e) body)) c = Ret cb /\ loaded cb e body.
Proof.
  intros Hc Hf. destruct (ignoreHeader c) eqn:E.
  - destruct (open_unchecked c _ Hc E Hf) as [(e' & body' & cb & (h & Hl & Hb) & H1 & H2)|[H _]]; [cbn; lia| |].
    + apply app_len_inj in Hb as [<- Hb]; [|rewrite Hl; reflexivity]. injection Hb as Hm <-.
      assert (e' = e) by (destruct e, e'; try discriminate; reflexivity). subst. eauto.
    + exfalso. apply (H e body). exists magic. split; reflexivity.
  - destruct (open_checked c _ Hc E Hf) as [(e' & body' & cb & Hb & H1 & H2)|[H _]]; [cbn; lia| |].
    + apply app_len_inj in Hb as [_ Hb]; [|reflexivity]. injection Hb as Hm <-.
      assert (e' = e) by (destruct e, e'; try discriminate; reflexivity). subst. eauto.
    + exfalso. now apply (H e body).
Qed.

Lemma with_blob_fine decode thrown c body t dump : good_config c -> fits (magic ++ String nul body) -> decode body = Some t ->
  with_blob decode thrown (File (magic ++ String nul body)) c dump = dump (decoded t).
Proof.
  intros Hc Hf Hd. destruct (open_marked c DATA_AND_STOP body Hc Hf) as (cb & E & H1 & H2 & _).
  unfold with_blob. change nul with (marker DATA_AND_STOP). rewrite E. unfold decodable. rewrite H1. unfold AMQPBlob_. rewrite H2, Hd. reflexivity.
Qed.
Lemma with_blob_bad decode thrown c body dump : good_config c -> fits (magic ++ String nul body) -> decode body = None ->
  with_blob decode thrown (File (magic ++ String nul body)) c dump = Aborted.
Proof.
  intros Hc Hf Hd. destruct (open_marked c DATA_AND_STOP body Hc Hf) as (cb & E & H1 & H2 & _).
  unfold with_blob. change nul with (marker DATA_AND_STOP). rewrite E. unfold decodable. rewrite H1. unfold AMQPBlob_. rewrite H2, Hd. reflexivity.
Qed.

Section Tools.
Context (decode : string -> option tree) (fmt : N -> string) (custom : nat -> option string -> PM ivalue) (mo kf : bool).
Context (double float : N -> string) (tn : pn_type -> string) (fuel : nat) (fs : string -> file).
Let inspector := blob_inspector decode fmt custom mo kf fuel fs.
Let sdumper := schema_dumper decode tn fuel fs.
Let ddumper := data_dumper decode double float fuel fs.

(** ** Usage *)
Lemma usage : forall argv,
  (length argv <> 2 -> fails (inspector argv) /\ complains (ddumper argv)) /\
  (length argv <> 3 -> complains (sdumper argv)).
Proof.
  intros argv. split; intros H.
  - split; [exists false|]; unfold inspector, ddumper; destruct argv as [|a [|b [|c argv]]]; try reflexivity; cbn in H; lia.
  - unfold sdumper; destruct argv as [|a [|b [|c [|d argv]]]]; try reflexivity; cbn in H; lia.
Qed.
Lemma no_file : forall prog name mode, fs name = NoFile ->
  fails (inspector [prog; name]) /\ fails (ddumper [prog; name]) /\ fails (sdumper [prog; name; mode]).
Proof.
  intros prog name mode H. unfold inspector, ddumper, sdumper, blob_inspector, data_dumper, schema_dumper. rewrite H.
  repeat split; exists false; reflexivity.
Qed.
Lemma bad_mode : forall prog name mode, mode <> "avro" -> mode <> "raw" -> fails (sdumper [prog; name; mode]).
Proof.
  intros prog name mode H1 H2. unfold sdumper, schema_dumper. apply String.eqb_neq in H1, H2. rewrite H1, H2.
  destruct (fs name); eexists; reflexivity.
Qed.

Definition modes : list string := ["avro"; "raw"].
Definition target_of (mode : string) : dump_target := if String.eqb mode "avro" then ToAvro else ToRaw.
Lemma sdumper_spec prog name mode : In mode modes ->
  sdumper [prog; name; mode] = match fs name with
    | NoFile => Exit 1 "" false
    | f => with_blob decode caught f default_config (fun d => finish caught (dumpSchema tn fuel (target_of mode) d))
    end.
Proof. intros [<- |[<- |[]]]; reflexivity. Qed.
Lemma ddumper_spec prog name : ddumper [prog; name] = match fs name with
    | NoFile => Exit 1 "" false
    | f => with_blob decode caught f default_config (fun d => finish caught (dumpData double float fuel d))
    end.
Proof. reflexivity. Qed.
Lemma inspector_spec prog name : inspector [prog; name] = match fs name with
    | NoFile => Exit 1 "" false
    | f => with_blob decode uncaught f lenient (fun d => finish uncaught (inspector_dump fmt custom mo kf fuel d))
    end.
Proof. reflexivity. Qed.

(** ** Files that are not Corda files *)
Lemma foreign : forall prog name mode, In mode modes ->
  (exists size, fs name = Unreadable size) \/
  (exists bytes, fs name = File bytes /\ fits bytes /\ 8 <= String.length bytes /\ forall body, bytes <> magic ++ String nul body) ->
  complains (ddumper [prog; name]) /\ complains (sdumper [prog; name; mode]).
Proof.
  intros prog name mode Hm H. rewrite sdumper_spec, ddumper_spec by assumption.
  assert (K : forall dump, match fs name with NoFile => Exit 1 "" false | f => with_blob decode caught f default_config dump end = Exit 1 "" true).
  { intros dump. destruct H as [(size & ->)|(bytes & -> & Hf & Hl & Hb)].
    - unfold with_blob. rewrite open_unreadable by apply default_good. reflexivity.
    - destruct (open_checked default_config bytes default_good eq_refl Hf Hl) as [(e & body & cb & HS & E & L1 & L2 & _)|[_ E]].
      + unfold with_blob. rewrite E. unfold decodable. rewrite L1. destruct e; try reflexivity. exfalso. now apply (Hb body).
      + unfold with_blob. rewrite E. reflexivity. }
  split; apply K.
Qed.

(** ** Success means something *)
Lemma with_blob_exit0 thrown f c dump out : good_config c -> match f with File b => fits b | _ => True end ->
  (forall e, exists out, thrown e = Exit 1 out true \/ thrown e = Terminated) ->
  with_blob decode thrown f c dump = Exit 0 out false ->
  exists bytes h body t, f = File bytes /\ String.length h = 7 /\ bytes = h ++ String nul body /\
    (ignoreHeader c = false -> h = magic) /\ decode body = Some t /\ dump (decoded t) = Exit 0 out false.
Proof.
  intros Hc Hf Ht H. unfold with_blob in H. destruct (open_ f c) as [cb|e| | |] eqn:E; try discriminate.
  2:{ destruct (Ht e) as (o & [K|K]); rewrite K in H; discriminate. }
  destruct f as [|size|bytes].
  - rewrite open_missing in E by assumption. discriminate.
  - rewrite open_unreadable in E by assumption. destruct (ignoreHeader c); discriminate.
  - assert (8 <= String.length bytes).
    { destruct (le_lt_dec 8 (String.length bytes)); [assumption|]. exfalso. rewrite open_short in E by assumption.
      destruct (ignoreHeader c); [discriminate|]. destruct (_ || _); discriminate. }
    assert (L : exists h e body, String.length h = 7 /\ bytes = h ++ String (marker e) body /\ (ignoreHeader c = false -> h = magic) /\ loaded cb e body).
    { destruct (ignoreHeader c) eqn:Ei.
      - destruct (open_unchecked c bytes Hc Ei Hf H0) as [(e & body & cb' & (h & Hl & Hb) & E' & L)|[_ E']]; [|congruence].
        rewrite E in E'. injection E' as <-. exists h, e, body. repeat split; auto; try discriminate; apply L.
      - destruct (open_checked c bytes Hc Ei Hf H0) as [(e & body & cb' & Hb & E' & L)|[_ E']]; [|congruence].
        rewrite E in E'. injection E' as <-. exists magic, e, body. repeat split; auto; apply L. }
    destruct L as (h & e & body & Hl & Hb & Hm & L1 & L2 & _). unfold decodable in H. rewrite L1 in H. destruct e; try discriminate.
    unfold AMQPBlob_ in H. rewrite L2 in H. destruct (decode body) as [t|] eqn:Ed; [|discriminate]. eauto 10.
Qed.
Lemma finish_exit0 {S} thrown (o : outcome S string) out : (forall e, exists out, thrown e = Exit 1 out true \/ thrown e = Terminated) ->
  finish thrown o = Exit 0 out false -> exists s d, o = Ok s d /\ out = s ++ newline.
Proof.
  intros Ht H. destruct o as [s d|e d| | |]; try discriminate.
  - injection H as <-. eauto.
  - destruct (Ht e) as (q & [K|K]); cbn in H; rewrite K in H; discriminate.
Qed.
Lemma caught_thrown e : exists out, caught e = Exit 1 out true \/ caught e = Terminated.
Proof. exists "". destruct e; auto. Qed.
Lemma uncaught_thrown e : exists out, uncaught e = Exit 1 out true \/ uncaught e = Terminated.
Proof. exists "". auto. Qed.

Definition file_fits : Prop := forall name, match fs name with File b => fits b | _ => True end.


Lemma finish_silent {S} thrown (o : outcome S string) out : (forall e, thrown e <> Exit 0 out true) -> finish thrown o <> Exit 0 out true.
Proof. intros Ht. destruct o; try discriminate. apply Ht. Qed.
Lemma with_blob_silent thrown f c dump out : (forall d, dump d <> Exit 0 out true) -> (forall e, thrown e <> Exit 0 out true) ->
  with_blob decode thrown f c dump <> Exit 0 out true.
Proof.
  intros H1 H2. unfold with_blob. destruct (open_ f c) as [cb|e| | |]; try discriminate; auto.
  destruct (decodable cb); try discriminate. unfold AMQPBlob_. destruct (decode _); try discriminate; auto.
Qed.
Lemma caught_silent e out : caught e <> Exit 0 out true.
Proof. destruct e; discriminate. Qed.
Lemma uncaught_silent e out : uncaught e <> Exit 0 out true.
Proof. discriminate. Qed.

Lemma success {S} thrown name c (o : data -> outcome S string) out said : good_config c -> file_fits ->
  (forall e, exists out, thrown e = Exit 1 out true \/ thrown e = Terminated) ->
  match fs name with NoFile => Exit 1 "" false | f => with_blob decode thrown f c (fun d => finish thrown (o d)) end = Exit 0 out said ->
  said = false /\ exists h body t text d, fs name = File (h ++ String nul body) /\ String.length h = 7 /\
    (ignoreHeader c = false -> h = magic) /\ decode body = Some t /\ o (decoded t) = Ok text d /\ out = text ++ newline.
Proof.
  intros Hc HF Ht H.
  assert (Hs : forall e out, thrown e <> Exit 0 out true).
  { intros e o' K. destruct (Ht e) as (q & [E|E]); rewrite E in K; discriminate. }
  assert (said = false) as ->.
  { destruct said; [exfalso|reflexivity]. destruct (fs name); [discriminate| |]; revert H; apply with_blob_silent; auto; intros d; apply finish_silent; auto. }
  split; [reflexivity|]. pose proof (HF name) as Hf. destruct (fs name) as [|size|bytes] eqn:E; [discriminate| |];
    (apply with_blob_exit0 in H; [|assumption..]; destruct H as (b & h & body & t & Eb & Hl & Hb & Hm & Hd & H)); [discriminate|].
  injection Eb as <-. subst bytes.
  apply finish_exit0 in H as (s & d & Ho & ->); [|assumption]. exists h, body, t, s, d. repeat split; auto.
Qed.

Lemma success_ddumper : file_fits -> forall argv out said, ddumper argv = Exit 0 out said ->
  exists prog name body t text d, argv = [prog; name] /\ fs name = File (magic ++ String nul body) /\ decode body = Some t /\
    dumpData double float fuel (decoded t) = Ok text d /\ out = text ++ newline.
Proof.
  intros HF argv out said H. destruct argv as [|prog [|name [|c argv]]]; try discriminate.
  rewrite ddumper_spec in H. apply success in H; auto using default_good, caught_thrown.
  destruct H as (_ & h & body & t & text & d & E & _ & Hm & Hd & Ho & ->). rewrite (Hm eq_refl) in E. exists prog, name, body, t, text, d. repeat split; auto.
Qed.
Lemma success_sdumper : file_fits -> forall argv out said, sdumper argv = Exit 0 out said ->
  exists prog name mode body t text d, argv = [prog; name; mode] /\ In mode modes /\ fs name = File (magic ++ String nul body) /\ decode body = Some t /\
    dumpSchema tn fuel (target_of mode) (decoded t) = Ok text d /\ out = text ++ newline.
Proof.
  intros HF argv out said H. destruct argv as [|prog [|name [|mode [|c argv]]]]; try discriminate.
  assert (Hm' : In mode modes).
  { destruct (String.eqb_spec mode "avro") as [->|N1]; [now left|]. destruct (String.eqb_spec mode "raw") as [->|N2]; [right; now left|].
    destruct (bad_mode prog name mode N1 N2) as (said' & E). rewrite E in H. discriminate. }
  rewrite sdumper_spec in H by assumption. apply success in H; auto using default_good, caught_thrown.
  destruct H as (_ & h & body & t & text & d & E & _ & Hm & Hd & Ho & ->). rewrite (Hm eq_refl) in E. exists prog, name, mode, body, t, text, d.
  repeat split; auto.
Qed.
Lemma success_inspector : file_fits -> forall argv out said, inspector argv = Exit 0 out said ->
  exists prog name h body t text d, argv = [prog; name] /\ fs name = File (h ++ String nul body) /\ String.length h = 7 /\ decode body = Some t /\
    inspector_dump fmt custom mo kf fuel (decoded t) = Ok text d /\ out = text ++ newline.
Proof.
  intros HF argv out said H. destruct argv as [|prog [|name [|c argv]]]; try discriminate.
  rewrite inspector_spec in H. apply success in H; auto using lenient_good, uncaught_thrown.
  destruct H as (_ & h & body & t & text & d & E & Hl & Hm & Hd & Ho & ->). exists prog, name, h, body, t, text, d. repeat split; auto.
Qed.

(** ** Undecodable bodies *)
Lemma bad_body : forall prog name mode body, In mode modes -> fs name = File (magic ++ String nul body) -> fits (magic ++ String nul body) ->
  decode body = None ->
  inspector [prog; name] = Aborted /\ ddumper [prog; name] = Aborted /\ sdumper [prog; name; mode] = Aborted.
Proof.
  intros prog name mode body Hm E Hf Hd. rewrite inspector_spec, ddumper_spec, sdumper_spec, E by assumption.
  repeat split; apply with_blob_bad; auto using lenient_good, default_good.
Qed.

(** ** Files that are fine *)
Lemma good_file : forall prog name mode body t, In mode modes -> fs name = File (magic ++ String nul body) -> fits (magic ++ String nul body) ->
  decode body = Some t ->
  inspector [prog; name] = finish uncaught (inspector_dump fmt custom mo kf fuel (decoded t)) /\
  ddumper [prog; name] = finish caught (dumpData double float fuel (decoded t)) /\
  sdumper [prog; name; mode] = finish caught (dumpSchema tn fuel (target_of mode) (decoded t)).
Proof.
  intros prog name mode body t Hm E Hf Hd. rewrite inspector_spec, ddumper_spec, sdumper_spec, E by assumption.
  repeat split; (rewrite (with_blob_fine decode _ _ body t) by (auto using lenient_good, default_good); reflexivity).
Qed.

(** ** The blob inspector *)
Lemma inspector_bad : forall prog name,
  ((exists size, fs name = Unreadable size) \/ (exists bytes, fs name = File bytes /\ String.length bytes < 8) -> inspector [prog; name] = Undefined) /\
  (forall h x body, fs name = File (h ++ String x body) -> fits (h ++ String x body) -> String.length h = 7 ->
     (x = "001"%char \/ x = "002"%char -> complains (inspector [prog; name])) /\
     (x <> "000"%char -> x <> "001"%char -> x <> "002"%char -> inspector [prog; name] = Terminated)).
Proof.
  intros prog name. rewrite inspector_spec. split.
  - intros [(size & ->)|(bytes & -> & Hl)].
    + unfold with_blob. rewrite open_unreadable by apply lenient_good. reflexivity.
    + unfold with_blob. rewrite open_short by (auto using lenient_good). reflexivity.
  - intros h x body -> Hf Hl. unfold with_blob. rewrite open_long by (auto using lenient_good).
    rewrite orb_true_r. split.
    + intros [-> | ->]; cbn [section_of]; reflexivity.
    + intros H0 H1 H2. destruct (section_of x) as [e|] eqn:E; [|reflexivity]. apply section_marker in E. destruct e; cbn in E; congruence.
Qed.

(** ** Exceptions *)
End Tools.

Definition plain_throws {S A} (m : S -> outcome S A) : Prop := forall d e d', m d = Throw e d' -> e = RuntimeError.
Lemma pt_ret {S A} (a : A) : plain_throws (S := S) (ret a).
Proof. intros d e d' H. discriminate. Qed.
Lemma pt_bind {S A B} (m : S -> outcome S A) (k : A -> S -> outcome S B) : plain_throws m -> (forall a, plain_throws (k a)) -> plain_throws (bind m k).
Proof. intros Hm Hk d e d' H. unfold bind in H. destruct (m d) eqn:E; try discriminate; [eapply Hk; eassumption|]. injection H as <- <-. eapply Hm; eassumption. Qed.
Lemma pt_finally {S A} (m : S -> outcome S A) f : plain_throws m -> plain_throws (finally m f).
Proof. intros Hm d e d' H. unfold finally in H. destruct (m d) eqn:E; try discriminate. injection H as <- _. eapply Hm; eassumption. Qed.
Lemma pt_enter {A} b (m : PM A) : plain_throws m -> plain_throws (auto_enter b m).
Proof. intros Hm d e d' H. unfold auto_enter in H. eapply pt_finally; eassumption. Qed.
Lemma pt_list_enter {A} b (m : nat -> PM A) : (forall n, plain_throws (m n)) -> plain_throws (auto_list_enter b m).
Proof. intros Hm d e d' H. unfold auto_list_enter in H. eapply pt_finally; [|eassumption]. apply Hm. Qed.
Lemma pt_map_enter {A} b (m : nat -> PM A) : (forall n, plain_throws (m n)) -> plain_throws (auto_map_enter b m).
Proof. intros Hm d e d' H. unfold auto_map_enter in H. eapply pt_finally; [|eassumption]. apply Hm. Qed.
Lemma pt_next {A} (m : PM A) : plain_throws m -> plain_throws (auto_next m).
Proof. apply pt_finally. Qed.
Lemma pt_require ty : plain_throws (require ty).
Proof. intros d e d' H. unfold require in H. destruct (is_type ty d); [discriminate|]. now injection H. Qed.
Lemma pt_get_string b : plain_throws (get_string b).
Proof. intros d e d' H. unfold get_string in H. destruct (cur_atom d) as [[]|]; try (injection H; congruence); try discriminate. destruct b; [discriminate|]. now injection H. Qed.
Lemma pt_get_symbol : plain_throws get_symbol.
Proof. intros d e d' H. unfold get_symbol in H. destruct (cur_atom d) as [[]|]; try (injection H; congruence); discriminate. Qed.
Lemma pt_get_boolean : plain_throws get_boolean.
Proof. intros d e d' H. unfold get_boolean in H. destruct (cur_atom d) as [[]|]; try (injection H; congruence); discriminate. Qed.
Lemma pt_attest_string b : plain_throws (attest_is_string b).
Proof. intros d e d' H. unfold attest_is_string in H. destruct (negb _); [|discriminate]. destruct (_ && _); [|discriminate]. now injection H. Qed.
Lemma pt_read_string b : plain_throws (readAndNext_string b).
Proof.
  apply pt_next. intros d e d' H. destruct (cur_atom d) as [[]|]; try (injection H; congruence); try discriminate. destruct b; [discriminate|]. now injection H.
Qed.
Lemma pt_read_raw {A} (g : data -> A) : plain_throws (read_raw g).
Proof. intros d e d' H. discriminate. Qed.
Lemma pt_while {A} (body : A -> PM A) acc : (forall a, plain_throws (body a)) -> plain_throws (while_next body acc).
Proof.
  intros Hb d e d'. unfold while_next. generalize (List.length (siblings (here d))) as n. intros n. revert acc d.
  induction n as [|n IH]; intros acc d H; cbn in H; destruct (pn_next_ok d); try discriminate.
  unfold bind in H. destruct (body acc (pn_next d)) eqn:E; try discriminate; [eapply IH; eassumption|]. injection H as <- <-. eapply Hb; eassumption.
Qed.
Lemma pt_by_type rec ai : (forall ai, plain_throws (rec ai)) -> plain_throws (by_type rec ai).
Proof. intros Hr d e d' H. unfold by_type in H. destruct (pn_dtype d); try discriminate. eapply Hr; eassumption. Qed.
Lemma pt_out {S A} (f : S -> outcome S A) : (forall d, match f d with Throw e _ => e = RuntimeError | _ => True end) -> plain_throws f.
Proof. intros Hf d e d' H. specialize (Hf d). rewrite H in Hf. exact Hf. Qed.
Ltac pt := repeat first
  [ assumption | apply pt_ret | apply pt_require | apply pt_get_string | apply pt_get_symbol | apply pt_get_boolean | apply pt_attest_string
  | apply pt_read_string | apply pt_read_raw
  | apply pt_bind; [|intros ?] | apply pt_enter | apply pt_list_enter; intros ? | apply pt_map_enter; intros ? | apply pt_next
  | apply pt_while; intros ? | apply pt_by_type; intros ? | match goal with |- plain_throws (let '(_, _) := ?x in _) => destruct x end
  | match goal with H : forall ai, plain_throws _ |- _ => apply H end | apply pt_out; intros ?; exact I ].

Lemma pt_raw_of tn rec k ai : (forall ai, plain_throws (rec ai)) -> plain_throws (raw_of tn rec k ai).
Proof.
  intros Hr. destruct k; cbn [raw_of]; try apply Hr.
  all: unfold raw_envelope, raw_schema, raw_composite, raw_field, raw_object, raw_restricted, next_, attest_is_list, attest_is_described.
  all: pt.
Qed.
Lemma pt_readRaw tn fuel : forall ai, plain_throws (readRaw tn fuel ai).
Proof.
  induction fuel as [|fuel IH]; intros ai; cbn [readRaw]; [apply pt_out; intros; exact I|].
  unfold raw_described. apply pt_bind; [|intros; apply pt_ret]. apply pt_enter. intros d e d' H.
  destruct (pn_dtype d); try (injection H; congruence); try discriminate.
  revert H. unfold readAndNext_ulong. eapply pt_bind; [pt|]. intros key. eapply pt_bind; [apply pt_require|]. intros _ d1 e1 d1' H.
  destruct (registered key) as [desc|]; [|discriminate]. revert H. apply pt_bind; [apply pt_raw_of; assumption|intros; apply pt_ret].
Qed.
Lemma pt_dumpSchema_raw tn fuel : plain_throws (dumpSchema tn fuel ToRaw).
Proof.
  intros d e d' H. unfold dumpSchema in H. destruct (is_described d); [|now injection H]. eapply pt_readRaw; eassumption.
Qed.

Section Data.
Context (double float : N -> string).
Lemma pt_primitive : plain_throws (dumpPrimitive double float).
Proof. intros d e d' H. unfold dumpPrimitive in H. destruct (pn_dtype d); try discriminate. revert H. apply pt_bind; [pt|intros; apply pt_ret]. Qed.
Lemma pt_by_type_data rl rm rd t : plain_throws rl -> plain_throws rm -> plain_throws rd -> plain_throws (dump_by_type double float rl rm rd t).
Proof. intros. destruct t; cbn [dump_by_type]; try apply pt_primitive; pt. Qed.
Lemma pt_list_loop rl rm rd n : plain_throws rl -> plain_throws rm -> plain_throws rd -> plain_throws (list_loop double float rl rm rd n).
Proof.
  intros H1 H2 H3. induction n as [|n IH]; intros d e d' H; cbn [list_loop] in H; [discriminate|]. revert H.
  eapply pt_bind; [apply pt_by_type_data; assumption|]. intros v d1 e1 d1' H. destruct (pn_next_ok d1); [|discriminate].
  revert H. apply pt_bind; [assumption|]. intros; apply pt_ret.
Qed.
Lemma pt_entry rl rm rd : plain_throws rl -> plain_throws rm -> plain_throws rd -> plain_throws (dump_raw_entry double float rl rm rd).
Proof.
  intros. unfold dump_raw_entry, type_and_next, next_.
  apply pt_bind; [pt|intros]. apply pt_bind; [now apply pt_by_type_data|intros]. apply pt_bind; [pt|intros]. apply pt_bind; [now apply pt_by_type_data|intros]. pt.
Qed.
Lemma pt_map_loop rl rm rd : plain_throws rl -> plain_throws rm -> plain_throws rd -> forall m n, n <= m -> plain_throws (map_loop double float rl rm rd n).
Proof.
  intros H1 H2 H3. 
  assert (K : forall n, plain_throws (map_loop double float rl rm rd n) /\ plain_throws (map_loop double float rl rm rd (pred n))).
  { induction n as [|n [IH1 IH2]]; cbn [map_loop pred]; [split; apply pt_ret|]. split; [|assumption].
    apply pt_bind; [now apply pt_entry|intros]. apply pt_bind; [|intros; apply pt_ret]. assumption. }
  intros _ n _. apply K.
Qed.
Lemma pt_all fuel : plain_throws (dumpList double float fuel) /\ plain_throws (dumpMap double float fuel) /\ plain_throws (dumpDescribed double float fuel).
Proof.
  induction fuel as [|fuel (H1 & H2 & H3)]; [repeat split; apply pt_out; intros; exact I|].
  change (dumpList double float (S fuel)) with (dumpList_ double float (dumpList double float fuel) (dumpMap double float fuel) (dumpDescribed double float fuel)).
  change (dumpMap double float (S fuel)) with (dumpMap_ double float (dumpList double float fuel) (dumpMap double float fuel) (dumpDescribed double float fuel)).
  change (dumpDescribed double float (S fuel)) with (dumpDescribed_ (dumpList double float fuel) (dumpMap double float fuel)).
  repeat split.
  - unfold dumpList_. apply pt_bind; [apply pt_require|intros _]. apply pt_list_enter. intros _ d e d' H. destruct (is_type TInvalid d); [discriminate|].
    eapply pt_list_loop; [..|eassumption]; assumption.
  - unfold dumpMap_. apply pt_bind; [apply pt_require|intros _]. apply pt_map_enter. intros n d e d' H. destruct (is_type TInvalid d); [discriminate|].
    eapply pt_map_loop; [..|eassumption]; eauto.
  - unfold dumpDescribed_. apply pt_enter, pt_bind; [apply pt_read_string|]. intros fp d e d' H.
    destruct (pn_dtype d); try (injection H; congruence); revert H; apply pt_bind; auto; intros; apply pt_ret.
Qed.
Lemma pt_dumpData fuel : plain_throws (dumpData double float fuel).
Proof.
  intros d e d' H. unfold dumpData in H. destruct (is_described d); [|discriminate]. revert H. unfold attest_is_described, attest_is_list, readAndNext_ulong.
  apply pt_bind; [pt|]. intros _. apply pt_bind; [pt|]. intros key. apply pt_bind; [apply pt_out; intros q; destruct (N.eqb _ _); exact I|]. intros _.
  apply pt_enter. apply pt_bind; [pt|]. intros _. apply pt_list_enter. intros _. apply pt_bind; [pt|]. intros _. apply pt_bind; [apply pt_all|]. intros; apply pt_ret.
Qed.
End Data.

Lemma finish_caught {S} (m : S -> outcome S string) d : plain_throws m -> finish caught (m d) <> Terminated.
Proof. intros Hm. destruct (m d) eqn:E; try discriminate. apply Hm in E as ->. discriminate. Qed.
Lemma with_blob_caught decode f c dump : good_config c -> ignoreHeader c = false -> match f with File b => fits b | _ => True end ->
  (forall d, dump d <> Terminated) -> with_blob decode caught f c dump <> Terminated.
Proof.
  intros Hc Hi Hf Hd. unfold with_blob.
  assert (K : forall e, open_ f c = Exc e -> e = RuntimeError).
  { intros e E. destruct f as [|size|bytes].
    - rewrite open_missing in E by assumption. now injection E.
    - rewrite open_unreadable in E by assumption. rewrite Hi in E. now injection E.
    - destruct (le_lt_dec 8 (String.length bytes)) as [H|H].
      + destruct (open_checked c bytes Hc Hi Hf H) as [(e' & body & cb & _ & E' & _)|[_ E']]; rewrite E' in E; [discriminate|]. now injection E.
      + rewrite open_short in E by assumption. rewrite Hi in E. destruct (_ || _); [discriminate|]. now injection E. }
  destruct (open_ f c) as [cb|e| | |]; try discriminate.
  - destruct (decodable cb); [|discriminate]. unfold AMQPBlob_. destruct (decode _); [apply Hd|discriminate].
  - rewrite (K e eq_refl). discriminate.
Qed.
Lemma never_terminated decode double float tn fuel fs : file_fits fs -> forall argv,
  data_dumper decode double float fuel fs argv <> Terminated /\
  (forall mode, nth_error argv 2 = Some mode -> mode <> "avro" -> schema_dumper decode tn fuel fs argv <> Terminated).
Proof.
  intros HF argv. split.
  - destruct argv as [|prog [|name [|c argv]]]; try discriminate. rewrite ddumper_spec. pose proof (HF name). destruct (fs name); [discriminate| |];
      (apply with_blob_caught; [apply default_good|reflexivity|assumption|]; intros d; apply finish_caught, pt_dumpData).
  - intros mode E N. destruct argv as [|prog [|name [|mode' [|c argv]]]]; try discriminate. cbn in E. injection E as ->.
    unfold schema_dumper. apply String.eqb_neq in N. rewrite N. pose proof (HF name). destruct (String.eqb mode "raw"); destruct (fs name); try discriminate;
      (apply with_blob_caught; [apply default_good|reflexivity|assumption|]; intros d; apply finish_caught, pt_dumpSchema_raw).
Qed.

(** ** From an object to the screen *)
Section EndToEnd.
Context (decode : string -> option tree) (encode : list tree -> string) (fs : string -> file).

Lemma forest_decoded t : forest (decoded t) = [t].
Proof. reflexivity. Qed.
Lemma saved_file blob t name : forest blob = [t] -> fs name = saved encode blob -> fs name = File (magic ++ String nul (encode [t])).
Proof. intros E ->. unfold saved. rewrite E. reflexivity. Qed.

Lemma as_raw_wire root : without_maps root -> wire root = raw_tree (as_raw root) /\ all_simple (as_raw root).
Proof.
  assert (P : forall v, prim_tree v = leaf (value_atom v) /\ simple (value_atom v)) by (intros []; cbn; auto).
  induction root using item_induction; cbn [without_maps wire as_raw raw_tree all_simple].
  - intros _. apply P.
  - intros _. destruct v; [apply P|split; [reflexivity|exact I]].
  - intros Hm. assert (K : map (fun p => wire (snd (snd p))) ps = map raw_tree (map (fun p => as_raw (snd (snd p))) ps) /\
      fold_right (fun e Q => all_simple e /\ Q) True (map (fun p => as_raw (snd (snd p))) ps)).
    { induction ps as [|p ps IH]; [split; [reflexivity|exact I]|]. inversion_clear H. destruct Hm as [Hm1 Hm2]. destruct (H0 Hm1) as [E1 E2]. destruct (IH H1 Hm2) as [E3 E4].
      cbn. rewrite E1, E3. auto. }
    destruct K as [K1 K2]. now rewrite K1.
  - intros Hm. assert (K : map wire es = map raw_tree (map as_raw es) /\ fold_right (fun e Q => all_simple e /\ Q) True (map as_raw es)).
    { induction es as [|p es IH]; [split; [reflexivity|exact I]|]. inversion_clear H. destruct Hm as [Hm1 Hm2]. destruct (H0 Hm1) as [E1 E2]. destruct (IH H1 Hm2) as [E3 E4].
      cbn. rewrite E1, E3. auto. }
    destruct K as [K1 K2]. now rewrite K1.
  - intros [].
  - intros _. split; [reflexivity|exact I].
  - exact IHroot.
Qed.

Lemma written root blob w : well_formed root -> is_target root = true -> no_clash root -> serialise_blob root new_writer = Ok blob w ->
  exists ws, schema_for root ws /\ blob = decoded (envelope_tree (wire root) [ws] [leaf ANull]).
Proof.
  intros HW HT HN E. destruct (serialise_correct root HW) as (w' & ws & E' & HS); [destruct root; try discriminate; reflexivity|assumption|].
  rewrite E in E'. injection E' as -> _. eauto.
Qed.
Lemma target_wire root : is_target root = true -> exists body, wire root = payload_tree (fingerprint root) body.
Proof. destruct root; try discriminate; intros _; cbn; eauto. Qed.

Lemma data_dumped root blob w double float fuel prog name :
  well_formed root -> is_target root = true -> no_clash root -> without_maps root ->
  serialise_blob root new_writer = Ok blob w -> decodes decode encode blob ->
  fs name = saved encode blob -> fits (magic ++ String nul (encode (forest blob))) -> height (wire root) <= fuel ->
  shows (data_dumper decode double float fuel fs [prog; name]) (raw_text double float dec (as_raw root)).
Proof.
  intros HW HT HN HM E (t & Ef & Hd) Hs Hf Hfuel. destruct (written root blob w HW HT HN E) as (ws & HS & ->).
  rewrite Ef in Hf. pose proof (saved_file _ _ _ Ef Hs) as Hn. rewrite forest_decoded in Ef. injection Ef as <-.
  destruct (good_file decode (fun _ => "") (fun _ _ _ => UB) true true double float (fun _ => "") fuel fs prog name "raw" _ _ (or_intror (or_introl eq_refl)) Hn Hf Hd) as (_ & K & _).
  unfold shows. rewrite K.
  destruct (as_raw_wire root HM) as [E1 E2].
  assert (K2 : exists fp es, as_raw root = RawDescribed fp es) by (destruct root; try discriminate; try destruct HM; cbn; eauto).
  destruct K2 as (fp & es & K2). rewrite E1 in *. rewrite K2 in *.
  pose proof (raw_faithful double float fuel fp es [schema_tree [ws]; leaf ANull] E2 Hfuel) as R.
  change (envelope_tree (raw_tree (RawDescribed fp es)) [ws] [leaf ANull]) with (raw_blob (raw_tree (RawDescribed fp es)) [schema_tree [ws]; leaf ANull]).
  cbv zeta in R. rewrite R. reflexivity.
Qed.

Lemma schema_dumped root blob w tn fuel prog name :
  well_formed root -> is_target root = true -> no_clash root ->
  serialise_blob root new_writer = Ok blob w -> decodes decode encode blob ->
  fs name = saved encode blob -> fits (magic ++ String nul (encode (forest blob))) -> 3 <= fuel ->
  exists ws, schema_for root ws /\
    shows (schema_dumper decode tn fuel fs [prog; name; "raw"]) (lay (envelope_lines (tn TNull) (fingerprint root) [ws] 1)).
Proof.
  intros HW HT HN E (t & Ef & Hd) Hs Hf Hfuel. destruct (written root blob w HW HT HN E) as (ws & HS & ->).
  exists ws. split; [exact HS|].
  rewrite Ef in Hf. pose proof (saved_file _ _ _ Ef Hs) as Hn. rewrite forest_decoded in Ef. injection Ef as <-.
  destruct (good_file decode (fun _ => "") (fun _ _ _ => UB) true true (fun _ => "") (fun _ => "") tn fuel fs prog name "raw" _ _ (or_intror (or_introl eq_refl)) Hn Hf Hd) as (_ & _ & K).
  unfold shows. rewrite K. destruct (target_wire root HT) as (body & ->).
  change (target_of "raw") with ToRaw. unfold decoded.
  pose proof (raw_dump_shows tn fuel (fingerprint root) body [ws] [leaf ANull] [] [] [] Hfuel) as R. cbv zeta in R. rewrite R. reflexivity.
Qed.

Lemma install_key mo : exists cf, installCustomSerialiser RPublicKey new_factory = Ok tt cf /\ run_well mo [Install RPublicKey] new_factory cf.
Proof.
  eexists. split; [reflexivity|]. eapply well_cons; [split; [exact I|reflexivity]|reflexivity|apply well_nil].
Qed.

Lemma inspected_right root blob w fmt custom mo kf fuel prog name out said :
  can_inspect root -> kf = true \/ map_free (shown root) -> ~ In (reader_type RPublicKey) (names_in root) ->
  serialise_blob root new_writer = Ok blob w -> decodes decode encode blob ->
  fs name = saved encode blob -> fits (magic ++ String nul (encode (forest blob))) -> heights (forest blob) < fuel ->
  blob_inspector decode fmt custom mo kf fuel fs [prog; name] = Exit 0 out said ->
  out = ("{ Parsed : " ++ printed fmt dec (shown root) ++ " }") ++ newline.
Proof.
  intros HC Hm Hk E (t & Ef & Hd) Hs Hf Hfuel Ho. destruct (install_key mo) as (cf & E1 & E2). destruct (successes_clean _ _ _ E2) as [E3 _].
  assert (HU : unrelated_history [Install RPublicKey] root).
  { split; [intros u []|]. intros r [Er|[]]. injection Er as <-. split; [reflexivity|exact Hk]. }
  destruct (inspect_written fmt custom mo kf root _ cf HC Hm E3 HU) as (w' & ws & E' & HS & K). rewrite E in E'. injection E' as -> _.
  rewrite Ef in Hf. pose proof (saved_file _ _ _ Ef Hs) as Hn. rewrite forest_decoded in Ef. injection Ef as <-.
  destruct (good_file decode fmt custom mo kf (fun _ => "") (fun _ => "") (fun _ => "") fuel fs prog name "raw" _ _ (or_intror (or_introl eq_refl)) Hn Hf Hd) as (K1 & _).
  rewrite K1 in Ho. unfold inspector_dump, bind, on_factory in Ho. rewrite E1 in Ho.
  rewrite forest_decoded in Hfuel. unfold heights in Hfuel. cbn [fold_right] in Hfuel. rewrite Nat.max_0_r in Hfuel.
  destruct (K fuel Hfuel) as (ts & s & _ & _ & K2). rewrite K2 in Ho.
  destruct (process mo s cf); try discriminate. injection Ho as <- _. reflexivity.
Qed.

Lemma inspected root blob w fmt custom mo kf fuel prog name :
  can_inspect root -> elements_known root -> kf = true \/ map_free (shown root) -> ~ In (reader_type RPublicKey) (names_in root) ->
  serialise_blob root new_writer = Ok blob w -> decodes decode encode blob ->
  fs name = saved encode blob -> fits (magic ++ String nul (encode (forest blob))) -> heights (forest blob) < fuel ->
  exists ws ts, schema_for root ws /\ Forall2 type_means ws ts /\
    ((forall t, In t ts -> ~ uses t t) -> listed ts ->
     shows (blob_inspector decode fmt custom mo kf fuel fs [prog; name]) ("{ Parsed : " ++ printed fmt dec (shown root) ++ " }")).
Proof.
  intros HC He Hm Hk E (t & Ef & Hd) Hs Hf Hfuel. destruct (install_key mo) as (cf & E1 & E2).
  assert (HU : unrelated_history [Install RPublicKey] root).
  { split; [intros u []|]. intros r [Er|[]]. injection Er as <-. split; [reflexivity|exact Hk]. }
  destruct (inspect_written_well fmt custom mo kf root _ cf HC He Hm E2 HU) as (w' & ws & E' & HS & K). rewrite E in E'. injection E' as -> _.
  rewrite Ef in Hf. pose proof (saved_file _ _ _ Ef Hs) as Hn. rewrite forest_decoded in Ef. injection Ef as <-.
  destruct (good_file decode fmt custom mo kf (fun _ => "") (fun _ => "") (fun _ => "") fuel fs prog name "raw" _ _ (or_intror (or_introl eq_refl)) Hn Hf Hd) as (K1 & _).
  rewrite forest_decoded in Hfuel. unfold heights in Hfuel. cbn [fold_right] in Hfuel. rewrite Nat.max_0_r in Hfuel.
  destruct (K fuel Hfuel) as (ts & HT & K2). exists ws, ts. split; [exact HS|]. split; [exact HT|]. intros H1 H2.
  unfold shows. rewrite K1. unfold inspector_dump, bind, on_factory. rewrite E1.
  destruct (K2 H1 H2) as (cf' & K3). rewrite K3. reflexivity.
Qed.
End EndToEnd.

(** ** Saving after reading *)
Lemma save_after_reading decode encode fmt custom mo kf double float tn : (forall which name, stays_put (custom which name)) ->
  forall ops fuel t cf d' cf', height t <= fuel -> perform fmt custom mo kf double float tn fuel ops (decoded t, cf) = Ok tt (d', cf') ->
  decode (encode [t]) = Some t -> fits (magic ++ String nul (encode [t])) ->
  forall c, good_config c -> exists cb, open_ (saved encode d') c = Ret cb /\ decodable cb = true /\ AMQPBlob_ decode cb = Ret (decoded t).
Proof.
  intros Hc ops fuel t cf d' cf' Hfuel E Hd Hf c Hcfg.
  pose proof (reads_keep fmt custom mo kf double float tn Hc ops fuel (decoded t) cf) as K. rewrite E in K.
  assert (Ef : forest d' = [t]). { rewrite K; [reflexivity|]. rewrite forest_decoded. unfold heights. cbn. lia. }
  unfold saved. rewrite Ef, blob_round_trip by assumption. eexists. split; [reflexivity|]. split; [reflexivity|].
  unfold AMQPBlob_. cbn [cb_bytes of_blob]. rewrite Hd. reflexivity.
Qed.
