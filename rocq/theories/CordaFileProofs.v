From Coq Require Import Lia.
From Verif Require Import Base CordaFile SpecFile TypeNamesProofs.
Open Scope string_scope.

Lemma read_exact a b : read (String.length a) (a ++ b) = (a, b, true).
Proof.
  unfold read. rewrite length_app_s.
  destruct (Nat.leb_spec (String.length a) (String.length a + String.length b)); [|lia].
  rewrite substring_0_app. replace (String.length a + String.length b - String.length a) with (String.length b) by lia.
  rewrite substring_skip. now rewrite (substring_0_le b) by lia.
Qed.

Lemma read7 s : 7 <= String.length s -> exists h r, String.length h = 7 /\ s = h ++ r /\ read 7 s = (h, r, true).
Proof.
  intros H.
  do 7 (destruct s as [|? s]; [simpl in H; lia|]; cbn [String.length] in H).
  eexists (String _ (String _ (String _ (String _ (String _ (String _ (String _ ""))))))), s.
  split; [reflexivity|]. split; [reflexivity|].
  match goal with |- read 7 ?x = _ => match x with
    String ?a (String ?b (String ?c (String ?d (String ?e (String ?f (String ?g ?t)))))) =>
    exact (read_exact (String a (String b (String c (String d (String e (String f (String g ""))))))) t) end end.
Qed.

Lemma app_len_inj (a b c d : string) : String.length a = String.length c -> a ++ b = c ++ d -> a = c /\ b = d.
Proof.
  revert c; induction a as [|x a IH]; intros [|y c]; simpl; intros Hl E; try discriminate; auto.
  injection E as -> E. destruct (IH c) as [-> ->]; auto.
Qed.

Lemma section_marker c e : section_of c = Some e <-> c = marker e.
Proof.
  unfold section_of. split.
  - intros H. rewrite <- (ascii_nat_embedding c).
    destruct (nat_of_ascii c) as [|[|[|n]]]; try discriminate; injection H as <-; reflexivity.
  - intros ->. destruct e; reflexivity.
Qed.

Lemma headers_spec h : existsb (String.eqb h) AMQP_HEADERS = true <-> h = magic.
Proof.
  simpl. change (AMQP_HEADER_V1) with magic. change AMQP_HEADER_DP with magic.
  rewrite orb_false_r, orb_diag. apply String.eqb_eq.
Qed.

Lemma header_len c : good_config c ->
  exists h, nth_error AMQP_HEADERS (header c) = Some h /\ String.length h = 7.
Proof.
  unfold good_config, AMQP_DEFAULT. intros H. destruct (header c) as [|[|n]]; [| |lia]; eexists; split; reflexivity.
Qed.

Lemma size_exact n : (N.of_nat (7 + S n) + 2 ^ 64 - (N.of_nat 7 + 1) < 2 * 2 ^ 64)%N ->
  ((N.of_nat (7 + S n) + 2 ^ 64 - (N.of_nat 7 + 1)) mod 2 ^ 64)%N = N.of_nat n.
Proof.
  intros H. replace (N.of_nat (7 + S n) + 2 ^ 64 - (N.of_nat 7 + 1))%N with (N.of_nat n + 1 * 2 ^ 64)%N in * by lia.
  rewrite N.mod_add by discriminate. apply N.mod_small. lia.
Qed.

(** The body of the constructor for a file that holds a header and an encoding
    byte. *)
Lemma open_long c h x body : good_config c -> String.length h = 7 -> fits (h ++ String x body) ->
  open_ (File (h ++ String x body)) c
  = if existsb (String.eqb h) AMQP_HEADERS || ignoreHeader c
    then match section_of x with
         | Some e => Ret {| cb_encoding := e; cb_size := N.of_nat (String.length body); cb_bytes := body |}
         | None => Exc RuntimeError
         end
    else Exc RuntimeError.
Proof.
  intros Hc Hh Hf. unfold open_. destruct (header_len c Hc) as (h0 & -> & Hl).
  rewrite Hl. pose proof (read_exact h (String x body)) as R7. rewrite Hh in R7. rewrite R7.
  rewrite length_app_s, Hh. cbn [String.length].
  unfold fits in Hf. rewrite length_app_s, Hh in Hf. cbn [String.length] in Hf.
  rewrite size_exact by lia. rewrite Nnat.Nat2N.id.
  destruct (existsb _ _ || _); [|reflexivity].
  destruct (section_of x); [|reflexivity].
  pose proof (read_exact body "") as R. rewrite app_nil_r_s in R. now rewrite R.
Qed.

Lemma open_checked c bytes : good_config c -> ignoreHeader c = false -> fits bytes ->
  8 <= String.length bytes ->
  (exists e body cb, corda_stream bytes e body /\ open_ (File bytes) c = Ret cb /\ loaded cb e body) \/
  ((forall e body, ~ corda_stream bytes e body) /\ open_ (File bytes) c = Exc RuntimeError).
Proof.
  intros Hc Hi Hf Hl. destruct (read7 bytes) as (h & r & Hh & E & _); [lia|]. subst bytes.
  rewrite length_app_s, Hh in Hl. destruct r as [|x body]; [simpl in Hl; lia|].
  rewrite (open_long c h x body Hc Hh Hf), Hi, orb_false_r.
  destruct (existsb (String.eqb h) AMQP_HEADERS) eqn:Eh.
  - apply headers_spec in Eh as ->. destruct (section_of x) as [e|] eqn:Es.
    + apply section_marker in Es as ->. left. exists e, body. eexists. split; [reflexivity|].
      split; [reflexivity|]. repeat split.
    + right. split; [|reflexivity]. intros e b Hs. unfold corda_stream in Hs.
      apply app_len_inj in Hs as [_ Hs]; [|reflexivity]. injection Hs as -> _.
      assert (section_of (marker e) = Some e) by now apply section_marker. congruence.
  - right. split; [|reflexivity]. intros e b Hs. unfold corda_stream in Hs.
    apply app_len_inj in Hs as [-> _]; [|now rewrite Hh].
    assert (existsb (String.eqb magic) AMQP_HEADERS = true) by now apply headers_spec. congruence.
Qed.

Lemma open_unchecked c bytes : good_config c -> ignoreHeader c = true -> fits bytes ->
  8 <= String.length bytes ->
  (exists e body cb, headed_stream bytes e body /\ open_ (File bytes) c = Ret cb /\ loaded cb e body) \/
  ((forall e body, ~ headed_stream bytes e body) /\ open_ (File bytes) c = Exc RuntimeError).
Proof.
  intros Hc Hi Hf Hl. destruct (read7 bytes) as (h & r & Hh & E & _); [lia|]. subst bytes.
  rewrite length_app_s, Hh in Hl. destruct r as [|x body]; [simpl in Hl; lia|].
  rewrite (open_long c h x body Hc Hh Hf), Hi, orb_true_r.
  destruct (section_of x) as [e|] eqn:Es.
  - apply section_marker in Es as ->. left. exists e, body. eexists.
    split; [exists h; split; [exact Hh|reflexivity]|].
    split; [reflexivity|]. repeat split.
  - right. split; [|reflexivity]. intros e b (h' & Hh' & Hs).
    apply app_len_inj in Hs as [_ Hs]; [|congruence]. injection Hs as -> _.
    assert (section_of (marker e) = Some e) by now apply section_marker. congruence.
Qed.

Lemma open_inv f c cb : good_config c -> match f with File b => fits b | _ => True end ->
  open_ f c = Ret cb -> exists h, String.length h = 7 /\
    f = File (h ++ String (marker (cb_encoding cb)) (cb_bytes cb)) /\
    cb_size cb = N.of_nat (String.length (cb_bytes cb)).
Proof.
  intros Hc Hf Ho. destruct f as [|n|b].
  - unfold open_ in Ho. destruct (nth_error _ _); discriminate.
  - unfold open_ in Ho. destruct (nth_error _ _); [|discriminate]. destruct (_ || _); discriminate.
  - destruct (Nat.le_gt_cases 8 (String.length b)) as [Hl|Hl].
    + destruct (read7 b) as (h & r & Hh & E & _); [lia|]. subst b.
      rewrite length_app_s, Hh in Hl. destruct r as [|x body]; [simpl in Hl; lia|].
      rewrite (open_long c h x body Hc Hh Hf) in Ho.
      destruct (_ || _); [|discriminate]. destruct (section_of x) as [e|] eqn:Es; [|discriminate].
      injection Ho as <-. apply section_marker in Es as ->. exists h. auto.
    + unfold open_ in Ho. destruct (header_len c Hc) as (h0 & Eh & _). rewrite Eh in Ho.
      unfold read in Ho. destruct (Nat.leb_spec 7 (String.length b)).
      * assert (String.length b = 7) by lia. clear Hf.
        do 7 (destruct b as [|? b]; [simpl in *; lia|]; cbn [String.length] in *).
        destruct b; [|simpl in *; lia]. simpl String.substring in Ho.
        destruct (_ || _); discriminate.
      * destruct (_ || _); discriminate.
Qed.

Lemma toFile_open cb c : good_config c -> reachable cb -> fits (magic ++ String nul (cb_bytes cb)) ->
  exists cb', open_ (toFile cb) c = Ret cb' /\
    cb_bytes cb' = cb_bytes cb /\ cb_size cb' = cb_size cb /\ cb_encoding cb' = DATA_AND_STOP.
Proof.
  intros Hc Hr Hf. unfold toFile.
  change (nth AMQP_DEFAULT AMQP_HEADERS "" ++ String nul "" ++ cb_bytes cb) with
    (magic ++ String nul (cb_bytes cb)).
  rewrite open_long by (auto; reflexivity).
  change (existsb (String.eqb magic) AMQP_HEADERS) with true. change (section_of nul) with (Some DATA_AND_STOP).
  eexists. split; [reflexivity|]. simpl. repeat split.
  inversion Hr as [s Hs E|f c' cb0 Hc' Hf' Ho E]; subst; [reflexivity|].
  destruct (open_inv _ _ _ Hc' Hf' Ho) as (h & _ & _ & Hsz). now rewrite Hsz.
Qed.

(** Exactly which files make the constructor read an uninitialised byte. *)
Lemma open_short c bytes : good_config c -> String.length bytes < 8 ->
  open_ (File bytes) c =
    if ignoreHeader c then Undef
    else if String.eqb bytes magic || String.eqb bytes ("corda" ++ String "001" "") then Undef
    else Exc RuntimeError.
Proof.
  intros Hc Hl. unfold open_. destruct (header_len c Hc) as (h0 & -> & _).
  assert (R : exists ok, read 7 bytes = (bytes ++ zeros (7 - String.length bytes), "", ok)).
  { unfold read. destruct (Nat.leb_spec 7 (String.length bytes)); [|eexists; reflexivity].
    assert (String.length bytes = 7) by lia. exists true.
    replace (7 - String.length bytes) with 0 by lia.
    do 7 (destruct bytes as [|? bytes]; [simpl in *; lia|]; cbn [String.length] in *).
    destruct bytes; [reflexivity|simpl in *; lia]. }
  destruct R as [ok ->].
  assert (Hx : existsb (String.eqb (bytes ++ zeros (7 - String.length bytes))) AMQP_HEADERS
               = (String.eqb bytes magic || String.eqb bytes ("corda" ++ String "001" ""))%bool).
  { apply eq_true_iff_eq. rewrite headers_spec, orb_true_iff, !String.eqb_eq. clear.
    unfold zeros, magic, nul. simpl. split.
    - intros E.
      do 8 (destruct bytes as [|? bytes];
            [simpl in E; first [discriminate E|injection E; intros; subst; auto]|]).
      simpl in E. discriminate E.
    - intros [->| ->]; reflexivity. }
  rewrite Hx. destruct (ignoreHeader c); [rewrite orb_true_r; destruct ok; reflexivity|].
  rewrite orb_false_r. destruct (_ || _); [destruct ok; reflexivity|reflexivity].
Qed.

Lemma blob_round_trip encoded c : good_config c -> fits (magic ++ String nul encoded) ->
  open_ (toFile (of_blob encoded)) c = Ret (of_blob encoded).
Proof.
  intros Hc Hf. unfold toFile.
  change (nth AMQP_DEFAULT AMQP_HEADERS "" ++ String nul "" ++ cb_bytes (of_blob encoded)) with
    (magic ++ String nul encoded).
  now rewrite open_long by (auto; reflexivity).
Qed.

Lemma marker_lost : exists cb c cb',
  good_config c /\ reachable cb /\ open_ (toFile cb) c = Ret cb' /\ cb_encoding cb' <> cb_encoding cb.
Proof.
  exists {| cb_encoding := ENCODING; cb_size := 1; cb_bytes := "x" |}, default_config,
         {| cb_encoding := DATA_AND_STOP; cb_size := 1; cb_bytes := "x" |}.
  assert (good_config default_config) by (unfold good_config; simpl; auto).
  split; [assumption|]. split; [|split; [reflexivity|discriminate]].
  apply (reach_file (File (magic ++ String "002" "x")) default_config); [assumption| |reflexivity].
  unfold fits. simpl. reflexivity.
Qed.

Lemma truncated_bad : exists bytes,
  String.length bytes < 8 /\ open_ (File bytes) default_config = Undef.
Proof. exists magic. split; [simpl; lia|reflexivity]. Qed.

Lemma good_header c : good_config c -> exists h, nth_error AMQP_HEADERS (header c) = Some h.
Proof. unfold good_config, AMQP_DEFAULT. destruct (header c) as [|[|n]]; simpl; eauto. lia. Qed.
Lemma open_missing c : good_config c -> open_ NoFile c = Exc RuntimeError.
Proof. intros H. destruct (good_header c H) as [h E]. unfold open_. now rewrite E. Qed.
Lemma open_unreadable c size : good_config c ->
  open_ (Unreadable size) c = if ignoreHeader c then Undef else Exc RuntimeError.
Proof. intros H. destruct (good_header c H) as [h E]. unfold open_. rewrite E. reflexivity. Qed.
