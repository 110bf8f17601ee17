From Coq Require Import Lia.
From Verif Require Import Base Proton CordaFile SpecFile CordaFileProofs TypeNamesProofs Schema Factory Readers Blob SchemaDump
  Writer Tools SpecTools ToolsProofs PrintProofs SpecCrash.
Import List ListNotations.
Open Scope string_scope.

Lemma app_parts : forall a b p r, a ++ b = p ++ r -> String.length a <= String.length p -> exists q, p = a ++ q /\ b = q ++ r.
Proof.
  induction a as [|c a IH]; intros b p r E H.
  - exists p. auto.
  - destruct p as [|d p]; cbn in H; [lia|]. cbn in E. injection E as -> E.
    destruct (IH b p r E ltac:(lia)) as (q & -> & ->). exists q. auto.
Qed.

Lemma length_app_s : forall a b, String.length (a ++ b) = String.length a + String.length b.
Proof. induction a; intros; cbn; auto. Qed.

Lemma prefix_cases : forall body p r, magic ++ String nul body = p ++ r -> String.length p < 8 ->
  (6 <= String.length p -> p = magic \/ p = "corda" ++ String "001" "") /\
  (String.length p < 6 -> p <> magic /\ p <> "corda" ++ String "001" "").
Proof.
  intros body p r E H. split.
  - intros H6. cbn in E.
    do 6 (destruct p as [|? p]; cbn in H, H6; [lia|]; cbn in E; injection E as <- E).
    destruct p as [|? p]; [right; reflexivity|]. cbn in E. injection E as <- E.
    destruct p as [|? p]; [left; reflexivity|]. cbn in H. lia.
  - intros H6. split; intros ->; cbn in H6; lia.
Qed.

Section Crash.
Context (decode : string -> option tree) (encode : list tree -> string).
Context (fmt : N -> string) (custom : nat -> option string -> PM ivalue) (mo kf : bool).
Context (double float : N -> string) (tn : pn_type -> string) (fuel : nat).

Notation inspector fs := (blob_inspector decode fmt custom mo kf fuel fs).
Notation ddumper fs := (data_dumper decode double float fuel fs).
Notation sdumper fs := (schema_dumper decode tn fuel fs).

Lemma saved_is : forall blob, saved encode blob = File (magic ++ String nul (encode (forest blob))).
Proof. reflexivity. Qed.

Lemma short_dumpers : forall fs prog name mode p, In mode ["avro"; "raw"] -> fs name = File p -> String.length p < 8 ->
  let r := if String.eqb p magic || String.eqb p ("corda" ++ String "001" "") then Undefined else Exit 1 "" true in
  ddumper fs [prog; name] = r /\ sdumper fs [prog; name; mode] = r.
Proof.
  intros fs prog name mode p Hm E H r.
  rewrite sdumper_spec, ddumper_spec, E by assumption. unfold with_blob.
  rewrite (open_short default_config p default_good H). cbn [ignoreHeader default_config]. subst r.
  destruct (String.eqb p magic || String.eqb p ("corda" ++ String "001" "")); split; reflexivity.
Qed.

Lemma interrupted_parts : forall blob part, interrupted (saved encode blob) part ->
  exists p r, r <> "" /\ magic ++ String nul (encode (forest blob)) = p ++ r /\ part = File p.
Proof.
  intros blob part (p & r & Hr & E & ->). rewrite saved_is in E. injection E as E. exists p, r. auto.
Qed.

Lemma interrupted_late : forall fs blob prog name mode p, In mode ["avro"; "raw"] ->
  self_delimiting decode encode blob -> fits (magic ++ String nul (encode (forest blob))) ->
  interrupted (saved encode blob) (fs name) -> fs name = File p -> 8 <= String.length p ->
  inspector fs [prog; name] = Aborted /\ ddumper fs [prog; name] = Aborted /\ sdumper fs [prog; name; mode] = Aborted.
Proof.
  intros fs blob prog name mode p Hm Hd Hf HI Ep H8.
  destruct (interrupted_parts _ _ HI) as (p' & r & Hr & E & Ep'). rewrite Ep in Ep'. injection Ep' as <-.
  assert (E' : (magic ++ String nul "") ++ encode (forest blob) = p ++ r) by (rewrite app_assoc_s; exact E).
  destruct (app_parts _ _ _ _ E' H8) as (q & Eq & Eb).
  assert (Ep2 : p = magic ++ String nul q) by (rewrite Eq, app_assoc_s; reflexivity).
  apply bad_body with (body := q); [exact Hm|rewrite Ep, Ep2; reflexivity| |exact (Hd q r Hr Eb)].
  unfold fits in *. rewrite length_app_s in *. cbn [String.length] in *. rewrite Eb, length_app_s in Hf. lia.
Qed.

Lemma interrupted_early : forall fs blob prog name mode p, In mode ["avro"; "raw"] ->
  interrupted (saved encode blob) (fs name) -> fs name = File p -> String.length p < 6 ->
  complains (ddumper fs [prog; name]) /\ complains (sdumper fs [prog; name; mode]).
Proof.
  intros fs blob prog name mode p Hm HI Ep H6.
  destruct (interrupted_parts _ _ HI) as (p' & r & Hr & E & Ep'). rewrite Ep in Ep'. injection Ep' as <-.
  destruct (prefix_cases _ _ _ E ltac:(lia)) as [_ K]. destruct (K H6) as [K1 K2].
  destruct (short_dumpers fs prog name mode p Hm Ep ltac:(lia)) as [-> ->].
  rewrite (proj2 (String.eqb_neq _ _) K1), (proj2 (String.eqb_neq _ _) K2). split; reflexivity.
Qed.

Lemma interrupted_header : forall fs blob prog name mode p, In mode ["avro"; "raw"] ->
  interrupted (saved encode blob) (fs name) -> fs name = File p -> String.length p < 8 ->
  inspector fs [prog; name] = Undefined /\
  (6 <= String.length p -> ddumper fs [prog; name] = Undefined /\ sdumper fs [prog; name; mode] = Undefined).
Proof.
  intros fs blob prog name mode p Hm HI Ep H8. split.
  - apply (proj1 (inspector_bad decode fmt custom mo kf fuel fs prog name)). right. exists p. auto.
  - intros H6. destruct (interrupted_parts _ _ HI) as (p' & r & Hr & E & Ep'). rewrite Ep in Ep'. injection Ep' as <-.
    destruct (prefix_cases _ _ _ E H8) as [K _].
    destruct (short_dumpers fs prog name mode p Hm Ep H8) as [-> ->].
    destruct (K H6) as [-> | ->]; split; reflexivity.
Qed.
End Crash.
