(** The data is the same after any sequence of operations. *)
From Coq Require Import Lia.
From Verif Require Import Base Proton ProtonProofs Readers SpecReaders ReadersProofs Blob Deserialise SpecDeserialise DeserialiseProofs
  SchemaDump SchemaDumpProofs SpecHistory.
Import List ListNotations.

Theorem reads_keep : forall fmt custom mo kf double float tn, (forall which name, stays_put (custom which name)) ->
  forall ops fuel d cf, heights (forest d) <= fuel ->
  match perform fmt custom mo kf double float tn fuel ops (d, cf) with
  | Ok _ (d', _) => forest d' = forest d
  | Fuel => False
  | _ => True
  end.
Proof.
  intros fmt custom mo kf double float tn Hs. induction ops as [|o ops IH]; intros fuel d cf H; [reflexivity|].
  cbn [perform].
  assert (K : match perform1 fmt custom mo kf double float tn fuel o (d, cf) with
    | Ok _ (d', _) | Throw _ (d', _) => forest d' = forest d | Fuel => False | _ => True end).
  { destruct o as [| |target|cs t]; cbn [perform1].
    - unfold bind. pose proof (inspect_kept fmt custom mo kf Hs fuel d cf H) as K.
      destruct (dumpContents fmt custom mo kf fuel (d, cf)) as [a [d' cf']|e [d' cf']| | |]; auto; now subst d'.
    - unfold bind, on_data. pose proof (dump_kept double float fuel d H) as K.
      destruct (dumpData double float fuel d); auto; now rewrite K.
    - unfold bind, on_data. pose proof (dumpSchema_keeps tn fuel target d H) as K.
      destruct (dumpSchema tn fuel target d); auto; now rewrite K.
    - unfold bind, on_data. pose proof (deserialise_keeps cs fuel t d) as K. pose proof (deserialise_ends cs fuel t d (forest_belowc _ _ H)) as N.
      destruct (deserialise cs fuel t d); auto. }
  destruct (perform1 fmt custom mo kf double float tn fuel o (d, cf)) as [a [d' cf']|e [d' cf']| | |]; auto.
  - specialize (IH fuel d' cf'). rewrite K in IH. exact (IH H).
  - specialize (IH fuel d' cf'). rewrite K in IH. exact (IH H).
Qed.
