(** C90: the text shown for numbers with a fractional part. *)
From Coq Require Import QArith Qabs.
From Verif Require Import Base Proton Schema Factory Readers Blob Writer Numbers SpecNumbers NumbersProofs.
Import List ListNotations.
Open Scope Q_scope.
Open Scope string_scope.

(** The text of a double, and that of a float. *)
Definition displays (F : format) (t : N -> string) : Prop :=
  (F = binary64 /\ t = double_text) \/ (F = binary32 /\ t = float_text).
Lemma displays_text F t b : displays F t -> t b = text F b.
Proof. intros [[-> ->]|[-> ->]]; reflexivity. Qed.

(** The text stands for a number that differs from the value by half a millionth
    at most, and it has six places. *)
Theorem C90_nearest : forall F t b, displays F t -> finite F b ->
  places (t b) = 6%nat /\ exists q, stands_for (t b) q /\ (Qabs (q - value F b) <= half_millionth)%Q.
Proof.
  intros F t b D H. rewrite (displays_text F t b D). destruct (text_number F b H) as (S & _ & P). split; [exact P|].
  eexists. split; [exact S|apply close].
Qed.
Print Assumptions C90_nearest.

(** If two numbers with six places are equally near, the one whose last digit is
    even is shown. *)
Theorem C90_ties : forall F t b q, displays F t -> finite F b -> stands_for (t b) q ->
  Qabs (q - value F b) == half_millionth -> exists z : Z, q == inject_Z (2 * z) / inject_Z 1000000.
Proof.
  intros F t b q D H S T. rewrite (displays_text F t b D) in S.
  pose proof (stands_unique _ _ _ S (proj1 (text_number F b H))) as E. rewrite E in T.
  assert (K : Z.even (signed F b) = true).
  { apply signed_even.
    setoid_replace (inject_Z (signed F b) - value F b * million) with ((inject_Z (signed F b) / million - value F b) * million)
      by (unfold million; field; discriminate).
    rewrite Qabs_Qmult, T. reflexivity. }
  apply Z.even_spec in K as (z & K). exists z. rewrite E, K. reflexivity.
Qed.
Print Assumptions C90_ties.

(** It is exact for numbers with at most six places, whole numbers among them. *)
Theorem C90_exact : forall F t b, displays F t -> finite F b -> six_places (value F b) -> stands_for (t b) (value F b).
Proof.
  intros F t b D H (z & E). rewrite (displays_text F t b D). destruct (text_number F b H) as ((r & N & S) & _ & _).
  exists r. split; [exact N|]. rewrite S, (exactly F b z E). symmetry. exact E.
Qed.
Print Assumptions C90_exact.

(** There is a minus exactly if the sign bit is set, for zero as well. *)
Theorem C90_sign : forall F t b, displays F t -> finite F b -> minus (t b) = negative F b.
Proof. intros F t b D H. rewrite (displays_text F t b D). apply text_number, H. Qed.
Print Assumptions C90_sign.

(** Texts are in the order of the numbers. *)
Theorem C90_order : forall F t b b' q q', displays F t -> finite F b -> finite F b' ->
  stands_for (t b) q -> stands_for (t b') q' -> (value F b <= value F b')%Q -> (q <= q')%Q.
Proof.
  intros F t b b' q q' D H H' S S' L. rewrite (displays_text F t b D) in S. rewrite (displays_text F t b' D) in S'.
  rewrite (stands_unique _ _ _ S (proj1 (text_number F b H))), (stands_unique _ _ _ S' (proj1 (text_number F b' H'))).
  apply Qmult_le_compat_r; [|discriminate]. rewrite <- Zle_Qle. apply signed_mono, L.
Qed.
Print Assumptions C90_order.

(** Numbers that differ by more than a millionth have different texts. *)
Theorem C90_told_apart : forall F t b b', displays F t -> finite F b -> finite F b' ->
  t b = t b' -> (Qabs (value F b - value F b') <= millionth)%Q.
Proof.
  intros F t b b' D H H' E. rewrite !(displays_text F t _ D) in E.
  pose proof (proj1 (text_number F b H)) as S. rewrite E in S. pose proof (stands_unique _ _ _ S (proj1 (text_number F b' H'))) as Q.
  pose proof (close F b) as C. pose proof (close F b') as C'. rewrite Q in C. clear -C C'.
  apply Qabs_Qle_condition in C, C'. apply Qabs_Qle_condition. unfold half_millionth, millionth in *.
  set (x := (inject_Z (signed F b') / million)%Q) in *. clearbody x. split; Lqa.lra.
Qed.
Print Assumptions C90_told_apart.

(** Not the others: all numbers up to half a millionth look like zero. *)
Theorem C90_small_refuted : forall F t b, displays F t -> finite F b -> (Qabs (value F b) <= half_millionth)%Q ->
  t b = if negative F b then "-0.000000" else "0.000000".
Proof. intros F t b D H L. rewrite (displays_text F t b D). now apply like_zero. Qed.
Print Assumptions C90_small_refuted.

(** What is not a finite number. *)
Theorem C90_others : forall F t b, displays F t ->
  (infinite F b -> t b = (if negative F b then "-inf" else "inf")) /\
  (not_a_number F b -> t b = (if negative F b then "-nan" else "nan")).
Proof.
  intros F t b D. rewrite (displays_text F t b D). split; intros H; [rewrite (text_infinite F b H)|rewrite (text_nan F b H)]; destruct (negative F b); reflexivity.
Qed.
Print Assumptions C90_others.

(** For example, a class with a double: for each of its values inspection shows
    this text. *)
Definition with_double (b : N) : item := IObject "net.Price" "f:p" [("amount", ("double", IPrim (OfDouble b)))].
Theorem C90_inspected : forall custom mo kf b, exists w blob cf,
  serialise_blob (with_double b) new_writer = Ok blob w /\
  dumpContents double_text custom mo kf 20 (blob, new_factory) = Ok ("{ Parsed : { amount : " ++ double_text b ++ " } }") (blob, cf).
Proof.
  intros custom mo kf b.
  destruct (serialise_blob (with_double b) new_writer) as [blob w| | | |] eqn:E; try (cbv in E; discriminate).
  exists w, blob. cbv in E. injection E as <- _. destruct mo; eexists; (split; [reflexivity|]); lazy -[double_text append];
    (match goal with |- Ok ?a _ = Ok ?b _ => replace a with b; [reflexivity|] end);
    cbn [append];
    assert (A : forall x y z, (x ++ y) ++ z = x ++ (y ++ z)) by (clear; induction x as [|c x IH]; intros; cbn; [|rewrite IH]; reflexivity);
    rewrite ?A; reflexivity.
Qed.
Print Assumptions C90_inspected.

(** 10.1 as a double is 10.1 to six places; as a float 0.1 is not exact either;
    2^-30 is not zero and looks like it; -0. *)
Example C90_ex :
  finite binary64 0x4024333333333333 /\ double_text 0x4024333333333333 = "10.100000" /\
  finite binary32 0x3DCCCCCD /\ float_text 0x3DCCCCCD = "0.100000" /\
  finite binary64 0x3E10000000000000 /\ (value binary64 0x3E10000000000000 == 1 # 1073741824)%Q /\ double_text 0x3E10000000000000 = "0.000000" /\
  six_places (value binary64 0xC004000000000000) /\ stands_for (double_text 0xC004000000000000) (-(5 # 2)) /\
  (* 2^-7 is 0.0078125, and 3 * 2^-7 is 0.0234375: in the middle. *)
  (value binary64 0x3F80000000000000 == 78125 # 10000000)%Q /\ double_text 0x3F80000000000000 = "0.007812" /\
  (value binary64 0x3F98000000000000 == 234375 # 10000000)%Q /\ double_text 0x3F98000000000000 = "0.023438" /\
  double_text 0x8000000000000000 = "-0.000000" /\ infinite binary64 0x7FF0000000000000 /\ not_a_number binary64 0xFFF8000000000000.
Proof.
  repeat split; try (vm_compute; discriminate); try reflexivity.
  - exists (-2500000)%Z. reflexivity.
  - eexists. split; [vm_compute; reflexivity|reflexivity].
Qed.
