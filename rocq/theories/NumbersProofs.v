(** Proofs about the texts of numbers. *)
From Coq Require Import QArith Qabs Qpower Lia Lqa Decimal DecimalString DecimalPos DecimalN DecimalZ.
From Verif Require Import Base Readers Numbers SpecNumbers.
Open Scope string_scope.

(** ** Rounding *)

Lemma rhe_near p q : (0 < q)%N ->
  (let n := round_half_even p q in Z.abs (2 * (Z.of_N n * Z.of_N q - Z.of_N p)) <= Z.of_N q)%Z.
Proof.
  intros Hq. unfold round_half_even. cbv zeta.
  pose proof (N.div_mod p q ltac:(lia)) as D. pose proof (N.mod_lt p q ltac:(lia)) as L.
  set (d := (p / q)%N) in *. set (r := (p mod q)%N) in *. clearbody d r.
  assert (E : Z.of_N p = (Z.of_N q * Z.of_N d + Z.of_N r)%Z) by lia.
  assert (L' : (Z.of_N r < Z.of_N q)%Z) by lia.
  destruct (N.ltb_spec (2 * r) q); [nia|]. destruct (N.ltb_spec q (2 * r)).
  - replace (Z.of_N (d + 1)) with (Z.of_N d + 1)%Z by lia. nia.
  - destruct (N.even d); [nia|]. replace (Z.of_N (d + 1)) with (Z.of_N d + 1)%Z by lia. nia.
Qed.
Lemma rhe_even p q : (0 < q)%N ->
  let n := round_half_even p q in (Z.abs (2 * (Z.of_N n * Z.of_N q - Z.of_N p)) = Z.of_N q)%Z -> N.even n = true.
Proof.
  intros Hq. unfold round_half_even. cbv zeta.
  pose proof (N.div_mod p q ltac:(lia)) as D. pose proof (N.mod_lt p q ltac:(lia)) as L.
  set (d := (p / q)%N) in *. set (r := (p mod q)%N) in *. clearbody d r.
  assert (E : Z.of_N p = (Z.of_N q * Z.of_N d + Z.of_N r)%Z) by lia.
  destruct (N.ltb_spec (2 * r) q); [nia|]. destruct (N.ltb_spec q (2 * r)).
  - replace (Z.of_N (d + 1)) with (Z.of_N d + 1)%Z by lia. nia.
  - destruct (N.even d) eqn:Ev; [intros; exact Ev|]. intros _. rewrite N.add_1_r, N.even_succ. rewrite <- N.negb_even, Ev. reflexivity.
Qed.

(** ** Powers of two among the rationals *)
Open Scope Q_scope.

Definition zq (n : N) : Q := inject_Z (Z.of_N n).
Lemma zq_mul a b : zq (a * b) == zq a * zq b.
Proof. unfold zq. rewrite N2Z.inj_mul, inject_Z_mult. reflexivity. Qed.
Lemma zq_add a b : zq (a + b) == zq a + zq b.
Proof. unfold zq. rewrite N2Z.inj_add, inject_Z_plus. reflexivity. Qed.
Lemma two_nz : ~ (2 == 0). Proof. discriminate. Qed.
Lemma qpow_inj (z : Z) : (0 <= z)%Z -> Qpower 2 z == inject_Z (2 ^ z).
Proof. intros H. change 2 with (inject_Z 2). symmetry; now apply Zpower_Qpower. Qed.
Lemma qpow_N (n : N) : Qpower 2 (Z.of_N n) == zq (2 ^ n).
Proof. rewrite qpow_inj by lia. unfold zq. rewrite N2Z.inj_pow. reflexivity. Qed.
Lemma qpow_pos z : 0 < Qpower 2 z.
Proof. apply Qpower_0_lt. reflexivity. Qed.
Lemma qpow_opp z : Qpower 2 (- z) == / Qpower 2 z.
Proof. apply Qpower_opp. Qed.
Lemma qpow_add a b : Qpower 2 (a + b) == Qpower 2 a * Qpower 2 b.
Proof. apply Qpower_plus, two_nz. Qed.

(** ** What is rounded *)

Definition million : Q := inject_Z 1000000.
Definition exact (m : N) (e : Z) : Q := zq m * Qpower 2 e.

Lemma millionths_near m e : Qabs (zq (millionths m e) - exact m e * million) <= 1 # 2.
Proof.
  unfold millionths, exact. destruct (Z.leb_spec 0 e) as [H|H].
  - rewrite !zq_mul. rewrite <- qpow_N, Z2N.id by exact H. change (zq (10 ^ 6)) with million.
    setoid_replace (zq m * Qpower 2 e * million - zq m * Qpower 2 e * million) with 0 by ring. discriminate.
  - assert (Hq : (0 < 2 ^ Z.to_N (- e))%N) by (apply N.neq_0_lt_0, N.pow_nonzero; discriminate).
    pose proof (rhe_near (m * 10 ^ 6) _ Hq) as R. cbv zeta in R.
    set (n := round_half_even (m * 10 ^ 6) (2 ^ Z.to_N (- e))) in *. clearbody n.
    assert (E : Qpower 2 e == / zq (2 ^ Z.to_N (- e))).
    { rewrite <- qpow_N, Z2N.id by lia. rewrite <- qpow_opp. now rewrite Z.opp_involutive. }
    rewrite E. set (q := (2 ^ Z.to_N (- e))%N) in *. clearbody q.
    assert (P : 0 < zq q) by (unfold zq; change 0 with (inject_Z 0); rewrite <- Zlt_Qlt; lia).
    assert (R' : Qabs (2 * (zq n * zq q - zq m * million)) <= zq q).
    { replace million with (zq (10 ^ 6)) by reflexivity. unfold zq.
      rewrite <- !inject_Z_mult. setoid_replace (inject_Z (Z.of_N n * Z.of_N q) - inject_Z (Z.of_N m * Z.of_N (10 ^ 6)))
        with (inject_Z (Z.of_N n * Z.of_N q - Z.of_N (m * 10 ^ 6))).
      2:{ rewrite N2Z.inj_mul. unfold Qminus. rewrite <- inject_Z_opp, <- inject_Z_plus. reflexivity. }
      change 2 with (inject_Z 2). rewrite <- inject_Z_mult.
      change (Qabs (inject_Z ?z)) with (inject_Z (Z.abs z)). rewrite <- Zle_Qle. exact R. }
    apply Qabs_Qle_condition in R'. apply Qabs_Qle_condition.
    assert (X : zq n - zq m * / zq q * million == (zq n * zq q - zq m * million) * / zq q) by (field; lra).
    rewrite X. set (d := zq n * zq q - zq m * million) in *. clearbody d. clear X E R.
    assert (I : 0 < / zq q) by (apply Qinv_lt_0_compat; exact P).
    assert (K : zq q * / zq q == 1) by (field; lra).
    set (i := / zq q) in *. clearbody i. set (z := zq q) in *. clearbody z. destruct R' as [R1 R2]. split; nra.
Qed.

Lemma millionths_even m e : Qabs (zq (millionths m e) - exact m e * million) == 1 # 2 -> N.even (millionths m e) = true.
Proof.
  unfold millionths, exact. destruct (Z.leb_spec 0 e) as [H|H].
  - intros T. exfalso. revert T. rewrite !zq_mul. rewrite <- qpow_N, Z2N.id by exact H. change (zq (10 ^ 6)) with million.
    setoid_replace (zq m * Qpower 2 e * million - zq m * Qpower 2 e * million) with 0 by ring. discriminate.
  - assert (Hq : (0 < 2 ^ Z.to_N (- e))%N) by (apply N.neq_0_lt_0, N.pow_nonzero; discriminate).
    intros T. apply rhe_even; [exact Hq|].
    set (n := round_half_even (m * 10 ^ 6) (2 ^ Z.to_N (- e))) in *. clearbody n.
    assert (E : Qpower 2 e == / zq (2 ^ Z.to_N (- e))).
    { rewrite <- qpow_N, Z2N.id by lia. rewrite <- qpow_opp. now rewrite Z.opp_involutive. }
    rewrite E in T. set (q := (2 ^ Z.to_N (- e))%N) in *. clearbody q.
    assert (P : 0 < zq q) by (unfold zq; change 0 with (inject_Z 0); rewrite <- Zlt_Qlt; lia).
    assert (X : zq n - zq m * / zq q * million == (zq n * zq q - zq m * million) * / zq q) by (field; lra).
    rewrite X, Qabs_Qmult in T. rewrite (Qabs_pos (/ zq q)) in T by (apply Qlt_le_weak, Qinv_lt_0_compat, P).
    assert (R' : Qabs (2 * (zq n * zq q - zq m * million)) == zq q).
    { rewrite Qabs_Qmult. change (Qabs 2) with 2. set (a := Qabs _) in *. clearbody a. 
      assert (K : zq q * / zq q == 1) by (field; lra). setoid_replace a with (a * / zq q * zq q) by (field; lra). rewrite T. ring. }
    clear -R'. replace million with (zq (10 ^ 6)) in R' by reflexivity. unfold zq in R'. rewrite <- !inject_Z_mult in R'.
    setoid_replace (inject_Z (Z.of_N n * Z.of_N q) - inject_Z (Z.of_N m * Z.of_N (10 ^ 6)))
        with (inject_Z (Z.of_N n * Z.of_N q - Z.of_N (m * 10 ^ 6))) in R'.
    2:{ rewrite N2Z.inj_mul. unfold Qminus. rewrite <- inject_Z_opp, <- inject_Z_plus. reflexivity. }
    change 2 with (inject_Z 2) in R'. rewrite <- inject_Z_mult in R'.
    change (Qabs (inject_Z ?z)) with (inject_Z (Z.abs z)) in R'. apply (proj1 (inject_Z_injective _ _)). exact R'.
Qed.

(** ** Texts *)
Open Scope string_scope.

Lemma digit_first d n s : (d < 10)%N -> digits n (String (ascii_of_N (48 + d)) s) = digits (10 * n + d) s.
Proof.
  intros H. cbn [digits]. rewrite N_ascii_embedding by lia. destruct (N.leb_spec 48 (48 + d)); [|lia].
  destruct (N.leb_spec (48 + d) 57); [|lia]. cbn [andb]. f_equal. lia.
Qed.
Lemma digits_acc u : forall p, digits (Npos p) (NilEmpty.string_of_uint u) = Some (Npos (Pos.of_uint_acc u p)).
Proof.
  induction u; intros p; [reflexivity|..]; cbn [NilEmpty.string_of_uint Pos.of_uint_acc]; rewrite <- IHu.
  - refine (eq_trans (digit_first 0 _ _ eq_refl) _); first [reflexivity|f_equal; lia].
  - refine (eq_trans (digit_first 1 _ _ eq_refl) _); first [reflexivity|f_equal; lia].
  - refine (eq_trans (digit_first 2 _ _ eq_refl) _); first [reflexivity|f_equal; lia].
  - refine (eq_trans (digit_first 3 _ _ eq_refl) _); first [reflexivity|f_equal; lia].
  - refine (eq_trans (digit_first 4 _ _ eq_refl) _); first [reflexivity|f_equal; lia].
  - refine (eq_trans (digit_first 5 _ _ eq_refl) _); first [reflexivity|f_equal; lia].
  - refine (eq_trans (digit_first 6 _ _ eq_refl) _); first [reflexivity|f_equal; lia].
  - refine (eq_trans (digit_first 7 _ _ eq_refl) _); first [reflexivity|f_equal; lia].
  - refine (eq_trans (digit_first 8 _ _ eq_refl) _); first [reflexivity|f_equal; lia].
  - refine (eq_trans (digit_first 9 _ _ eq_refl) _); first [reflexivity|f_equal; lia].
Qed.
Lemma digits_uint u : digits 0 (NilEmpty.string_of_uint u) = Some (Pos.of_uint u).
Proof. induction u; [reflexivity|exact IHu|..]; apply digits_acc. Qed.
Lemma dec_uint n : exists u, Pos.of_uint u = n /\ dec (Z.of_N n) = NilZero.string_of_uint u.
Proof.
  exists (N.to_uint n). split; [apply DecimalN.Unsigned.of_to|]. unfold dec. destruct n; reflexivity.
Qed.
Lemma dec_digits n : digits 0 (dec (Z.of_N n)) = Some n.
Proof.
  destruct (dec_uint n) as (u & E & ->). unfold NilZero.string_of_uint. destruct u; [subst n; reflexivity|..]; rewrite digits_uint, E; reflexivity.
Qed.
Lemma dec_some n : exists c s, dec (Z.of_N n) = String c s /\ (c =? "-")%char = false.
Proof.
  destruct (dec_uint n) as (u & _ & ->). destruct u; eexists _, _; split; reflexivity.
Qed.

Lemma digits_app s : forall n t, digits n (s ++ t) = match digits n s with Some m => digits m t | None => None end.
Proof. induction s as [|c s IH]; intros n t; cbn [digits append]; [reflexivity|]. destruct (_ && _)%bool; [apply IH|reflexivity]. Qed.
Lemma digit_read n d : (d < 10)%N -> digits n (String (ascii_of_N (48 + d)) "") = Some (10 * n + d)%N.
Proof.
  intros H. cbn [digits]. rewrite N_ascii_embedding by lia. destruct (N.leb_spec 48 (48 + d)); [|lia].
  destruct (N.leb_spec (48 + d) 57); [|lia]. cbn [andb]. f_equal. lia.
Qed.
Lemma last_digits_read k : forall n, (n < 10 ^ N.of_nat k)%N -> digits 0 (last_digits k n) = Some n /\ String.length (last_digits k n) = k.
Proof.
  induction k as [|k IH]; intros n H; cbn [last_digits].
  - change (10 ^ N.of_nat 0)%N with 1%N in H. split; [|reflexivity]. cbn. f_equal. lia.
  - assert (H' : (n / 10 < 10 ^ N.of_nat k)%N).
    { apply N.div_lt_upper_bound; [discriminate|]. rewrite Nat2N.inj_succ, N.pow_succ_r' in H. exact H. }
    destruct (IH _ H') as [I1 I2]. split.
    + rewrite digits_app, I1. rewrite digit_read by (apply N.mod_lt; discriminate). f_equal. pose proof (N.div_mod n 10 ltac:(discriminate)). lia.
    + assert (LA : forall a b, String.length (a ++ b) = (String.length a + String.length b)%nat) by (induction a; cbn; [|intros; rewrite IHa]; reflexivity).
      rewrite LA, I2. cbn. lia.
Qed.

Lemma no_point s n t m : digits n s = Some m -> before_point (s ++ String "." t) = s /\ after_point (s ++ String "." t) = t.
Proof.
  revert n. induction s as [|c s IH]; intros n H; [split; reflexivity|]. cbn [digits] in H. cbn [append before_point after_point].
  destruct (Ascii.eqb_spec c ".") as [->|]; [discriminate|]. destruct (_ && _)%bool; [|discriminate]. destruct (IH _ H) as [-> ->]. split; reflexivity.
Qed.

Definition six (n : N) : string := dec (Z.of_N (n / 10 ^ 6)) ++ "." ++ last_digits 6 (n mod 10 ^ 6).
Lemma six_read n : stands_for (six n) (zq n / million) /\ minus (six n) = false /\ places (six n) = 6%nat /\ exists q, unsigned (six n) = Some q.
Proof.
  pose proof (N.mod_lt n (10 ^ 6) ltac:(discriminate)) as L.
  destruct (last_digits_read 6 _ L) as [D1 D2]. pose proof (dec_digits (n / 10 ^ 6)) as D3.
  assert (HM : minus (six n) = false).
  { unfold six. destruct (dec_some (n / 10 ^ 6)) as (c & s & -> & Hc). exact Hc. }
  unfold six in *. change ("." ++ ?x) with (String "." x) in *.
  destruct (no_point _ _ (last_digits 6 (n mod 10 ^ 6)) _ D3) as [B A].
  assert (U : unsigned (dec (Z.of_N (n / 10 ^ 6)) ++ String "." (last_digits 6 (n mod 10 ^ 6)))
              = Some (zq (n / 10 ^ 6) + zq (n mod 10 ^ 6) / inject_Z (10 ^ 6))%Q).
  { unfold unsigned. rewrite B, A, D3, D1, D2. destruct (dec_some (n / 10 ^ 6)) as (c & s & -> & _). reflexivity. }
  split; [|split; [exact HM|split; [unfold places; now rewrite A|eexists; exact U]]].
  unfold stands_for, number. rewrite HM, U. eexists. split; [reflexivity|].
  rewrite (N.div_mod n (10 ^ 6) ltac:(discriminate)) at 3. rewrite zq_add, zq_mul. change (zq (10 ^ 6)) with million.
  change (inject_Z (10 ^ 6)) with million. field. discriminate.
Qed.

(** ** Numbers in a format *)
Section Format.
Context (F : format).
Definition mant (b : N) : N := if (exponent F b =? 0)%N then fraction F b else (2 ^ f_bits F + fraction F b)%N.
Definition expo (b : N) : Z := (Z.of_N (N.max 1 (exponent F b)) - bias F - Z.of_N (f_bits F))%Z.
Definition shown (b : N) : N := millionths (mant b) (expo b).
Definition signed (b : N) : Z := if negative F b then (- Z.of_N (shown b))%Z else Z.of_N (shown b).
Definition text (b : N) : string := printf_f (f_bits F) (e_bits F) b.

Lemma text_finite b : finite F b -> text b = (if negative F b then "-" else "") ++ six (shown b).
Proof.
  intros H. unfold text, printf_f. fold (exponent F b) (fraction F b) (negative F b).
  unfold finite, top in H. apply N.eqb_neq in H. rewrite H. reflexivity.
Qed.
Lemma text_infinite b : infinite F b -> text b = (if negative F b then "-" else "") ++ "inf".
Proof.
  intros [H1 H2]. unfold text, printf_f. fold (exponent F b) (fraction F b) (negative F b).
  unfold top in H1. apply N.eqb_eq in H1, H2. rewrite H1, H2. reflexivity.
Qed.
Lemma text_nan b : not_a_number F b -> text b = (if negative F b then "-" else "") ++ "nan".
Proof.
  intros [H1 H2]. unfold text, printf_f. fold (exponent F b) (fraction F b) (negative F b).
  unfold top in H1. apply N.eqb_eq in H1. apply N.eqb_neq in H2. rewrite H1, H2. reflexivity.
Qed.

Open Scope Q_scope.
Lemma magnitude_exact b : magnitude F b == exact (mant b) (expo b).
Proof.
  unfold magnitude, exact, mant, expo. fold (zq (fraction F b)).
  assert (W : inject_Z (2 ^ Z.of_N (f_bits F)) == Qpower 2 (Z.of_N (f_bits F))) by (symmetry; apply qpow_inj; lia).
  assert (P := qpow_pos (Z.of_N (f_bits F))).
  assert (X : forall z, Qpower 2 (z - bias F - Z.of_N (f_bits F)) == Qpower 2 (z - bias F) / Qpower 2 (Z.of_N (f_bits F))).
  { intros z. unfold Z.sub at 1. rewrite qpow_add, qpow_opp. reflexivity. }
  destruct (N.eqb_spec (exponent F b) 0) as [E|E].
  - rewrite E. change (Z.of_N (N.max 1 0)) with 1%Z. rewrite X, W. field. lra.
  - rewrite N.max_r by lia. rewrite X, W, zq_add, <- qpow_N. field. lra.
Qed.

Lemma signed_near b : Qabs (inject_Z (signed b) - value F b * million) <= 1 # 2.
Proof.
  pose proof (millionths_near (mant b) (expo b)) as H. rewrite <- magnitude_exact in H. fold (shown b) in H.
  unfold signed, value. unfold zq in H. destruct (negative F b); [|exact H].
  rewrite inject_Z_opp. setoid_replace (- inject_Z (Z.of_N (shown b)) - - magnitude F b * million)
    with (- (inject_Z (Z.of_N (shown b)) - magnitude F b * million)) by ring. now rewrite Qabs_opp.
Qed.
Lemma signed_even b : Qabs (inject_Z (signed b) - value F b * million) == 1 # 2 -> Z.even (signed b) = true.
Proof.
  intros H. assert (K : N.even (shown b) = true).
  { apply millionths_even. rewrite <- magnitude_exact. fold (shown b). unfold signed, value in H. unfold zq. destruct (negative F b); [|exact H].
    rewrite <- H. rewrite inject_Z_opp. setoid_replace (- inject_Z (Z.of_N (shown b)) - - magnitude F b * million)
      with (- (inject_Z (Z.of_N (shown b)) - magnitude F b * million)) by ring. now rewrite Qabs_opp. }
  unfold signed. destruct (negative F b); rewrite ?Z.even_opp; destruct (shown b) as [|[]]; try reflexivity; discriminate.
Qed.

Lemma text_number b : finite F b -> stands_for (text b) (inject_Z (signed b) / million) /\ minus (text b) = negative F b /\ places (text b) = 6%nat.
Proof.
  intros H. rewrite (text_finite b H). destruct (six_read (shown b)) as (S & M & P & (u & U)). unfold signed.
  destruct (negative F b).
  - change ("-" ++ six (shown b))%string with (String "-" (six (shown b))). split; [|split; [reflexivity|]].
    + destruct S as (r & S1 & S2). unfold number in S1. rewrite M in S1. unfold stands_for, number. cbn [minus]. change (("-" =? "-")%char) with true.
      cbv iota. rewrite S1. cbn [option_map]. eexists. split; [reflexivity|]. rewrite S2. unfold zq. rewrite inject_Z_opp. field. discriminate.
    + unfold places in *. cbn [after_point]. change (("-" =? ".")%char) with false. exact P.
  - split; [|split; [exact M|exact P]]. exact S.
Qed.

Lemma q_bounds a e : Qabs a <= e -> - e <= a <= e.
Proof. intros H. now apply Qabs_Qle_condition. Qed.

Lemma signed_mono b b' : value F b <= value F b' -> (signed b <= signed b')%Z.
Proof.
  intros H. destruct (Z.le_gt_cases (signed b) (signed b')) as [|G]; [assumption|exfalso].
  pose proof (signed_near b) as N1. pose proof (signed_near b') as N2. pose proof (signed_even b) as E1. pose proof (signed_even b') as E2.
  assert (G' : inject_Z (signed b') + 1 <= inject_Z (signed b)).
  { change 1 with (inject_Z 1). rewrite <- inject_Z_plus, <- Zle_Qle. lia. }
  apply q_bounds in N1, N2. set (x := value F b) in *. set (y := value F b') in *. clearbody x y.
  set (n := signed b) in *. set (n' := signed b') in *. clearbody n n'.
  assert (M : x * million <= y * million) by (unfold million; change (inject_Z 1000000) with 1000000; lra).
  assert (T1 : inject_Z n - x * million == 1 # 2) by lra. assert (T2 : inject_Z n' - y * million == - (1 # 2)) by lra.
  rewrite T1 in E1. rewrite T2 in E2. specialize (E1 ltac:(reflexivity)). specialize (E2 ltac:(reflexivity)).
  assert (D : inject_Z n == inject_Z (n' + 1)) by (rewrite inject_Z_plus; change (inject_Z 1) with 1; lra).
  apply (proj1 (inject_Z_injective _ _)) in D. subst n. rewrite Z.add_1_r, Z.even_succ, <- Z.negb_even, E2 in E1. discriminate.
Qed.

Lemma million_v : million == 1000000. Proof. reflexivity. Qed.

Lemma stands_unique s q q' : stands_for s q -> stands_for s q' -> q == q'.
Proof. intros (r & E & H) (r' & E' & H'). rewrite E in E'. injection E' as <-. rewrite <- H, <- H'. reflexivity. Qed.

Lemma close b : Qabs (inject_Z (signed b) / million - value F b) <= half_millionth.
Proof.
  pose proof (signed_near b) as N1. apply q_bounds in N1. apply Qabs_Qle_condition. unfold half_millionth.
  rewrite million_v in *. unfold Qdiv. change (/ 1000000) with (1 # 1000000). split; lra.
Qed.

Lemma exactly b (z : Z) : value F b == inject_Z z / million -> signed b = z.
Proof.
  intros H. pose proof (signed_near b) as N1. rewrite H in N1. setoid_replace (inject_Z z / million * million) with (inject_Z z) in N1 by (field; discriminate).
  apply q_bounds in N1. assert (inject_Z (signed b) < inject_Z (z + 1)) by (rewrite inject_Z_plus; change (inject_Z 1) with 1; lra).
  assert (inject_Z (z - 1) < inject_Z (signed b)) by (unfold Z.sub; rewrite inject_Z_plus, inject_Z_opp; change (inject_Z 1) with 1; lra).
  rewrite <- Zlt_Qlt in *. lia.
Qed.

Lemma like_zero b : finite F b -> Qabs (value F b) <= half_millionth -> text b = if negative F b then "-0.000000" else "0.000000".
Proof.
  intros Hf H. assert (E : signed b = 0%Z).
  { pose proof (signed_near b) as N1. pose proof (signed_even b) as E1. apply q_bounds in N1, H. unfold half_millionth in H.
    set (x := value F b) in *. clearbody x. rewrite million_v in *. set (n := signed b) in *. clearbody n.
    assert (-1 <= inject_Z n <= 1) as [A B] by (split; lra). change (-1) with (inject_Z (-1)) in A. change 1 with (inject_Z 1) in B.
    rewrite <- Zle_Qle in A, B. assert (C : (n = -1 \/ n = 0 \/ n = 1)%Z) by lia. destruct C as [-> | [-> | ->]]; [|reflexivity|].
    - exfalso. cut (Z.even (-1) = true); [discriminate|]. apply E1. change (inject_Z (-1)) with (-1) in *.
      assert (Q1 : -1 - x * 1000000 == - (1 # 2)) by lra. rewrite Q1. reflexivity.
    - exfalso. cut (Z.even 1 = true); [discriminate|]. apply E1. change (inject_Z 1) with 1 in *.
      assert (Q1 : 1 - x * 1000000 == 1 # 2) by lra. rewrite Q1. reflexivity. }
  rewrite (text_finite b Hf). assert (S : shown b = 0%N) by (unfold signed in E; destruct (negative F b); lia).
  rewrite S. destruct (negative F b); reflexivity.
Qed.
End Format.
