(** Proofs about the AMQP 1.0 encoding. *)
From Coq Require Import Lia.
From Verif Require Import Base Proton Amqp SpecAmqp.
Import List ListNotations.
Open Scope string_scope.

Lemma app_assoc_s a b c : (a ++ b) ++ c = a ++ (b ++ c).
Proof. induction a as [|x a IH]; cbn [String.append]; [reflexivity|]. rewrite IH. reflexivity. Qed.
Lemma app_nil_s a : a ++ "" = a.
Proof. induction a as [|x a IH]; cbn [String.append]; [reflexivity|]. rewrite IH. reflexivity. Qed.
Lemma length_app_s a b : String.length (a ++ b) = String.length a + String.length b.
Proof. induction a as [|x a IH]; cbn [String.append String.length Nat.add]; [reflexivity|]. rewrite IH. reflexivity. Qed.

(** ** Numbers *)

Lemma get_be_spec : forall k n s r, big_endian k n s -> get_be k (s ++ r) = Some (n, r).
Proof.
  unfold big_endian. induction k as [|k IH]; intros n s r [HL HN]; destruct s as [|c s]; cbn in HL; try discriminate.
  - cbn in HN. subst n. reflexivity.
  - injection HL as HL. cbn [get_be String.append]. rewrite (IH (number s) s r (conj HL eq_refl)).
    cbn [number] in HN. rewrite HL in HN. rewrite HN. reflexivity.
Qed.

Lemma get_be_more : forall k s n r q, get_be k s = Some (n, r) -> get_be k (s ++ q) = Some (n, r ++ q).
Proof.
  induction k as [|k IH]; intros s n r q H; cbn [get_be] in *.
  - injection H as <- <-. reflexivity.
  - destruct s as [|c s]; [discriminate|]. cbn [String.append]. destruct (get_be k s) as [[m r']|] eqn:E; [|discriminate].
    rewrite (IH _ _ _ q E). injection H as <- <-. reflexivity.
Qed.

Lemma take_spec x r : take (N.of_nat (String.length x)) (x ++ r) = Some (x, r).
Proof.
  induction x as [|c x IH]; [destruct r; reflexivity|].
  cbn [String.append take String.length]. rewrite Nat2N.inj_succ.
  destruct (N.eqb_spec (N.succ (N.of_nat (String.length x))) 0) as [H|H]; [lia|].
  replace (N.succ (N.of_nat (String.length x)) - 1)%N with (N.of_nat (String.length x)) by lia. rewrite IH. reflexivity.
Qed.

Lemma take_more : forall s n a r q, take n s = Some (a, r) -> take n (s ++ q) = Some (a, r ++ q).
Proof.
  induction s as [|c s IH]; intros n a r q H; cbn [take String.append] in *.
  - destruct (n =? 0)%N eqn:E; [|discriminate]. injection H as <- <-. destruct q; cbn [take]; rewrite E; reflexivity.
  - destruct (n =? 0)%N; [injection H as <- <-; reflexivity|].
    destruct (take (n - 1) s) as [[a' r']|] eqn:E; [|discriminate]. rewrite (IH _ _ _ q E). injection H as <- <-. reflexivity.
Qed.

Lemma signed_spec k z s : In k [1; 2; 4; 8] -> twos_complement k z s -> exists n, big_endian k n s /\ signed k n = z.
Proof.
  intros Hk (n & B & H). exists n. split; [exact B|]. unfold signed.
  cbn [In] in Hk. destruct Hk as [<-|[<-|[<-|[<-|[]]]]];
    match type of H with context [Z.of_nat ?k] => let v := eval vm_compute in (Z.of_nat k) in change (Z.of_nat k) with v in * end;
    match goal with |- context [(?a / 2)%Z] => let v := eval vm_compute in (a / 2)%Z in change (a / 2)%Z with v end;
    repeat match type of H with context [(2 ^ ?e)%Z] => let v := eval vm_compute in (2 ^ e)%Z in change (2 ^ e)%Z with v in H end;
    match goal with |- context [(?a <? ?b)%Z] => destruct (Z.ltb_spec a b) end; lia.
Qed.

(** ** Decoding what is encoded *)

Notation parse_all fuel := (many (parse fuel)).

Lemma parse_step f c s :
  parse (S f) (String c s) =
  match shape_of (N_of_ascii c) with
  | None => None
  | Some (Fixed k g) => let* (n, r) := get_be k s in Some (Node (g n) [], r)
  | Some (Text k g) => let* (n, r) := get_be k s in let* (x, r') := take n r in Some (Node (g x) [], r')
  | Some (Compound k a) =>
      let* (size, r) := get_be k s in let* (n, r1) := get_be k r in
      let* (ts, r2) := parse_all f (N.to_nat n) r1 in Some (Node a ts, r2)
  | Some Described => let* (ts, r) := parse_all f 2 s in Some (Node ADescribed ts, r)
  end.
Proof. reflexivity. Qed.

Lemma parse_scalar f a code s r : scalar a code s -> parse (S f) (byte code ++ s ++ r) = Some (Node a [], r).
Proof.
  intros H. unfold byte. cbn [String.append]. rewrite parse_step.
  destruct H;
    match goal with |- context [N_of_ascii ?c] => let v := eval vm_compute in (N_of_ascii c) in change (N_of_ascii c) with v end; cbv beta iota delta [shape_of];
    try reflexivity;
    try (rewrite (get_be_spec _ _ _ r ltac:(eassumption)); reflexivity);
    try (match goal with H : twos_complement ?k _ _ |- _ => apply (signed_spec k) in H; [|cbn; tauto] end;
         match goal with H : exists _, _ |- _ => destruct H as (n & B & <-) end; rewrite (get_be_spec _ _ _ r B); reflexivity);
    try (match goal with H : text _ _ _ |- _ => destruct H as (size & B & ->) end;
         rewrite app_assoc_s, (get_be_spec _ _ _ _ B), take_spec; reflexivity).
Qed.

Scheme encodes_mut := Induction for encodes Sort Prop
  with encode_all_mut := Induction for encode_all Sort Prop.
Combined Scheme encodes_both from encodes_mut, encode_all_mut.

Lemma parse_encodes :
  (forall t s, encodes t s -> forall f r, String.length s <= f -> parse f (s ++ r) = Some (t, r)) /\
  (forall ts s, encode_all ts s -> forall f r, String.length s <= f -> parse_all f (List.length ts) (s ++ r) = Some (ts, r)).
Proof.
  apply encodes_both.
  - intros a code s H f r L. unfold byte in L. cbn in L. destruct f as [|f]; [lia|]. rewrite app_assoc_s. apply parse_scalar, H.
  - intros f r L. cbn in L. destruct f as [|f]; [lia|]. reflexivity.
  - intros a code k cs body size count HC _ IH HS HN f r L. unfold byte in *. rewrite !app_assoc_s. cbn [String.append] in *. cbn [String.length] in L.
    rewrite !length_app_s in L. destruct f as [|f]; [lia|]. rewrite parse_step.
    assert (E : shape_of (N_of_ascii (ascii_of_N code)) = Some (Compound k a)) by (destruct HC; reflexivity).
    rewrite E, (get_be_spec _ _ _ _ HS), (get_be_spec _ _ _ _ HN), Nat2N.id, IH by lia. reflexivity.
  - intros d v s1 s2 _ IH1 _ IH2 f r L. unfold byte in *. cbn [String.append String.length] in *. rewrite length_app_s in L.
    destruct f as [|f]; [lia|]. rewrite parse_step. change (shape_of (N_of_ascii (ascii_of_N 0))) with (Some Described).
    cbv beta iota. cbn [many]. rewrite app_assoc_s, IH1 by lia. rewrite IH2 by lia. reflexivity.
  - reflexivity.
  - intros t ts s1 s2 _ IH1 _ IH2 f r L. rewrite length_app_s in L. cbn [List.length many]. rewrite app_assoc_s, IH1 by lia. rewrite IH2 by lia. reflexivity.
Qed.

Lemma decode_encoded t s : encodes t s -> amqp_decode s = Some t.
Proof.
  intros H. unfold amqp_decode. rewrite <- (app_nil_s s) at 2. rewrite (proj1 parse_encodes t s H _ _ (le_n _)). reflexivity.
Qed.

(** ** Nothing is decoded from a part *)

Lemma parse_more : forall f s t r, parse f s = Some (t, r) -> forall g q, f <= g -> parse g (s ++ q) = Some (t, r ++ q).
Proof.
  induction f as [|f IH]; [discriminate|].
  assert (IHa : forall n s ts r, parse_all f n s = Some (ts, r) -> forall g q, f <= g -> parse_all g n (s ++ q) = Some (ts, r ++ q)).
  { induction n as [|n IHn]; intros s ts r H g q L; cbn [many] in *.
    - injection H as <- <-. reflexivity.
    - destruct (parse f s) as [[t s1]|] eqn:E; [|discriminate]. rewrite (IH _ _ _ E g q L).
      destruct (parse_all f n s1) as [[ts1 s2]|] eqn:E1; [|discriminate]. rewrite (IHn _ _ _ E1 g q L). injection H as <- <-. reflexivity. }
  intros s t r H g q L. destruct s as [|c s]; [discriminate|]. destruct g as [|g]; [lia|]. cbn [String.append].
  rewrite parse_step in *. destruct (shape_of (N_of_ascii c)) as [[k h|k h|k a|]|]; [| | | |discriminate].
  - destruct (get_be k s) as [[n r']|] eqn:E; [|discriminate]. rewrite (get_be_more _ _ _ _ q E). injection H as <- <-. reflexivity.
  - destruct (get_be k s) as [[n r']|] eqn:E; [|discriminate]. rewrite (get_be_more _ _ _ _ q E).
    destruct (take n r') as [[x r'']|] eqn:E1; [|discriminate]. rewrite (take_more _ _ _ _ q E1). injection H as <- <-. reflexivity.
  - destruct (get_be k s) as [[n r']|] eqn:E; [|discriminate]. rewrite (get_be_more _ _ _ _ q E).
    destruct (get_be k r') as [[m r1]|] eqn:E1; [|discriminate]. rewrite (get_be_more _ _ _ _ q E1).
    destruct (parse_all f (N.to_nat m) r1) as [[ts r2]|] eqn:E2; [|discriminate].
    rewrite (IHa _ _ _ _ E2 g q ltac:(lia)). injection H as <- <-. reflexivity.
  - destruct (parse_all f 2 s) as [[ts r2]|] eqn:E2; [|discriminate].
    rewrite (IHa _ _ _ _ E2 g q ltac:(lia)). injection H as <- <-. reflexivity.
Qed.

Lemma decode_prefix t p r : encodes t (p ++ r) -> r <> "" -> amqp_decode p = None.
Proof.
  intros H Hr. unfold amqp_decode. destruct (parse (String.length p) p) as [[t' q]|] eqn:E; [|reflexivity].
  destruct q as [|c q]; [|reflexivity]. exfalso.
  pose proof (parse_more _ _ _ _ E (String.length (p ++ r)) r) as E1. rewrite length_app_s in E1 at 1. specialize (E1 ltac:(lia)).
  pose proof (proj1 parse_encodes _ _ H _ "" (le_n _)) as E2. rewrite app_nil_s in E2. rewrite E1 in E2. cbn in E2. congruence.
Qed.

Lemma decode_surplus t s r : encodes t s -> r <> "" -> amqp_decode (s ++ r) = None.
Proof.
  intros H Hr. unfold amqp_decode. rewrite (proj1 parse_encodes t s H) by (rewrite length_app_s; lia). destruct r; [congruence|reflexivity].
Qed.

(** ** The encoder *)

Lemma put_be_spec : forall k n, (n < 256 ^ N.of_nat k)%N -> big_endian k n (put_be k n).
Proof.
  unfold big_endian. induction k as [|k IH]; intros n H.
  - cbn in *. split; [reflexivity|lia].
  - rewrite Nat2N.inj_succ, N.pow_succ_r' in H.
    assert (P : (256 ^ N.of_nat k <> 0)%N) by (apply N.pow_nonzero; lia).
    destruct (IH (n mod 256 ^ N.of_nat k)%N (N.mod_lt _ _ P)) as [L E].
    cbn [put_be String.length number]. rewrite L, E. split; [reflexivity|].
    rewrite N_ascii_embedding by (apply N.div_lt_upper_bound; [exact P|]; lia).
    rewrite N.mul_comm. symmetry. apply N.div_mod. exact P.
Qed.

Lemma put_signed_spec k z : In k [1; 2; 4; 8] -> range (8 * Z.of_nat k) z -> twos_complement k z (put_signed k z).
Proof.
  intros Hk [Hl Hh]. exists (Z.to_N (z mod 256 ^ Z.of_nat k)).
  assert (P : (256 ^ Z.of_nat k = 2 * 2 ^ (8 * Z.of_nat k - 1))%Z) by (cbn [In] in Hk; destruct Hk as [<-|[<-|[<-|[<-|[]]]]]; reflexivity).
  assert (Q : (2 ^ (8 * Z.of_nat k) = 2 * 2 ^ (8 * Z.of_nat k - 1))%Z) by (cbn [In] in Hk; destruct Hk as [<-|[<-|[<-|[<-|[]]]]]; reflexivity).
  assert (R : Z.of_N (256 ^ N.of_nat k) = (256 ^ Z.of_nat k)%Z) by (rewrite N2Z.inj_pow, nat_N_Z; reflexivity).
  pose proof (Z.mod_pos_bound z (256 ^ Z.of_nat k) ltac:(apply Z.pow_pos_nonneg; lia)) as B.
  split.
  - apply put_be_spec. lia.
  - rewrite Z2N.id by lia. rewrite Q, P in *.
    destruct (Z_lt_le_dec z 0) as [N|N].
    + right. split; [lia|]. rewrite <- (Z_mod_plus_full z 1), Z.mod_small; lia.
    + left. split; [lia|]. rewrite Z.mod_small; lia.
Qed.

Lemma unsigned_spec k n : bits (8 * Z.of_nat k) n -> big_endian k n (put_be k n).
Proof.
  intros H. apply put_be_spec. unfold bits in H.
  assert (R : Z.of_N (256 ^ N.of_nat k) = (2 ^ (8 * Z.of_nat k))%Z).
  { rewrite N2Z.inj_pow, nat_N_Z. change (Z.of_N 256) with (2 ^ 8)%Z. rewrite <- Z.pow_mul_r by lia. reflexivity. }
  lia.
Qed.

Lemma small_spec n : (n < 256)%N -> big_endian 1 n (put_be 1 n).
Proof. intros H. apply put_be_spec. exact H. Qed.

Lemma octet_byte n : octet n = byte n.
Proof. reflexivity. Qed.

Lemma text_spec (f : string -> atom) short long x :
  (forall s, text 1 x s -> scalar (f x) short s) -> (forall s, text 4 x s -> scalar (f x) long s) ->
  (N.of_nat (String.length (put_text short long x)) < 2 ^ 32)%N ->
  encodes (Node (f x) []) (put_text short long x).
Proof.
  intros H1 H4. unfold put_text. destruct (N.ltb_spec (N.of_nat (String.length x)) 256) as [L|L]; intros B.
  - apply e_scalar, H1. exists (put_be 1 (N.of_nat (String.length x))). split; [apply small_spec; exact L|reflexivity].
  - apply e_scalar, H4. exists (put_be 4 (N.of_nat (String.length x))). split; [|reflexivity]. apply put_be_spec.
    rewrite !length_app_s in B. change (256 ^ N.of_nat 4)%N with (2 ^ 32)%N. lia.
Qed.

Lemma unsigned_forms (f : N -> atom) short long k n :
  (forall s, big_endian 1 n s -> scalar (f n) short s) -> (forall s, big_endian k n s -> scalar (f n) long s) ->
  bits (8 * Z.of_nat k) n -> encodes (Node (f n) []) (put_unsigned short long k n).
Proof.
  intros H1 H4 B. unfold put_unsigned. destruct (N.ltb_spec n 256) as [L|L]; apply e_scalar.
  - apply H1, small_spec, L.
  - apply H4, unsigned_spec, B.
Qed.
Lemma number_forms (f : Z -> atom) short long k z : In k [1; 2; 4; 8] ->
  (forall s, twos_complement 1 z s -> scalar (f z) short s) -> (forall s, twos_complement k z s -> scalar (f z) long s) ->
  range (8 * Z.of_nat k) z -> encodes (Node (f z) []) (put_number short long k z).
Proof.
  intros Hk H1 H4 B. unfold put_number. destruct (Z.leb_spec (-128) z) as [L|L]; [destruct (Z.ltb_spec z 128) as [M|M]|]; cbn [andb]; apply e_scalar.
  - apply H1, put_signed_spec; [cbn; tauto|]. unfold range. change (2 ^ (8 * Z.of_nat 1 - 1))%Z with 128%Z. lia.
  - apply H4, put_signed_spec; assumption.
  - apply H4, put_signed_spec; assumption.
Qed.

Definition all_of (cs : list tree) : string := fold_right (fun c s => encode_tree c ++ s) "" cs.

Fixpoint tree_rect' (P : tree -> Prop) (H : forall a cs, Forall P cs -> P (Node a cs)) (t : tree) : P t :=
  let '(Node a cs) := t in
  H a cs ((fix go l : Forall P l := match l with [] => Forall_nil P | c :: l' => Forall_cons c (tree_rect' P H c) (go l') end) cs).

Lemma length_in c cs : In c cs -> String.length (encode_tree c) <= String.length (all_of cs).
Proof.
  induction cs as [|d cs IH]; [intros []|]. intros [->|H]; cbn [all_of fold_right]; rewrite length_app_s; [lia|].
  specialize (IH H). unfold all_of in IH. lia.
Qed.

Lemma encode_encodes : forall t, proper t -> (N.of_nat (String.length (encode_tree t)) < 2 ^ 32)%N -> encodes t (encode_tree t).
Proof.
  intros t. induction t as [a cs IH] using tree_rect'. intros HP HL.
  assert (IHa : fold_right (fun c P => proper c /\ P) True cs -> (N.of_nat (String.length (all_of cs)) < 2 ^ 32)%N -> Forall (fun c => encodes c (encode_tree c)) cs).
  { intros HP' HL'. clear HP HL. apply Forall_forall. intros c Hc. apply (proj1 (Forall_forall _ _) IH c Hc).
    - clear -HP' Hc. induction cs as [|d cs IHc]; [destruct Hc|]. destruct HP' as [H1 H2], Hc as [->|Hc]; [exact H1|apply IHc; assumption].
    - pose proof (length_in c cs Hc). lia. }
  assert (IHb : Forall (fun c => encodes c (encode_tree c)) cs -> encode_all cs (all_of cs)).
  { clear. induction cs as [|c cs IHc]; intros H; [constructor|]. inversion_clear H. cbn [all_of fold_right]. constructor; [assumption|apply IHc; assumption]. }
  cbn [proper] in HP. 
  destruct HP as (HR & HS & HC). specialize (IHa HC).
  destruct a; cbn [in_range] in HR; cbn [encode_tree] in HL |- *; try subst cs; try contradiction; rewrite ?octet_byte.
  - change (byte 64) with (byte 64 ++ ""). apply e_scalar. constructor.
  - destruct b; [change (byte 65) with (byte 65 ++ "")|change (byte 66) with (byte 66 ++ "")]; apply e_scalar; constructor.
  - apply e_scalar. constructor. apply (unsigned_spec 1), HR.
  - apply e_scalar. constructor. apply put_signed_spec; [cbn; tauto|exact HR].
  - apply e_scalar. constructor. apply (unsigned_spec 2), HR.
  - apply e_scalar. constructor. apply put_signed_spec; [cbn; tauto|exact HR].
  - apply unsigned_forms; [| |exact HR]; intros; constructor; assumption.
  - apply number_forms; [cbn; tauto| | |exact HR]; intros; constructor; assumption.
  - apply e_scalar. constructor. apply (unsigned_spec 4), HR.
  - apply unsigned_forms; [| |exact HR]; intros; constructor; assumption.
  - apply number_forms; [cbn; tauto| | |exact HR]; intros; constructor; assumption.
  - apply e_scalar. constructor. apply put_signed_spec; [cbn; tauto|exact HR].
  - apply e_scalar. constructor. apply (unsigned_spec 4), HR.
  - apply e_scalar. constructor. apply (unsigned_spec 8), HR.
  - apply e_scalar. constructor. apply (unsigned_spec 4), HR.
  - apply e_scalar. constructor. apply (unsigned_spec 8), HR.
  - apply e_scalar. constructor. apply (unsigned_spec 16), HR.
  - apply e_scalar. constructor. apply (unsigned_spec 16), HR.
  - apply text_spec; [| |exact HL]; intros; constructor; assumption.
  - apply text_spec; [| |exact HL]; intros; constructor; assumption.
  - apply text_spec; [| |exact HL]; intros; constructor; assumption.
  - fold (all_of cs) in *. destruct cs as [|d [|v [|? ?]]]; try discriminate HS. cbn [all_of fold_right] in *. rewrite app_nil_s in *.
    rewrite !length_app_s in HL. rewrite !length_app_s in IHa.
    assert (HA : Forall (fun c => encodes c (encode_tree c)) [d; v]) by (apply IHa; lia).
    inversion_clear HA as [|? ? H1 HA']. inversion_clear HA' as [|? ? H2 _]. apply e_described; assumption.
  - fold (all_of cs) in *. destruct cs as [|c0 cs0]; [exact e_list0|]. remember (c0 :: cs0) as cs eqn:Ecs. clear Ecs c0 cs0.
    unfold put_compound in *. rewrite ?octet_byte in *. rewrite !length_app_s in HL.
    assert (LP : forall k n, String.length (put_be k n) = k) by (clear; induction k as [|k IHk]; intros n; cbn [put_be String.length]; [|rewrite IHk]; reflexivity).
    rewrite !LP in HL.
    assert (HA := IHb (IHa ltac:(lia))).
    assert (LC : List.length cs <= String.length (all_of cs)).
    { clear -HA. revert HA. generalize (all_of cs). intros s H. induction H as [|t ts s1 s2 H1 H2 IH2]; cbn [List.length String.length]; [lia|].
      rewrite length_app_s. assert (1 <= String.length s1) by (destruct H1; cbn; lia). lia. }
    apply (e_compound AList 0xd0 4); [constructor|exact HA| |]; apply put_be_spec; change (256 ^ N.of_nat 4)%N with (2 ^ 32)%N; lia.
  - fold (all_of cs) in *. unfold put_compound in *. rewrite ?octet_byte in *. rewrite !length_app_s in HL.
    assert (LP : forall k n, String.length (put_be k n) = k) by (clear; induction k as [|k IHk]; intros n; cbn [put_be String.length]; [|rewrite IHk]; reflexivity).
    rewrite !LP in HL.
    assert (HA := IHb (IHa ltac:(lia))).
    assert (LC : List.length cs <= String.length (all_of cs)).
    { clear -HA. revert HA. generalize (all_of cs). intros s H. induction H as [|t ts s1 s2 H1 H2 IH2]; cbn [List.length String.length]; [lia|].
      rewrite length_app_s. assert (1 <= String.length s1) by (destruct H1; cbn; lia). lia. }
    apply (e_compound AMap 0xd1 4); [constructor|exact HA| |]; apply put_be_spec; change (256 ^ N.of_nat 4)%N with (2 ^ 32)%N; lia.
Qed.
