(** Proofs about printing the schema section. *)
From Coq Require Import Lia.
From Verif Require Import Base Proton TypeNames SpecTypes TypeNamesProofs Schema ProtonProofs Descriptors SpecDescriptors
  DescriptorsProofs Readers SchemaDump DeserialiseProofs.
Import List ListNotations.
Open Scope string_scope.

(** ** Termination of the type inference *)

Lemma substr_first s n : substr s 0 n = Ret (substring 0 n s).
Proof. reflexivity. Qed.
Lemma find_last_lt c s n : find_last c s = Some n -> n < String.length s.
Proof.
  revert n. induction s as [|d s IH]; simpl; intros n H; [discriminate|].
  destruct (find_last c s) as [m|]; [injection H as <-; specialize (IH m eq_refl); lia|].
  destruct (Ascii.eqb c d); [injection H as <-; lia|discriminate].
Qed.
Lemma find_last_app c x y n : find_last c y = Some n -> find_last c (x ++ y) = Some (String.length x + n).
Proof. intros H. induction x as [|d x IH]; simpl; [exact H|]. now rewrite IH. Qed.
Lemma find_last_array s : isArray s = Ret true -> exists n, find_last "[" s = Some n /\ n < String.length s.
Proof.
  intros H. destruct (isArray_spec s) as [[E _]|[[_ [[p ->]|[p ->]]]|[E _]]]; try congruence.
  - eexists. split; [apply find_last_app; reflexivity|]. rewrite length_app_s. simpl. lia.
  - eexists. split; [apply find_last_app; reflexivity|]. rewrite length_app_s. simpl. lia.
Qed.

Lemma isContainer_star : isContainer "*" = Ret false.
Proof. reflexivity. Qed.

Lemma infer_fuel : forall fuel t rq ai,
  (t <> "*" -> String.length t < fuel) -> (t = "*" -> String.length rq < fuel) -> infer fuel t rq ai <> NoFuel.
Proof.
  assert (HC : forall s, isContainer s <> NoFuel).
  { intros s. unfold isContainer. destruct (isArray_spec s) as [[-> _]|[[-> _]|[-> _]]]; discriminate. }
  assert (HR : forall t, isContainer t = Ret true -> t <> "*") by (intros t H ->; discriminate H).
  induction fuel as [|fuel IH]; intros t rq ai H1 H2.
  { destruct (String.eqb_spec t "*") as [E|E]; [specialize (H2 E)|specialize (H1 E)]; lia. }
  cbn [infer]. set (ty := if String.eqb t "*" then rq else t).
  assert (Hl : String.length ty < S fuel).
  { unfold ty. destruct (String.eqb_spec t "*") as [E|E]; auto. }
  clearbody ty. clear H1 H2.
  destruct (isArray_spec ty) as [[-> _]|[[Ha _]|[Ha _]]]; [discriminate| |]; rewrite Ha; cbn [rbind].
  - destruct (find_last_array ty Ha) as (n & Hn & Hlt). rewrite Hn, substr_first. cbn [rbind].
    specialize (HC (substring 0 n ty)). specialize (HR (substring 0 n ty)).
    destruct (isContainer (substring 0 n ty)) as [[]| | | |]; try discriminate; [|congruence]. cbn [rbind].
    assert (substring 0 n ty <> "*") by auto.
    pose proof (substring_length_le ty 0 n).
    assert (HI := IH (substring 0 n ty) rq (deeper ai) ltac:(intros _; lia) ltac:(intros E; congruence)).
    destruct (infer fuel (substring 0 n ty) rq (deeper ai)); cbn [rbind]; congruence.
  - destruct (isList ty) eqn:EL.
    + destruct (listType_cases ty) as (a & b & -> & Hb). cbn [rbind].
      assert (Hne : ty <> "") by (intros ->; discriminate EL). specialize (Hb Hne).
      specialize (HC b). specialize (HR b).
      destruct (isContainer b) as [[]| | | |]; try discriminate; [|congruence]. cbn [rbind].
      assert (b <> "*") by auto.
      assert (HI := IH b rq (deeper ai) ltac:(intros _; lia) ltac:(intros E; congruence)).
      destruct (infer fuel b rq (deeper ai)); cbn [rbind]; congruence.
    + destruct (isMap ty); [|discriminate].
      destruct (mapType_cases ty) as [(a & k & v & -> & _ & Hv)| ->]; cbn [rbind]; [|discriminate].
      specialize (HC v). specialize (HR v).
      destruct (isContainer v) as [[]| | | |]; try discriminate; [|congruence]. cbn [rbind].
      assert (v <> "*") by auto.
      assert (HI := IH v rq (deeper ai) ltac:(intros _; lia) ltac:(intros E; congruence)).
      destruct (infer fuel v rq (deeper ai)); cbn [rbind]; congruence.
Qed.
Lemma inferType_fuel t rq ai : inferType t rq ai <> NoFuel.
Proof. apply infer_fuel; intros; lia. Qed.

(** ** Levels *)

Lemma by_type_restoring n rec ai : (forall ai, restoring n (rec ai)) -> restoring n (by_type rec ai).
Proof.
  intros H d Hb Ha. unfold by_type. specialize (H ai d Hb Ha). destruct (pn_dtype d); auto.
Qed.
Lemma described_at d : pn_dtype d = TDescribed -> isAt d.
Proof. destruct d as [[cs|l t r] u]; [discriminate|intros; exact I]. Qed.
Lemma by_type_probing n rec ai : (forall ai, restoring n (rec ai)) -> probing n (by_type rec ai).
Proof.
  intros H d Hb. unfold by_type. destruct (pn_dtype d) eqn:E; auto.
  specialize (H ai d (below_belowc _ _ Hb) (described_at d E)). destruct (rec ai d); auto; subst; split;
    auto using same_level_refl. now apply described_at.
Qed.
Lemma attest_list_probing n : probing n attest_is_list.
Proof. apply require_probing. discriminate. Qed.
Lemma attest_described_probing n : probing n attest_is_described.
Proof. apply require_probing. discriminate. Qed.
Lemma attest_string_steady n b : steady n (attest_is_string b).
Proof. intros d _ Ha. unfold attest_is_string. destruct (negb _); [destruct (_ && _)|]; auto using same_level_refl. Qed.
Lemma attest_string_loose_bind {A} n b (m : PM A) : probing n m -> loose n (attest_is_string b ;; m).
Proof.
  intros H d Hb. unfold bind, attest_is_string. specialize (H d Hb).
  destruct (negb _); [destruct (_ && _); [auto using same_level_refl|]|]; destruct (m d); intuition.
Qed.
Lemma steady_restoring_bind {A B} n (m : PM A) (f : A -> PM B) :
  restoring n m -> (forall a, steady n (f a)) -> steady n (bind m f).
Proof. intros. apply steady_bind; [now apply restoring_steady|assumption]. Qed.
Lemma next_loose {A} n (m : PM A) : loose n m -> loose n (next_ ;; m).
Proof.
  intros H d Hb. unfold bind. cbn [next_]. specialize (H _ (same_level_below _ _ _ (next_same d) Hb)).
  destruct (m (pn_next d)); auto; eapply same_level_trans; eauto using next_same.
Qed.
Lemma loose_map {A B} n (m : PM A) (f : A -> PM B) :
  loose n m -> (forall a d, exists b, f a d = Ok b d) -> loose n (bind m f).
Proof.
  intros H Hf d Hb. unfold bind. specialize (H d Hb). destruct (m d) as [a d'|e d'| | |]; auto.
  destruct (Hf a d') as [b ->]. exact H.
Qed.
Lemma auto_list_first_restoring {A} n (m : nat -> PM A) : (forall k, n <> 0 -> steady (n - 1) (m (S k))) ->
  (n <> 0 -> loose (n - 1) (m 0)) -> restoring n (auto_list_enter true m).
Proof.
  intros H H0 d Hb Ha. unfold auto_list_enter, finally. set (d1 := pn_next (pn_enter d)).
  assert (Hs : same_level (pn_enter d) d1) by apply next_same.
  destruct (enter_below n d Ha Hb) as [Hn Hb'].
  pose proof (same_level_below _ _ _ Hs Hb') as Hb1.
  destruct (pn_get_list d) as [|k] eqn:E.
  - specialize (H0 Hn d1 Hb1). destruct (m 0 d1); auto; apply enter_exit; auto; eapply same_level_trans; eauto.
  - assert (Ha1 : isAt d1).
    { unfold d1. destruct d as [[cs|l [[] [|c cs]] r] u]; try discriminate E. exact I. }
    specialize (H k Hn d1 Hb1 Ha1). destruct (m (S k) d1); auto; apply enter_exit; auto; eapply same_level_trans; intuition eauto.
Qed.
Lemma lift_loose {A} n (m : res A) : m <> NoFuel -> loose n (lift m).
Proof. intros H d Hb. destruct m; cbn; auto using same_level_refl. Qed.

Section Levels.
  Variable type_name : pn_type -> string.
  Variable F : nat.
  Variable rec : string -> PM string.
  Hypothesis rec_restoring : forall k ai, k < F -> restoring k (rec ai).

  Ltac sd := first
    [ match goal with |- steady _ (let '(_, _) := ?p in _) => destruct p end
    | apply steady_bind; [|intros ?]
    | apply probing_steady; first [apply get_string_probing | apply get_symbol_probing | apply get_boolean_probing
        | apply attest_list_probing | apply attest_described_probing | apply readAndNext_string_probing | apply by_type_probing; intros; apply rec_restoring; lia ]
    | apply attest_string_steady
    | apply next_steady
    | apply ret_steady
    | apply auto_next_steady
    | apply restoring_steady; apply by_type_restoring; intros; apply rec_restoring; lia ].
  Ltac strings := apply restoring_steady, auto_list_enter_restoring; intros _ ?; apply while_next_loose; intros acc;
    apply restoring_bind; [apply get_string_restoring|]; intros ?; apply ret_restoring.

  Ltac loop := apply while_next_loose; intros acc;
    apply restoring_bind; [apply get_string_restoring|]; intros ?; apply ret_restoring.

  Lemma raw_envelope_steady k ai : k <= F -> steady k (raw_envelope rec ai).
  Proof.
    intros Hk. sd; [sd|]. apply restoring_steady, auto_enter_restoring. intros Hn. apply loose_bind.
    - apply auto_next_probing, by_type_probing. intros. apply rec_restoring. lia.
    - intros t. repeat sd.
  Qed.
  Lemma raw_object_steady k ai : k <= F -> steady k (raw_object type_name ai).
  Proof.
    intros Hk. sd; [sd|]. apply restoring_steady, auto_list_enter_restoring. intros ? Hn.
    apply next_loose, loose_bind; [apply auto_next_probing, get_symbol_probing|].
    intros s d _ Ha. auto using same_level_refl.
  Qed.
  Lemma raw_field_steady k ai : k <= F -> steady k (raw_field ai).
  Proof.
    intros Hk. sd; [sd|]. apply restoring_steady, auto_list_enter_restoring. intros ? Hn.
    apply loose_bind; [apply auto_next_probing, get_string_probing|]. intros name.
    repeat sd. apply restoring_steady, auto_list_enter_restoring. intros q Hn2.
    apply loose_map; [|intros; eexists; reflexivity]. loop.
  Qed.
  Lemma raw_composite_steady k ai : k <= F -> steady k (raw_composite rec ai).
  Proof.
    intros Hk. sd; [sd|]. apply restoring_steady, auto_enter_restoring. intros Hn.
    apply attest_string_loose_bind, probing_bind; [apply readAndNext_string_probing|]. intros name.
    do 3 (sd; [sd|]). sd; [strings|]. repeat sd. apply restoring_steady, auto_list_enter_restoring. intros ? Hn2.
    apply while_next_loose. intros [i acc]. apply restoring_bind; [|intros; apply ret_restoring].
    apply by_type_restoring. intros. apply rec_restoring. lia.
  Qed.
  Lemma raw_restricted_steady k ai : k <= F -> steady k (raw_restricted rec ai).
  Proof.
    intros Hk. sd; [sd|]. apply restoring_steady, auto_enter_restoring. intros Hn.
    apply loose_bind; [apply readAndNext_string_probing|]. intros name.
    sd; [sd|]. sd; [strings|]. repeat sd.
  Qed.
  Lemma raw_schema_steady k ai : k <= F -> steady k (raw_schema rec ai).
  Proof.
    intros Hk. sd; [sd|]. apply restoring_steady, auto_list_enter_restoring. intros n Hn.
    apply loose_map; [|intros [] d; eexists; reflexivity].
    apply while_next_loose. intros [i acc]. apply restoring_bind; [apply require_restoring|]. intros _.
    apply restoring_bind; [|intros; apply ret_restoring]. apply auto_list_enter_restoring. intros m Hn2.
    apply loose_map; [|intros [] d; eexists; reflexivity].
    apply while_next_loose. intros [j acc2]. apply restoring_bind; [|intros; apply ret_restoring].
    apply by_type_restoring. intros. apply rec_restoring. lia.
  Qed.

  Lemma avro_envelope_steady k ai : k <= F -> steady k (avro_envelope rec ai).
  Proof.
    intros Hk. sd; [sd|]. apply restoring_steady, auto_enter_restoring. intros Hn.
    apply probing_loose, auto_next_probing, by_type_probing. intros. apply rec_restoring. lia.
  Qed.
  Lemma avro_object_steady k ai : k <= F -> steady k (avro_object ai).
  Proof.
    intros Hk. sd; [sd|]. apply restoring_steady, auto_list_enter_restoring. intros ? Hn.
    apply next_loose, loose_bind; [apply auto_next_probing, get_symbol_probing|].
    intros s. sd.
  Qed.
  Lemma avro_type_steady k ai : k <= F -> steady k (avro_type ai).
  Proof.
    intros Hk. sd; [repeat sd|]. apply restoring_steady, auto_list_enter_restoring. intros ? Hn.
    destruct (Nat.ltb 0 k0).
    - apply loose_bind; [apply get_string_probing|]. intros s. apply restoring_steady, lift_restoring, inferType_fuel.
    - apply lift_loose, inferType_fuel.
  Qed.
  Lemma avro_field_steady k ai : k <= F -> steady k (avro_field ai).
  Proof.
    intros Hk. sd; [sd|]. apply restoring_steady, auto_list_enter_restoring. intros ? Hn.
    apply loose_bind; [apply auto_next_probing, get_string_probing|]. intros name.
    sd; [apply avro_type_steady; lia|sd].
  Qed.
  Lemma avro_composite_steady k ai : k <= F -> steady k (avro_composite rec ai).
  Proof.
    intros Hk. sd; [sd|]. apply restoring_steady, auto_enter_restoring. intros Hn.
    apply attest_string_loose_bind, probing_bind; [apply readAndNext_string_probing|]. intros name.
    sd.
    { apply restoring_steady, lift_restoring. destruct (find_last "." name) as [n|] eqn:E; [|discriminate].
      unfold substr. destruct (Nat.leb _ _); discriminate. }
    repeat sd. apply restoring_steady, auto_list_enter_restoring. intros ? Hn2.
    apply while_next_loose. intros [i acc]. apply restoring_bind; [|intros; apply ret_restoring].
    apply by_type_restoring. intros. apply rec_restoring. lia.
  Qed.
  Lemma avro_schema_steady k ai : k <= F -> steady k (avro_schema rec ai).
  Proof.
    intros Hk. sd; [sd|]. apply restoring_steady, auto_list_first_restoring; [intros n Hn|intros Hn].
    - sd; [intros d _ Ha; destruct (Nat.eqb (S n) 1); auto using same_level_refl|].
      apply restoring_steady, auto_list_enter_restoring. intros m Hn2.
      apply loose_map; [|intros [] d; eexists; reflexivity].
      apply while_next_loose. intros [j acc2]. apply restoring_bind; [|intros; apply ret_restoring].
      apply by_type_restoring. intros. apply rec_restoring. lia.
    - intros d _. exact I.
  Qed.

  Lemma raw_of_steady k kind ai : k < F -> steady k (raw_of type_name rec kind ai).
  Proof.
    intros Hk. destruct kind; cbn [raw_of]; auto using raw_envelope_steady, raw_object_steady, raw_field_steady,
      raw_composite_steady, raw_restricted_steady, raw_schema_steady, Nat.lt_le_incl; apply restoring_steady, rec_restoring; assumption.
  Qed.
  Lemma avro_of_steady k kind ai : k < F -> steady k (avro_of rec kind ai).
  Proof.
    intros Hk. destruct kind; cbn [avro_of]; auto using avro_envelope_steady, avro_object_steady, avro_field_steady,
      avro_composite_steady, avro_schema_steady, Nat.lt_le_incl; try (apply restoring_steady, rec_restoring; assumption).
    apply ret_steady.
  Qed.
End Levels.

Lemma described_restoring {A} k (named : N -> PM A) (blob : data -> A) : (forall key, steady (k - 1) (named key)) ->
  k <> 0 -> loose (k - 1) (fun d =>
    match pn_dtype d with
    | TULong => (let! key := readAndNext_ulong in named key) d
    | TSymbol => Ok (blob d) d
    | _ => Throw RuntimeError d
    end).
Proof.
  intros H Hk d Hb. destruct (pn_dtype d) eqn:E; auto using same_level_refl.
  assert (Ha : isAt d) by (destruct d as [[cs|l t r] u]; [discriminate|exact I]).
  pose proof (steady_bind (k - 1) readAndNext_ulong named (read_raw_steady _ _) H d Hb Ha) as HS.
  destruct ((let! key := readAndNext_ulong in named key) d); intuition.
Qed.

Lemma readRaw_levels tn : forall F k ai, k < F -> restoring k (readRaw tn F ai).
Proof.
  induction F as [|F IH]; intros k ai Hk; [lia|]. cbn [readRaw].
  apply restoring_bind; [|intros; apply ret_restoring]. apply auto_enter_restoring. intros Hn.
  apply described_restoring; auto. intros key.
  apply steady_bind; [apply probing_steady, attest_list_probing|]. intros _ d Hb Ha.
  destruct (registered key) as [desc|]; [|exact I].
  refine (steady_bind (k - 1) _ _ _ _ d Hb Ha); [|intros; apply ret_steady].
  apply raw_of_steady with (F := F); [|lia]. intros j ai' Hj. apply IH; lia.
Qed.
Lemma readAvro_levels : forall F k ai, k < F -> restoring k (readAvro F ai).
Proof.
  induction F as [|F IH]; intros k ai Hk; [lia|]. cbn [readAvro].
  apply auto_enter_restoring. intros Hn.
  apply described_restoring; auto. intros key.
  apply steady_bind; [apply probing_steady, attest_list_probing|]. intros _.
  destruct (registered key) as [desc|]; [|apply probing_steady, ub_any].
  apply avro_of_steady with (F := F); [|lia]. intros j ai' Hj. apply IH; lia.
Qed.

Lemma dumpSchema_keeps tn : forall fuel target d, heights (forest d) <= fuel ->
  match dumpSchema tn fuel target d with
  | Ok _ d' | Throw _ d' => d' = d
  | Fuel => False
  | _ => True
  end.
Proof.
  intros fuel target d Hf. unfold dumpSchema. destruct (is_described d) eqn:E; [|reflexivity].
  assert (Ha : isAt d) by (destruct d as [[cs|l t r] u]; [discriminate|exact I]).
  assert (Hb : belowc (heights (forest d)) d) by (now apply forest_belowc).
  destruct target; [|reflexivity|].
  - exact (readRaw_levels tn (S fuel) _ "" (le_n_S _ _ Hf) d Hb Ha).
  - exact (readAvro_levels (S fuel) _ "" (le_n_S _ _ Hf) d Hb Ha).
Qed.

Theorem dumpSchema_malformed : forall tn fuel target d, target <> ToAmqp ->
  is_described d = false \/ (exists l a body cs r u, d = Data (At l (Node ADescribed (Node a body :: cs)) r) u /\
                             atom_type a <> TULong /\ atom_type a <> TSymbol) ->
  exists e, dumpSchema tn fuel target d = Throw e d.
Proof.
  intros tn fuel target d Ht H. unfold dumpSchema. destruct H as [-> |(l & a & body & cs & r & u & -> & H1 & H2)]; [eauto|].
  exists RuntimeError. change (is_described _) with true. cbn iota.
  destruct target; [|congruence|]; cbn [readRaw readAvro]; unfold raw_described, avro_described, bind;
    unfold auto_enter, finally; cbn [w_enter pn_enter here pn_next ups]; unfold pn_dtype; cbn [here];
    destruct (atom_type a); reflexivity || congruence.
Qed.
Theorem dumpSchema_amqp : forall tn fuel d, is_described d = true -> dumpSchema tn fuel ToAmqp d = Ok "" d.
Proof. intros tn fuel d H. unfold dumpSchema. now rewrite H. Qed.
