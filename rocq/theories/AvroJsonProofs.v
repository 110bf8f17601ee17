(** Which Avro dumps are JSON texts. *)
From Coq Require Import Lia.
From Verif Require Import Base Proton ProtonProofs TypeNames SpecTypes TypeNamesProofs Schema Descriptors SpecDescriptors
  DescriptorsProofs Readers SchemaDump SchemaDumpProofs RawSchemaProofs SpecSchemaDump SpecJson JsonProofs SpecAvro AvroProofs.
Import List ListNotations.
Open Scope string_scope.

(** ** Texts that are JSON *)
Lemma list_ascii_app a b : list_ascii_of_string (a ++ b) = (list_ascii_of_string a ++ list_ascii_of_string b)%list.
Proof. induction a as [|c a IH]; simpl; [reflexivity|]. now rewrite IH. Qed.
Lemma substring_whole s : forall n, String.length s <= n -> substring 0 n s = s.
Proof. induction s as [|c s IH]; intros [|n] H; simpl in *; auto; [lia|]. f_equal. apply IH. lia. Qed.
Lemma space_app a b : space a -> space b -> space (a ++ b).
Proof. unfold space. intros Ha Hb. rewrite list_ascii_app. apply Forall_app. auto. Qed.
Lemma space_nil : space "". Proof. constructor. Qed.
Lemma space_nl : space nl. Proof. constructor; [right; right; left; reflexivity|constructor]. Qed.
Lemma space_blank : space " ". Proof. constructor; [left; reflexivity|constructor]. Qed.
Lemma space_deeper ai : space ai -> space (deeper ai).
Proof. intros H. unfold deeper. apply space_app; [exact H|]. repeat constructor. Qed.
Global Hint Resolve space_app space_nil space_nl space_blank space_deeper : spaces.

Lemma tame_chars s : tame s -> chars_text s s.
Proof. unfold tame. induction s as [|c s IH]; cbn; intros H; [constructor|]. inversion H; subst. constructor; auto. Qed.
Lemma tame_text s : tame s -> string_text s (quote ++ s ++ quote).
Proof. intros H. exists s. split; [reflexivity|]. now apply tame_chars. Qed.
Lemma tame_value s : tame s -> value_text (JString s) (quote ++ s ++ quote).
Proof. intros H. constructor. now apply tame_text. Qed.

Lemma conv {A} (P : A -> Prop) a b : P a -> a = b -> P b.
Proof. now intros ? <-. Qed.
Lemma member_more k v w1 t w4 l ts : space w1 -> tame k -> value_text v t -> space w4 -> members_text l ts ->
  members_text ((k, v) :: l) (w1 ++ quote ++ k ++ quote ++ " : " ++ t ++ w4 ++ "," ++ ts).
Proof.
  intros. eapply (conv (members_text _)).
  - apply (MMore k v w1 (quote ++ k ++ quote) " " " " t w4 l ts); auto with spaces. now apply tame_text.
  - rewrite !app_assoc_s. reflexivity.
Qed.
Lemma member_last k v w1 t w4 : space w1 -> tame k -> value_text v t -> space w4 ->
  members_text [(k, v)] (w1 ++ quote ++ k ++ quote ++ " : " ++ t ++ w4).
Proof.
  intros. eapply (conv (members_text _)).
  - apply (MLast k v w1 (quote ++ k ++ quote) " " " " t w4); auto with spaces. now apply tame_text.
  - rewrite !app_assoc_s. reflexivity.
Qed.
Ltac tm := repeat constructor; discriminate || (cbn; lia).

Lemma single_array t : single t -> isArray t = Ret false.
Proof.
  intros (_ & _ & H1 & H2 & H3). destruct (isArray_spec t) as [[_ [K|[K|K]]]|[[_ K]|[K _]]]; tauto.
Qed.
Lemma infer_single w ai : single (property_type w) ->
  inferType (w_type w) (first (w_requires w)) ai
  = Ret (ai ++ quote ++ "type" ++ quote ++ " : " ++ quote ++ property_type w ++ quote ++ nl).
Proof.
  intros H. unfold inferType. cbn [infer].
  replace (if String.eqb (w_type w) "*" then first (w_requires w) else w_type w) with (property_type w) by reflexivity.
  rewrite (single_array _ H). cbn [rbind]. destruct H as (H1 & H2 & _).
  unfold isList, isMap. rewrite (not_starts_with _ _ H1), (not_starts_with _ _ H2). reflexivity.
Qed.

Lemma property_is_json ai w : space ai -> simple_property w ->
  exists t, field_avro ai w = Ret (ai ++ t) /\ value_text (property_json w) t.
Proof.
  intros Ha (Hn & Ht & Hs). unfold field_avro. rewrite (infer_single w (deeper ai) Hs). cbn [rbind].
  eexists. split; [reflexivity|]. unfold property_json.
  eapply (conv (value_text _)).
  - apply VObject. apply (member_more "name" (JString (w_name w)) (nl ++ deeper ai) (quote ++ w_name w ++ quote) ""); auto with spaces; [tm|now apply tame_value|].
    apply (member_last "type" (JString (property_type w)) (" " ++ nl ++ deeper ai) (quote ++ property_type w ++ quote) (nl ++ ai)); auto with spaces; [tm|now apply tame_value].
  - rewrite !app_assoc_s. reflexivity.
Qed.

Lemma properties_are_json ai ws : space ai -> Forall simple_property ws -> forall n i, i + length ws = S n -> ws <> [] ->
  exists s, sequence (field_avro ai) (fun i _ => if Nat.ltb i n then "," ++ nl else nl) i ws = Ret s /\
    forall w w', space w -> space w' -> elements_text (map property_json ws) (w ++ s ++ w').
Proof.
  intros Ha HF n. induction HF as [|x ws Hx HF IH]; intros i Hi Hne; [congruence|]. cbn [sequence map].
  destruct (property_is_json ai x Ha Hx) as (t & -> & Ht). cbn [rbind].
  destruct ws as [|y ws].
  - cbn [sequence rbind map]. simpl in Hi. destruct (Nat.ltb_spec i n); [lia|].
    eexists. split; [reflexivity|]. intros w w' Hw Hw'. rewrite app_nil_r_s.
    eapply (conv (elements_text _)); [apply (ELast (property_json x) (w ++ ai) t (nl ++ w')); auto with spaces|].
    rewrite !app_assoc_s. reflexivity.
  - destruct (IH (S i) ltac:(simpl in *; lia) ltac:(discriminate)) as (s & Es & Hs). rewrite Es. cbn [rbind].
    simpl in Hi. destruct (Nat.ltb_spec i n); [|lia].
    eexists. split; [reflexivity|]. intros w w' Hw Hw'.
    eapply (conv (elements_text _)).
    + apply (EMore (property_json x) (w ++ ai) t "" (map property_json (y :: ws)) (nl ++ s ++ w')); auto with spaces.
    + rewrite !app_assoc_s. reflexivity.
Qed.

(** *** Names *)
Lemma find_last_none c s : find_last c s = None -> ~ has c s.
Proof.
  unfold has. induction s as [|x s IH]; simpl; [tauto|]. destruct (find_last c s); [discriminate|].
  destruct (Ascii.eqb_spec c x) as [-> |N]; [discriminate|]. intros _ [-> |K]; [now apply N|now apply IH].
Qed.
Lemma has_find_last c s : has c s -> exists n, find_last c s = Some n.
Proof. intros H. destruct (find_last c s) eqn:E; [eauto|]. now apply find_last_none in E. Qed.
Lemma find_last_split c s n : find_last c s = Some n ->
  exists a b, s = a ++ String c b /\ String.length a = n /\ ~ has c b.
Proof.
  revert n. induction s as [|x s IH]; simpl; intros n H; [discriminate|].
  destruct (find_last c s) as [m|] eqn:E.
  - injection H as <-. destruct (IH m eq_refl) as (a & b & -> & Hl & Hb). exists (String x a), b. simpl. auto.
  - destruct (Ascii.eqb_spec c x) as [-> |N]; [|discriminate]. injection H as <-. exists "", s. simpl. repeat split; auto.
    now apply find_last_none.
Qed.
Lemma names_of_dotted full : has "." full -> exists name package,
  names_of full = Ret (name, package) /\ qualified full package name.
Proof.
  intros H. apply has_find_last in H as [n E]. destruct (find_last_split _ _ _ E) as (a & b & -> & Hl & Hb).
  exists b, a. split; [|split; [reflexivity|exact Hb]]. unfold names_of. rewrite E. subst n.
  unfold substr. rewrite length_app_s. simpl String.length.
  destruct (Nat.leb_spec (String.length a + 1) (String.length a + S (String.length b))); [|lia].
  destruct (Nat.leb_spec 0 (String.length a + S (String.length b))); [|lia]. cbn [rbind]. do 2 f_equal.
  - replace (a ++ String "." b) with ((a ++ ".") ++ b) by (rewrite app_assoc_s; reflexivity).
    replace (String.length a + 1) with (String.length (a ++ ".")) by (rewrite length_app_s; reflexivity).
    rewrite substring_skip. apply substring_whole. lia.
  - apply substring_0_app.
Qed.

Lemma tame_app a b : tame (a ++ b) <-> tame a /\ tame b.
Proof. unfold tame. rewrite list_ascii_app. apply Forall_app. Qed.
Lemma value_json v t : value_text v t -> json_text v t.
Proof. intros H. exists "", t, "". rewrite app_nil_r_s. auto with spaces. Qed.

Lemma record_is_json ai c : space ai -> simple_class c -> has "." (wc_name c) ->
  exists t package name, class_avro ai c = Ret t /\ qualified (wc_name c) package name /\
    value_text (record_json package name c) t.
Proof.
  intros Ha (Hn & Hf & Hp) Hd. unfold class_avro. destruct (names_of_dotted _ Hd) as (name & package & -> & Hq). cbn [rbind].
  assert (Ht : tame package /\ tame name).
  { destruct Hq as [E _]. rewrite E in Hn. apply tame_app in Hn as [H1 H2]. apply tame_app in H2 as [_ H2]. auto. }
  destruct Ht as [Ht1 Ht2].
  set (after := fun (i : nat) (_ : string) => if Nat.ltb i (length (wc_fields c)) then "," ++ nl else nl).
  set (ai2 := deeper (deeper ai)).
  assert (K : exists s, sequence (field_avro ai2) after 1 (wc_fields c) = Ret s /\
            forall w', space w' -> value_text (JArray (map property_json (wc_fields c))) ("[" ++ nl ++ s ++ w' ++ "]")).
  { destruct (wc_fields c) as [|f fs] eqn:E.
    - exists "". split; [reflexivity|]. intros w' Hw. eapply (conv (value_text _)); [apply (VEmptyArray (nl ++ w')); auto with spaces|].
      rewrite !app_assoc_s. reflexivity.
    - destruct (properties_are_json ai2 (f :: fs) ltac:(unfold ai2; auto with spaces) Hp (length (f :: fs)) 1 eq_refl ltac:(discriminate)) as (s & Es & Hs).
      exists s. split; [exact Es|]. intros w' Hw. eapply (conv (value_text _)); [apply VArray, (Hs nl w'); auto with spaces|].
      rewrite !app_assoc_s. reflexivity. }
  destruct K as (s & -> & Hs). cbn [rbind].
  eexists _, package, name. split; [reflexivity|]. split; [exact Hq|]. unfold record_json.
  eapply (conv (value_text _)).
  - apply VObject.
    apply (member_more "type" (JString "record") (nl ++ deeper ai) (quote ++ "record" ++ quote) ""); auto with spaces; [tm|apply tame_value; tm|].
    apply (member_more "name" (JString name) (nl ++ deeper ai) (quote ++ name ++ quote) ""); auto with spaces; [tm|now apply tame_value|].
    apply (member_more "namespace" (JString package) (nl ++ deeper ai) (quote ++ package ++ quote) ""); auto with spaces; [tm|now apply tame_value|].
    apply (member_more "aliases" (JArray [JString (wc_fingerprint c)]) (nl ++ deeper ai) ("[" ++ (" " ++ (quote ++ wc_fingerprint c ++ quote) ++ " ") ++ "]") ""); auto with spaces; [tm| |].
    + apply VArray, ELast; auto with spaces. now apply tame_value.
    + apply (member_last "fields" (JArray (map property_json (wc_fields c))) (nl ++ deeper ai) ("[" ++ nl ++ s ++ deeper ai ++ "]") nl); auto with spaces. tm.
  - rewrite !app_assoc_s. reflexivity.
Qed.

Lemma type_listing g : Forall (fun t => match t with WClass c => simple_class c /\ has "." (wc_name c) | WContainer _ => True end) g ->
  forall n i, i + length g = S n -> exists s, sequence (type_avro "") (after_type n) i g = Ret s /\ listing g s.
Proof.
  induction 1 as [|t g Ht Hg IH]; intros n i Hi.
  - exists "". split; [reflexivity|constructor].
  - cbn [sequence]. destruct (IH n (S i)) as (s & Es & Hs); [simpl in Hi; lia|]. rewrite Es. destruct t as [c|r].
    + destruct Ht as [Hc Hd]. destruct (record_is_json "" c space_nil Hc Hd) as (t & package & name & Et & Hq & Hv).
      cbn [type_avro]. rewrite Et. cbn [rbind]. eexists. split; [reflexivity|].
      assert (D : describes t c) by (exists package, name; split; [exact Hq|now apply value_json]).
      assert (En : String.eqb t "" = false) by (inversion Hv; reflexivity). unfold after_type. rewrite En.
      destruct g as [|y g].
      * cbn [sequence] in Es. injection Es as <-. simpl in Hi. destruct (Nat.ltb_spec i n); [lia|]. rewrite !app_nil_r_s. now apply LLast.
      * simpl in Hi. destruct (Nat.ltb_spec i n); [|lia]. rewrite app_assoc_s. apply LMore; auto. discriminate.
    + cbn [type_avro rbind]. exists s. split; [reflexivity|]. now constructor.
Qed.

Theorem avro_listing : forall tn fuel payload g more l r u, 3 <= fuel ->
  Forall (fun t => match t with WClass c => simple_class c /\ has "." (wc_name c) | WContainer _ => True end) g ->
  let d := Data (At l (envelope_tree payload [g] more) r) u in
  exists text, dumpSchema tn fuel ToAvro d = Ok text d /\ listing g text.
Proof.
  intros tn fuel payload g more l r u Hf Hg. cbn zeta. rewrite avro_exact by exact Hf. cbn [schema_avro].
  destruct (type_listing g Hg (length g) 1 eq_refl) as (s & -> & Hs). exists s. auto.
Qed.
Theorem one_class_listed rs c s : listing (map WContainer rs ++ [WClass c]) s -> describes s c.
Proof.
  induction rs as [|r rs IH]; cbn [map app]; intros H; inversion H; subst; auto.
  - destruct H1 as (p & n & Hq & w1 & t' & w2 & -> & H1 & H2 & H3). exists p, n. split; [exact Hq|].
    exists w1, t', (w2 ++ nl). rewrite !app_assoc_s. auto with spaces.
  - congruence.
Qed.

(** ** Texts that are not *)
Lemma ret_inj {A} (a b : A) : Ret a = Ret b -> a = b.
Proof. now intros [= ->]. Qed.
Lemma has_cons c x s : has c (String x s) <-> x = c \/ has c s.
Proof. unfold has. simpl. tauto. Qed.
Lemma has_app c a b : has c (a ++ b) <-> has c a \/ has c b.
Proof. unfold has. rewrite list_ascii_app. apply in_app_iff. Qed.
Lemma mem_has c s : mem c s = true -> has c s.
Proof. intros H. apply existsb_exists in H as (x & Hx & E). apply Ascii.eqb_eq in E as ->. exact Hx. Qed.
Lemma step_bare k c : c <> "034"%char -> ~ has c outside_chars -> step (Out k) c = None.
Proof.
  intros Hq Ho. cbn [step].
  assert (N : forall s, (forall x, has x s -> has x outside_chars) -> mem c s = false).
  { intros s Hs. destruct (mem c s) eqn:E; [|reflexivity]. apply mem_has in E. now apply Hs in E. }
  assert (I : forall s a b, outside_chars = a ++ s ++ b -> forall x, has x s -> has x outside_chars).
  { intros s a b -> x Hx. rewrite !has_app. auto. }
  rewrite (N loose_chars).
  - destruct (Ascii.eqb_spec c "034"); [contradiction|]. rewrite (N "{["), (N "}]").
    + destruct (Ascii.eqb_spec c ","); [|reflexivity]. subst. destruct Ho. vm_compute. tauto.
    + intros x Hx. vm_compute in Hx |- *. tauto.
    + intros x Hx. vm_compute in Hx |- *. tauto.
  - intros x Hx. vm_compute in Hx |- *. tauto.
Qed.
Lemma step_out k c st : c <> "034"%char -> step (Out k) c = Some st -> exists k', st = Out k'.
Proof.
  intros Hq. cbn [step]. destruct (mem c loose_chars); [intros [= <-]; eauto|].
  destruct (Ascii.eqb_spec c "034"); [contradiction|]. destruct (mem c "{["); [intros [= <-]; eauto|].
  destruct (mem c "}]"); [destruct k; [discriminate|intros [= <-]; eauto]|].
  destruct (Ascii.eqb c ","); [destruct k; [discriminate|intros [= <-]; eauto]|discriminate].
Qed.
Lemma scan_bare n : bare n -> forall k, scan (Out k) n = None.
Proof.
  intros [Hq (c & Hc & Ho)]. induction n as [|x n IH]; intros k; [destruct Hc|].
  rewrite has_cons in Hq, Hc. cbn [scan]. destruct (Ascii.eqb_spec x c) as [->|N].
  - rewrite step_bare; auto.
  - destruct (step (Out k) x) as [st|] eqn:E; [|reflexivity]. apply step_out in E as [k' ->]; [|intros ->; auto].
    apply IH; tauto.
Qed.

Lemma scan_quoted k x s : tame x -> scan (Out k) (quote ++ x ++ quote ++ s) = scan (Out k) s.
Proof.
  intros H. replace (quote ++ x ++ quote ++ s) with ((quote ++ x ++ quote) ++ s) by now rewrite !app_assoc_s.
  apply scan_then. exact (scan_string k x _ (tame_text x H)).
Qed.
Ltac scl := repeat first [rewrite scan_quoted by (assumption || tm) | erewrite scan_then by first [apply scan_space; auto with spaces; fail | reflexivity]].

Lemma unboxed_container g e : (forall n, e <> TName n) -> unboxed_name (print g e) = print g e.
Proof. intros H. destruct e; [edestruct H; reflexivity|reflexivity|reflexivity]. Qed.
Lemma container_print g e : (forall n, e <> TName n) ->
  isArray (print g e) = Ret false /\ isContainer (print g e) = Ret true /\ String.eqb (print g e) "*" = false.
Proof.
  intros H. assert (HA : isArray (print g e) = Ret false).
  { destruct e as [n|e|k v]; [now destruct (H n)| |]; cbn [print].
    - pose proof (not_array ("java.util.List<" ++ print g e)) as Ha. now rewrite app_assoc_s in Ha.
    - pose proof (not_array ("java.util.Map<" ++ print g k ++ "," ++ g ++ print g v)) as Ha. now rewrite !app_assoc_s in Ha. }
  split; [exact HA|]. unfold isContainer. rewrite HA. cbn [rbind]. destruct e as [n|e|k v]; [now destruct (H n)|split; reflexivity|split; reflexivity].
Qed.
Lemma single_not_container t : single t -> isContainer t = Ret false.
Proof.
  intros H. unfold isContainer. rewrite (single_array t H). cbn [rbind]. destruct H as (H1 & H2 & _).
  unfold isList, isMap. rewrite (not_starts_with _ _ H1), (not_starts_with _ _ H2). reflexivity.
Qed.

Lemma infer_bad e : (forall n, e <> TName n) -> bare_inside e -> forall g fuel rq ai s k,
  space ai -> infer fuel (print g e) rq ai = Ret s -> scan (Out (S k)) s = None.
Proof.
  induction e as [n|e IH|kt _ v _]; intros Hc Hb g fuel rq ai s k Ha E; [now destruct (Hc n)| |].
  - destruct fuel as [|fuel]; [discriminate|]. cbn [infer] in E.
    destruct (container_print g (TListOf e) Hc) as (HA & _ & HS). rewrite HS, HA in E. cbn [rbind] in E.
    change (isList (print g (TListOf e))) with true in E. cbn iota in E.
    change (print g (TListOf e)) with ("java.util.List" ++ "<" ++ print g e ++ ">") in E.
    rewrite listType_spec in E by (vm_compute; intuition discriminate). cbn [rbind] in E. cbn [bare_inside] in Hb.
    destruct e as [n|e|kt v].
    + cbn [print] in E. destruct Hb as [Hs Hb]. rewrite (single_not_container _ Hs) in E. cbn [rbind] in E. apply ret_inj in E; rewrite <- E; clear E.
      rewrite !app_assoc_s. scl. apply scan_stuck, (scan_bare _ Hb).
    + rewrite unboxed_container in E by discriminate.
      destruct (container_print g (TListOf e) ltac:(discriminate)) as (_ & HC & _). rewrite HC in E. cbn [rbind] in E.
      destruct (infer fuel _ rq (deeper ai)) as [inner| | | |] eqn:Ei; try discriminate. cbn [rbind] in E. apply ret_inj in E; rewrite <- E; clear E.
      rewrite !app_assoc_s. scl. apply scan_stuck. apply (IH ltac:(discriminate) Hb g fuel rq (deeper ai) inner (S k)); auto with spaces.
    + rewrite unboxed_container in E by discriminate.
      destruct (container_print g (TMapOf kt v) ltac:(discriminate)) as (_ & HC & _). rewrite HC in E. cbn [rbind] in E.
      destruct (infer fuel _ rq (deeper ai)) as [inner| | | |] eqn:Ei; try discriminate. cbn [rbind] in E. apply ret_inj in E; rewrite <- E; clear E.
      rewrite !app_assoc_s. scl. apply scan_stuck. apply (IH ltac:(discriminate) Hb g fuel rq (deeper ai) inner (S k)); auto with spaces.
  - destruct fuel as [|fuel]; [discriminate|]. cbn [infer] in E.
    destruct (container_print g (TMapOf kt v) Hc) as (HA & _ & HS). rewrite HS, HA in E. cbn [rbind] in E.
    change (isList (print g (TMapOf kt v))) with false in E. change (isMap (print g (TMapOf kt v))) with true in E. cbn iota in E.
    destruct (mapType _) as [[[a b] c]| | | |]; try discriminate. cbn [rbind] in E.
    destruct (isContainer c) as [[]| | | |]; try discriminate; cbn [rbind] in E.
    + destruct (infer fuel _ rq (deeper ai)) as [inner| | | |]; try discriminate. cbn [rbind] in E. apply ret_inj in E; rewrite <- E; clear E.
      rewrite !app_assoc_s. scl. reflexivity.
    + apply ret_inj in E; rewrite <- E; clear E. rewrite !app_assoc_s. scl. reflexivity.
Qed.
Lemma infer_bad_array n t rq ai s k fuel : single n -> bare n -> t = n ++ "[]" \/ t = n ++ "[p]" ->
  space ai -> infer fuel t rq ai = Ret s -> scan (Out (S k)) s = None.
Proof.
  intros Hs Hb Ht Ha E. destruct fuel as [|fuel]; [discriminate|]. cbn [infer] in E.
  assert (HS : String.eqb t "*" = false).
  { apply String.eqb_neq. intros ->. destruct Ht as [Ht|Ht]; destruct n as [|x [|y n]]; discriminate. }
  assert (HA : isArray t = Ret true).
  { destruct (isArray_spec t) as [[_ K]|[[K _]|[_ (K1 & K2 & _)]]]; [|exact K|].
    - exfalso. assert (String.length n <> 0) by (destruct Hs as (_ & _ & _ & _ & Hs & _); destruct n; [congruence|discriminate]).
      destruct Ht as [-> | ->]; destruct K as [K|[K|K]]; apply (f_equal String.length) in K; rewrite length_app_s in K; simpl in K; lia.
    - destruct Ht as [-> | ->]; [destruct K1; now exists n|destruct K2; now exists n]. }
  rewrite HS, HA in E. cbn [rbind] in E.
  assert (HF : find_last "[" t = Some (String.length n + 0)) by (destruct Ht as [-> | ->]; apply find_last_app; reflexivity).
  rewrite HF, Nat.add_0_r in E.
  replace (substr t 0 (String.length n)) with (Ret n) in E by (destruct Ht as [-> | ->]; now rewrite substr_prefix).
  cbn [rbind] in E. rewrite (single_not_container _ Hs) in E. cbn [rbind] in E. apply ret_inj in E; rewrite <- E; clear E.
  rewrite !app_assoc_s. scl. apply scan_stuck, (scan_bare _ Hb).
Qed.

Lemma infer_collection w ai s k : collection (property_type w) -> space ai ->
  inferType (w_type w) (first (w_requires w)) ai = Ret s -> scan (Out (S k)) s = None.
Proof.
  intros H Ha E. unfold inferType in E.
  set (fuel := String.length (w_type w) + String.length (first (w_requires w))) in E.
  assert (E' : infer (S fuel) (property_type w) (first (w_requires w)) ai = Ret s).
  { cbn [infer] in E |- *.
    replace (if String.eqb (w_type w) "*" then first (w_requires w) else w_type w) with (property_type w) in E by reflexivity.
    destruct (String.eqb (property_type w) "*") eqn:Es; [|exact E]. exfalso. apply String.eqb_eq in Es. rewrite Es in H.
    destruct H as [(g & e & _ & _ & K & Hc & _)|(n & _ & _ & [K|K])].
    - destruct (container_print g e Hc) as (_ & _ & N). rewrite <- K in N. discriminate.
    - destruct n as [|x [|y n]]; discriminate.
    - destruct n as [|x [|y n]]; discriminate. }
  destruct H as [(g & e & _ & _ & K & Hc & Hb)|(n & Hs & Hb & K)].
  - rewrite K in E'. eapply infer_bad; eauto.
  - eapply infer_bad_array; eauto.
Qed.

Lemma properties_bad ai after w ws2 k : space ai -> collection (property_type w) -> tame (w_name w) ->
  (forall i t, after i t = "," ++ nl \/ after i t = nl) -> forall ws1, Forall simple_property ws1 -> forall i s,
  sequence (field_avro ai) after i (ws1 ++ w :: ws2) = Ret s -> scan (Out (S k)) s = None.
Proof.
  intros Ha Hc Hn Haf ws1. induction 1 as [|x ws1 Hx _ IH]; intros i s E; cbn [app sequence] in E.
  - unfold field_avro in E.
    destruct (inferType (w_type w) (first (w_requires w)) (deeper ai)) as [t| | | |] eqn:Et; try discriminate.
    destruct (sequence _ after (S i) ws2) as [s'| | | |]; try discriminate. cbn [rbind] in E. apply ret_inj in E; rewrite <- E; clear E.
    rewrite !app_assoc_s. scl. apply scan_stuck. eapply infer_collection; [exact Hc| |exact Et]. auto with spaces.
  - destruct (property_is_json ai x Ha Hx) as (t & Et & Ht). rewrite Et in E.
    destruct (sequence _ after (S i) (ws1 ++ w :: ws2)) as [s'| | | |] eqn:Es; try discriminate. cbn [rbind] in E. apply ret_inj in E; rewrite <- E; clear E.
    rewrite !app_assoc_s. scl. rewrite scan_app, (proj1 scan_json _ _ Ht).
    destruct (Haf i (ai ++ t)) as [-> | ->]; rewrite ?app_assoc_s; scl; eapply IH, Es.
Qed.

Lemma names_of_tame full name package : tame full -> names_of full = Ret (name, package) -> tame name /\ tame package.
Proof.
  intros H E. destruct (find_last "." full) as [n|] eqn:F.
  - destruct (names_of_dotted full) as (a & b & E' & Hq & _).
    { destruct (find_last_split _ _ _ F) as (x & y & -> & _). apply has_app. right. apply has_cons. auto. }
    rewrite E in E'. injection E' as -> ->. rewrite Hq in H. apply tame_app in H as [H1 H2]. apply tame_app in H2 as [_ H2]. auto.
  - unfold names_of in E. rewrite F in E. injection E as <- <-. auto.
Qed.

Lemma class_bad c w ws1 ws2 t k : wc_fields c = (ws1 ++ w :: ws2)%list -> Forall simple_property ws1 ->
  tame (wc_name c) -> tame (wc_fingerprint c) -> tame (w_name w) -> collection (property_type w) ->
  class_avro "" c = Ret t -> scan (Out k) t = None.
Proof.
  intros Ef Hs Hn Hf Hw Hc E. unfold class_avro in E.
  destruct (names_of (wc_name c)) as [[name package]| | | |] eqn:En; try discriminate. cbn [rbind] in E.
  destruct (names_of_tame _ _ _ Hn En) as [T1 T2]. rewrite Ef in E.
  destruct (sequence _ _ 1 (ws1 ++ w :: ws2)) as [s| | | |] eqn:Es; try discriminate. cbn [rbind] in E. apply ret_inj in E; rewrite <- E; clear E.
  rewrite !app_assoc_s. scl. apply scan_stuck.
  eapply properties_bad; [| | | |exact Hs|exact Es]; auto with spaces.
  intros i u. cbv beta; match goal with |- context [if ?b then _ else _] => destruct b end; auto.
Qed.

Lemma containers_silent rs g after : (forall i, after i "" = "") -> forall i,
  sequence (type_avro "") after i (map WContainer rs ++ g) = sequence (type_avro "") after (i + length rs) g.
Proof.
  intros Ha. induction rs as [|r rs IH]; intros i; [now rewrite Nat.add_0_r|].
  cbn [map app sequence type_avro rbind length]. rewrite (IH (S i)), Ha, Nat.add_succ_comm. destruct (sequence _ after _ g); reflexivity.
Qed.

(** A class with a collection property. *)
Theorem avro_collection_not_json : forall tn fuel payload rs c rest w ws1 ws2 more l r u, 3 <= fuel ->
  wc_fields c = (ws1 ++ w :: ws2)%list -> Forall simple_property ws1 ->
  tame (wc_name c) -> tame (wc_fingerprint c) -> tame (w_name w) -> collection (property_type w) ->
  ~ exists text d' j, dumpSchema tn fuel ToAvro (Data (At l (envelope_tree payload [(map WContainer rs ++ WClass c :: rest)%list] more) r) u)
                      = Ok text d' /\ json_text j text.
Proof.
  intros tn fuel payload rs c rest w ws1 ws2 more l r u Hf Ef Hs Hn Hfp Hw Hc (text & d' & j & E & HJ).
  rewrite avro_exact in E by exact Hf. cbn [schema_avro] in E. set (n := length _) in E.
  rewrite (containers_silent rs (WClass c :: rest) (after_type n) ltac:(reflexivity)) in E. set (i := 1 + length rs) in E.
  cbn [sequence type_avro] in E. destruct (class_avro "" c) as [t| | | |] eqn:Et; try discriminate. cbn [rbind] in E.
  destruct (sequence _ _ (S i) rest) as [s| | | |]; try discriminate. cbn [rbind lift] in E. injection E as <- _.
  apply json_scans in HJ. rewrite scan_stuck in HJ; [discriminate|]. eapply class_bad; eauto.
Qed.

(** A class that is not the last entry. *)
Theorem avro_two_not_json : forall tn fuel payload rs c rest more l r u, 3 <= fuel ->
  simple_class c -> has "." (wc_name c) -> rest <> [] ->
  ~ exists text d' j, dumpSchema tn fuel ToAvro (Data (At l (envelope_tree payload [(map WContainer rs ++ WClass c :: rest)%list] more) r) u)
                      = Ok text d' /\ json_text j text.
Proof.
  intros tn fuel payload rs c rest more l r u Hf Hc Hd Hr (text & d' & j & E & HJ).
  rewrite avro_exact in E by exact Hf. cbn [schema_avro] in E. set (n := length _) in E.
  rewrite (containers_silent rs (WClass c :: rest) (after_type n) ltac:(reflexivity)) in E.
  destruct (record_is_json "" c space_nil Hc Hd) as (t & p & q & Et & _ & Hv).
  cbn [sequence type_avro] in E. rewrite Et in E. cbn [rbind] in E.
  destruct (sequence _ _ _ rest) as [s| | | |]; try discriminate. cbn [rbind lift] in E. injection E as <- _.
  apply json_scans in HJ. rewrite scan_app, (proj1 scan_json _ _ Hv) in HJ. unfold after_type in HJ.
  assert (En : String.eqb t "" = false) by (inversion Hv; reflexivity). rewrite En in HJ.
  change (1 + length rs) with (S (length rs)) in HJ. destruct (Nat.ltb_spec (S (length rs)) n) as [_|K]; [discriminate|].
  unfold n in K. rewrite app_length, map_length in K. cbn [length] in K. destruct rest; [congruence|]. cbn [length] in K. lia.
Qed.

(** More or fewer groups than one. *)
Theorem avro_groups : forall tn fuel payload groups more l r u, 3 <= fuel -> length groups <> 1 ->
  dumpSchema tn fuel ToAvro (Data (At l (envelope_tree payload groups more) r) u) = Abort.
Proof.
  intros tn fuel payload groups more l r u Hf H. rewrite avro_exact by exact Hf.
  destruct groups as [|g [|h groups]]; reflexivity || now destruct H.
Qed.

(** A class without package: its own name is printed as its package. *)
Lemma sequence_step {X} (f : X -> res string) after i x xs s : sequence f after i (x :: xs) = Ret s ->
  exists t rest, f x = Ret t /\ s = t ++ rest.
Proof. cbn [sequence]. destruct (f x) as [t| | | |]; try discriminate. cbn [rbind]. destruct (sequence f after (S i) xs); try discriminate.
  intros [= <-]. eauto. Qed.
Lemma no_dot s : ~ has "." s -> find_last "." s = None.
Proof.
  intros H. destruct (find_last "." s) eqn:F; [|reflexivity]. destruct H.
  destruct (find_last_split _ _ _ F) as (a & b & -> & _). apply has_app. right. apply has_cons. auto.
Qed.
Theorem avro_no_package : forall tn fuel payload rs c rest more l r u text d', 3 <= fuel -> ~ has "." (wc_name c) ->
  dumpSchema tn fuel ToAvro (Data (At l (envelope_tree payload [(map WContainer rs ++ WClass c :: rest)%list] more) r) u) = Ok text d' ->
  occurs_in (quote ++ "namespace" ++ quote ++ " : " ++ quote ++ wc_name c ++ quote) text.
Proof.
  intros tn fuel payload rs c rest more l r u text d' Hf Hd E. rewrite avro_exact in E by exact Hf. cbn [schema_avro] in E.
  set (n := length _) in E. rewrite (containers_silent rs (WClass c :: rest) (after_type n) ltac:(reflexivity)) in E.
  destruct (sequence _ _ _ (WClass c :: rest)) as [s| | | |] eqn:Es; try discriminate. cbn [lift] in E. injection E as <- _.
  apply sequence_step in Es as (t & tl & Et & ->). cbn [type_avro] in Et. unfold class_avro in Et.
  unfold names_of in Et. rewrite (no_dot _ Hd) in Et. cbn [rbind] in Et.
  destruct (sequence _ _ 1 (wc_fields c)) as [s| | | |]; try discriminate. cbn [rbind] in Et. apply ret_inj in Et; rewrite <- Et; clear Et.
  exists ("{" ++ nl ++ deeper "" ++ quote ++ "type" ++ quote ++ " : " ++ quote ++ "record" ++ quote ++ "," ++ nl ++
       deeper "" ++ quote ++ "name" ++ quote ++ " : " ++ quote ++ wc_name c ++ quote ++ "," ++ nl ++ deeper "").
  eexists. rewrite !app_assoc_s. reflexivity.
Qed.

(** A wildcard without required types, or an empty type. *)
Theorem avro_no_type : forall tn fuel payload rs c rest w ws more l r u, 3 <= fuel ->
  wc_fields c = w :: ws -> property_type w = "" ->
  dumpSchema tn fuel ToAvro (Data (At l (envelope_tree payload [(map WContainer rs ++ WClass c :: rest)%list] more) r) u) = UB.
Proof.
  intros tn fuel payload rs c rest w ws more l r u Hf Ef Ht. rewrite avro_exact by exact Hf. cbn [schema_avro].
  set (n := length _). rewrite (containers_silent rs (WClass c :: rest) (after_type n) ltac:(reflexivity)).
  cbn [sequence type_avro]. unfold class_avro. rewrite Ef.
  destruct (names_of (wc_name c)) as [[name package]|x| | |] eqn:En.
  2-5: destruct (find_last "." (wc_name c)) as [m|] eqn:F;
    [destruct (names_of_dotted (wc_name c)) as (a & b & E' & _);
      [destruct (find_last_split _ _ _ F) as (y & z & -> & _); apply has_app; right; apply has_cons; auto|congruence]
    |unfold names_of in En; rewrite F in En; discriminate].
  cbn [rbind sequence]. unfold field_avro at 1.
  assert (E : inferType (w_type w) (first (w_requires w)) (deeper (deeper (deeper ""))) = Undef).
  { unfold inferType. cbn [infer].
    replace (if String.eqb (w_type w) "*" then first (w_requires w) else w_type w) with (property_type w) by reflexivity.
    rewrite Ht. reflexivity. }
  rewrite E. reflexivity.
Qed.
Theorem avro_no_package' : forall tn fuel payload rs c rest more l r u text d', 3 <= fuel -> ~ has "." (wc_name c) ->
  dumpSchema tn fuel ToAvro (Data (At l (envelope_tree payload [(map WContainer rs ++ WClass c :: rest)%list] more) r) u) = Ok text d' ->
  occurs_in (quoted "namespace" ++ " : " ++ quoted (wc_name c)) text.
Proof.
  intros tn fuel payload rs c rest more l r u text d' Hf Hd E.
  destruct (avro_no_package tn fuel payload rs c rest more l r u text d' Hf Hd E) as (a & b & ->). exists a, b. reflexivity.
Qed.

Theorem avro_one_class : forall tn fuel payload rs c more l r u, 3 <= fuel ->
  simple_class c -> has "." (wc_name c) ->
  let d := Data (At l (envelope_tree payload [(map WContainer rs ++ [WClass c])%list] more) r) u in
  exists text, dumpSchema tn fuel ToAvro d = Ok text d /\ describes text c.
Proof.
  intros tn fuel payload rs c more l r u Hf Hc Hd.
  destruct (avro_listing tn fuel payload (map WContainer rs ++ [WClass c])%list more l r u Hf) as (text & E & HL).
  - apply Forall_app. split; [apply Forall_forall; intros t H; apply in_map_iff in H as (x & <- & _); exact I|].
    constructor; [now split|constructor].
  - exists text. split; [exact E|]. now apply (one_class_listed rs).
Qed.

(** ** Exactly when *)
Lemma value_not_empty j : ~ value_text j "".
Proof. intros H. inversion H; subst; [now apply number_not_empty|]. match goal with K : string_text _ _ |- _ => destruct K as (b & E & _); discriminate E end. Qed.
Lemma json_not_empty j : ~ json_text j "".
Proof. intros (w1 & t & w2 & E & _ & H & _). destruct w1; [|discriminate]. destruct t; [|discriminate]. now apply (value_not_empty j). Qed.
Lemma first_class (g : list wire_type) : (exists rs, g = map WContainer rs) \/ (exists rs c rest, g = (map WContainer rs ++ WClass c :: rest)%list).
Proof.
  induction g as [|[c|r] g IH]; [left; now exists []| |].
  - right. now exists [], c, g.
  - destruct IH as [(rs & ->)|(rs & c & rest & ->)]; [left; now exists (r :: rs)|right; now exists (r :: rs), c, rest].
Qed.
Lemma first_other {A} (P Q : A -> Prop) l : Forall (fun a => P a \/ Q a) l -> Forall P l \/ exists l1 a l2, l = (l1 ++ a :: l2)%list /\ Forall P l1 /\ Q a.
Proof.
  induction 1 as [|a l [H|H] F IH]; [left; constructor| |right; now exists [], a, l].
  destruct IH as [IH|(l1 & b & l2 & -> & H1 & H2)]; [left; now constructor|right]. exists (a :: l1), b, l2. split; [reflexivity|]. split; [now constructor|exact H2].
Qed.
Lemma listing_containers rs s : listing (map WContainer rs) s -> s = "".
Proof. revert s. induction rs as [|r rs IH]; intros s H; inversion H; subst; auto. Qed.
Lemma avro_exactly tn fuel payload g more l r u : 3 <= fuel -> Forall plain_type g ->
  ((exists text d' j, dumpSchema tn fuel ToAvro (Data (At l (envelope_tree payload [g] more) r) u) = Ok text d' /\ json_text j text) <->
   (exists rs c, g = (map WContainer rs ++ [WClass c])%list /\ Forall simple_property (wc_fields c))).
Proof.
  intros Hf G. split.
  - intros H. destruct (first_class g) as [(rs & ->)|(rs & c & rest & ->)].
    + exfalso. destruct (avro_listing tn fuel payload (map WContainer rs) more l r u Hf) as (text & E & L).
      { clear. induction rs; constructor; auto. }
      destruct H as (text' & d' & j & E' & J). cbv zeta in E. rewrite E in E'. injection E' as <- _. rewrite (listing_containers _ _ L) in J. now apply (json_not_empty j).
    + apply Forall_app in G as [_ G]. pose proof (Forall_inv G) as (T1 & T2 & Hd & F).
      apply first_other in F as [F|(ws1 & w & ws2 & E & F1 & Tw & K)].
      * exists rs, c. split; [|exact F]. destruct rest as [|t rest]; [reflexivity|]. exfalso.
        apply (avro_two_not_json tn fuel payload rs c (t :: rest) more l r u); auto; [repeat split; auto|discriminate].
      * exfalso. apply (avro_collection_not_json tn fuel payload rs c rest w ws1 ws2 more l r u); auto.
  - intros (rs & c & -> & F). apply Forall_app in G as [_ G]. pose proof (Forall_inv G) as (T1 & T2 & Hd & _).
    destruct (avro_one_class tn fuel payload rs c more l r u Hf) as (text & E & package & name & _ & J); [repeat split; auto|exact Hd|]. eauto.
Qed.
