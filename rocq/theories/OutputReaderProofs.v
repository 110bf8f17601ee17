(** What deserialising a blob writes on the way is what SpecOutputReader.v says. *)
From Coq Require Import Lia.
From Verif Require Readers.
From Verif Require Import Base Proton ProtonProofs Descriptors SpecDescriptors DescriptorsProofs Writer Deserialise SpecReaders ReadersProofs SpecAccept AcceptProofs
  SpecDisplay SpecInstalled DisplayProofs SpecDeserialise DeserialiseProofs SpecReadBack ReadBackProofs SpecFate FateProofs Output SpecOutput OutputProofs OutputWriter SpecOutputWriter
  OutputReader SpecOutputReader.
Import List ListNotations.
Open Scope string_scope.

Definition goes {A B} (R : A -> B -> data -> Prop) (out : string) (o : outcome (data * string) A) (h : heard B) : Prop :=
  match snd h with
  | Gives b => exists a d, o = Ok a (d, out ++ fst h) /\ R a b d
  | Raises e => exists d, o = Throw e (d, out ++ fst h)
  | Stops => o = Abort
  | Wild => o = UB
  end.
Lemma goes_bind {A B A' B'} (R : A -> B -> data -> Prop) (R' : A' -> B' -> data -> Prop) (m : OM A) f d out h g : goes R out (m (d, out)) h ->
  (forall a b d' out', R a b d' -> goes R' out' (f a (d', out')) (g b)) -> goes R' out (bind m f (d, out)) (and_then h g).
Proof.
  intros H K. unfold bind, goes, and_then in *. destruct h as [s [b|e| |]]; cbn [fst snd] in *.
  - destruct H as (a & d' & -> & HR). specialize (K a b d' (out ++ s) HR). unfold goes in K. rewrite append_assoc3 in K. exact K.
  - destruct H as (d' & ->). eauto.
  - now rewrite H.
  - now rewrite H.
Qed.
Lemma goes_weaken {A B} (R R' : A -> B -> data -> Prop) out o h : goes R out o h -> (forall a b d, R a b d -> R' a b d) -> goes R' out o h.
Proof. unfold goes. destruct (snd h); auto. intros (x & d & E & H) K. eauto 6. Qed.
Lemma goes_ret {A B} (R : A -> B -> data -> Prop) a b d out : R a b d -> goes R out (ret a (d, out)) (silent (Gives b)).
Proof. intros H. unfold goes, ret. cbn. rewrite append_nil. eauto. Qed.
Lemma step_eq {A B} (m : OM A) (f : A -> OM B) a d d1 out : m (d, out) = Ok a (d1, out) -> bind m f (d, out) = f a (d1, out).
Proof. intros E. unfold bind. now rewrite E. Qed.

Lemma names_same k : code_name k = describedToString k.
Proof.
  unfold code_name, describedToString. cbn [find fst snd].
  repeat match goal with
  | |- context [N.lor ?n DESCRIPTOR_TOP_32BITS] => replace (N.lor n DESCRIPTOR_TOP_32BITS) with (vendor n) by (vm_compute; reflexivity)
  end.
  repeat match goal with |- context [N.eqb k (vendor ?n)] => destruct (N.eqb k (vendor n)); [reflexivity|] end. reflexivity.
Qed.
Lemma strip_mod k : stripCorda k = (k mod 2 ^ 32)%N.
Proof. unfold stripCorda. apply N.land_ones. Qed.
Lemma spelt_spaced s : spelt s = String.concat "" (map (fun c => String c " ") (list_ascii_of_string s)).
Proof.
  induction s as [|c s IH]; [reflexivity|]. cbn [spelt list_ascii_of_string map]. rewrite IH. destruct (list_ascii_of_string s) as [|c' l]; reflexivity.
Qed.
Lemma wide_columns s : wide s = columns s.
Proof. destruct s as [|a [|b s]]; reflexivity. Qed.

Section Told.
Context (cs : classes) (env : platform) (tn : pn_type -> string) (tnum : pn_type -> Z) (named : ctype -> string).
Notation tr := (trace env).
Notation told' := (told cs env named).

Lemma line_same source n text out : out ++ "[" ++ file env source ++ "::" ++ Readers.dec n ++ "] " ++ text ++ Output.endl = out ++ at_line env source n text.
Proof. unfold at_line, SpecOutputWriter.line, starts, Output.endl, newline. now rewrite !append_assoc3. Qed.
Lemma trace_goes source n text d out : goes (fun _ _ d' => d' = d) out (tr source n text (d, out)) (note env source n text).
Proof. unfold goes, note, trace, Output.DBG, cout. cbn [fst snd]. rewrite line_same. eauto. Qed.
Lemma trace_bind {A B} (R : A -> B -> data -> Prop) source n text (f : OM A) g d out :
  (forall out', goes R out' (f (d, out')) g) -> goes R out ((tr source n text ;; f) (d, out)) (let^ _ := note env source n text in g).
Proof. intros H. eapply goes_bind; [apply trace_goes|]. intros _ _ d' out' ->. apply H. Qed.
Lemma leaving_goes {A B} (R : A -> B -> data -> Prop) (m : OM A) source n text f d out h : goes R out (m (d, out)) h ->
  goes (fun a b d' => exists d0, R a b d0 /\ d' = f d0) out (finally m (leaving env source n text f) (d, out)) (closing h (at_line env source n text)).
Proof.
  intros H. unfold goes, finally, closing, leaving in *. destruct h as [s [b|e| |]]; cbn [fst snd] in *.
  - destruct H as (a & d' & -> & H). rewrite line_same, append_assoc3. eauto 8.
  - destruct H as (d' & ->). rewrite line_same, append_assoc3. eauto.
  - now rewrite H.
  - now rewrite H.
Qed.
Lemma ending_goes {A B} (R : A -> B -> data -> Prop) (m : OM A) d out h : goes R out (m (d, out)) h ->
  goes (fun a b d' => exists d0, R a b d0 /\ d' = endComposite d0) out (finally m (endComposite_said env) (d, out))
    (closing h (at_line env "SerialiserFactoryReaders.h" 75 "~AutoComposite" ++ at_line env "AMQPBlob.cxx" 375 "endComposite")).
Proof.
  intros H. unfold goes, finally, closing, endComposite_said, leaving in *. destruct h as [s [b|e| |]]; cbn [fst snd] in *.
  - destruct H as (a & d' & -> & H). rewrite !line_same, !append_assoc3. eauto 8.
  - destruct H as (d' & ->). rewrite !line_same, !append_assoc3. eauto.
  - now rewrite H.
  - now rewrite H.
Qed.

Lemma attested_goes d out : on_level d ->
  goes (fun _ body d' => d' = d /\ view d = Some body /\ tree_atom body = AList) out (list_attested env (d, out)) (must_be_list env (view d)).
Proof.
  intros L. unfold list_attested, attest_is_list_said, must_be_list, bind, silently, attest_is_list, require, is_type.
  destruct d as [[[|c l]|l [a es] r] u]; [|destruct L|].
  - cbn. rewrite append_nil. eauto.
  - destruct a; cbn [pn_dtype here view atom_type pn_type_eqb]; try (cbn; rewrite append_nil; eauto; fail).
    change (Output.DBG (file env "proton_wrapper.cxx") 299 "YEP! it's a list") with (tr "proton_wrapper.cxx" 299 "YEP! it's a list").
    cbn [pn_dtype here atom_type]. unfold list_noted. cbn. rewrite !append_nil.
    eexists tt, _. split; [|split; [reflexivity|split; reflexivity]].
    unfold at_line, SpecOutputWriter.line, starts. do 2 f_equal. cbn. now rewrite !append_assoc3.
Qed.
Lemma described_goes d out : on_level d ->
  goes (fun _ t d' => d' = d /\ view d = Some t /\ tree_atom t = ADescribed) out (silently attest_is_described (d, out)) (must_be_described (view d)).
Proof.
  intros L. unfold must_be_described, described_tree, silently, attest_is_described, require, is_type.
  destruct d as [[[|c l]|l [a es] r] u]; [|destruct L|].
  - cbn. rewrite append_nil. eauto.
  - destruct a; cbn; rewrite append_nil; eauto. eexists tt, _. repeat split.
Qed.
Lemma ulong_code d : pn_get_ulong d = code_in (view d).
Proof. destruct d as [[l|l [a es] r] u]; reflexivity. Qed.

(** ** Primitives *)
Lemma char_same n : to_char n = (let low := (Z.of_N n mod 256)%Z in if (low <? 128)%Z then low else low - 256)%Z.
Proof.
  unfold to_char. set (z := Z.of_N n). cbn zeta. pose proof (Z.mod_pos_bound z 256 eq_refl). pose proof (Z.div_mod z 256 ltac:(lia)).
  destruct (Z.ltb_spec (z mod 256) 128).
  - replace (z + 128)%Z with ((z mod 256 + 128) + (z / 256) * 256)%Z by lia. rewrite Z.mod_add, Z.mod_small by lia. lia.
  - replace (z + 128)%Z with ((z mod 256 - 128) + (z / 256 + 1) * 256)%Z by lia. rewrite Z.mod_add, Z.mod_small by lia. lia.
Qed.
Lemma get_goes p d out : on_level d -> goes (fun v w d' => v = w /\ d' = d) out (silently (prim_get p) (d, out)) (silent (value_in p (view d))).
Proof.
  intros L. unfold silently, silent. destruct d as [[[|c l]|l [a es] r] u]; [|destruct L|].
  - destruct p; cbn; try rewrite append_nil; eauto.
  - destruct p, a; cbn; try rewrite append_nil; rewrite <- ?c_str_up; eauto 6; try (do 2 eexists; split; [reflexivity|split; [|reflexivity]]).
    f_equal. apply char_same.
Qed.
Lemma text_same v p o : value_in p o = Gives v -> prim_text env v = text_of env v.
Proof.
  intros H. destruct v as [z|z|b|b|b|b|z]; try reflexivity; try (now destruct b).
  cbn [prim_text text_of]. assert (B : (-128 <= z < 128)%Z).
    { destruct p, o as [[[] es]|]; cbn in H; try discriminate H. injection H as <-.
      match goal with |- context [Z.of_N ?c] => pose proof (Z.mod_pos_bound (Z.of_N c) 256 eq_refl); destruct (Z.ltb_spec (Z.of_N c mod 256) 128); lia end. }
  do 3 f_equal. destruct (Z.ltb_spec z 0).
  - rewrite <- (Z.mod_add z 1 256) by lia. rewrite Z.mod_small; lia.
  - rewrite Z.mod_small; lia.
Qed.
Lemma get_line_same p : get_line p = (snd (value_line p), fst (value_line p)).
Proof. now destruct p. Qed.
Lemma prim_goes p ptr d out : on_level d ->
  goes (fun x y d' => x = y /\ d' = pn_next d) out (read_prim_said env named p ptr (d, out)) (told_value env named (RPrim p ptr) p ptr (view d)).
Proof.
  intros L. unfold read_prim_said, told_value. do 3 (apply trace_bind; clear out; intros out).
  eapply goes_weaken; [eapply (leaving_goes (fun x y d' => x = y /\ d' = d))|].
  - unfold prim_get_said. rewrite get_line_same. cbn [fst snd].
    assert (E : forall out, goes (fun v w d' => v = w /\ d' = d /\ value_in p (view d) = Gives w) out (silently (prim_get p) (d, out)) (silent (value_in p (view d)))).
    { clear out. intros out. pose proof (get_goes p d out L) as G. unfold goes, silent in *. cbn [fst snd] in *. destruct (value_in p (view d)) as [w|e| |]; auto.
      destruct G as (a & d' & E & -> & ->). eauto 8. }
    replace ((let! v := let! v := silently (prim_get p) in
       tr "PrimToSerializer.h" (snd (value_line p)) ("PrimToSerializer<" ++ fst (value_line p) ++ ">::get - return " ++ prim_text env v) ;; ret v in
       ret (if ptr then OPrimPtr v else OPrim v)) (d, out)) with
      ((let! v := silently (prim_get p) in
       tr "PrimToSerializer.h" (snd (value_line p)) ("PrimToSerializer<" ++ fst (value_line p) ++ ">::get - return " ++ prim_text env v) ;;
       ret (if ptr then OPrimPtr v else OPrim v)) (d, out)).
    2:{ unfold bind, ret. destruct (silently (prim_get p) (d, out)) as [v s|e s| | |]; try reflexivity. destruct (tr _ _ _ s); reflexivity. }
    eapply goes_bind; [apply E|]. cbv beta. intros v w d1 out1 (-> & -> & V). rewrite (text_same _ _ _ V).
    apply trace_bind. intros out2. apply goes_ret. auto.
  - intros a b d' (d0 & (-> & ->) & ->). auto.
Qed.

(** ** Composites *)
Lemma bind_bind {A B C} (m : OM A) (f : A -> OM B) (g : B -> OM C) s : bind (bind m f) g s = bind m (fun a => bind (f a) g) s.
Proof. unfold bind. now destruct (m s). Qed.
Lemma parts_goes ty d out (m : OM object) inside : on_level d ->
  (forall l t r u l1 body r1 d1 out1, d = Data (At l t r) u -> tree_atom t = ADescribed -> part 1 t = Some body -> tree_atom body = AList ->
     upon body 0 (Frame l1 AList r1 :: Frame l ADescribed r :: u) d1 -> tree_children t = (rev l1 ++ body :: r1)%list ->
     goes (fun x y d' => x = y /\ exists k, upon body k (Frame l1 AList r1 :: Frame l ADescribed r :: u) d') out1 (m (d1, out1)) (inside body)) ->
  goes (fun x y d' => x = y /\ d' = pn_next d) out
    ((tr "SerialiserFactoryReaders.h" 64 ("read::Composite::" ++ named ty) ;; tr "SerialiserFactoryReaders.h" 70 "AutoComposite" ;;
      startComposite_said env ;; finally m (endComposite_said env)) (d, out))
    (told_parts env named ty (view d) inside).
Proof.
  intros L H. unfold told_parts. do 2 (apply trace_bind; clear out; intros out). unfold startComposite_said.
  rewrite bind_bind. apply trace_bind. clear out. intros out.
  rewrite bind_bind. eapply goes_bind; [apply (described_goes d out L)|]. cbv beta. clear out. intros _ t d1 out (-> & V & Ht).
  rewrite bind_bind. rewrite (step_eq _ _ tt d (w_enter d)) by reflexivity.
  apply view_some in V as (l & r & u & ->). destruct t as [a ts]. cbn in Ht. subst a.
  pose proof (upon_enter l ADescribed ts r u) as U0.
  rewrite bind_bind. rewrite (step_eq _ _ (pn_get_ulong (w_enter (Data (At l (Node ADescribed ts) r) u))) _ (pn_next (w_enter (Data (At l (Node ADescribed ts) r) u)))) by reflexivity.
  rewrite ulong_code, (upon_view _ _ _ _ U0), names_same. set (code := code_in _). clearbody code.
  rewrite bind_bind. apply trace_bind. clear out. intros out.
  apply upon_next in U0. revert U0. generalize (pn_next (w_enter (Data (At l (Node ADescribed ts) r) u))). intros d1 U.
  pose proof (upon_view _ _ _ _ U) as V. rewrite <- V.
  rewrite bind_bind. eapply goes_bind; [apply (attested_goes d1 out); eapply upon_level; exact U|]. cbv beta. clear out. intros _ body d2 out (-> & V1 & Hb).
  destruct body as [a es]. cbn in Hb. subst a. rewrite V1 in V. symmetry in V. apply view_some in V1 as (l1 & r1 & u1 & ->).
  cbn [tree_children].
  rewrite bind_bind. eapply goes_bind; [cbn [fst pn_get_list here]; apply trace_goes|]. cbv beta. clear out. intros _ _ d2 out ->.
  rewrite (step_eq _ _ tt _ (w_enter (Data (At l1 (Node AList es) r1) u1))) by reflexivity.
  assert (X : u1 = Frame l ADescribed r :: u /\ ts = (rev l1 ++ Node AList es :: r1)%list).
  { pose proof (upon_among _ _ _ _ U) as [X1 X2]. cbn in X1, X2. rewrite rev_append_rev in X1. auto. }
  destruct X as [-> ->].
  eapply goes_weaken.
  - apply ending_goes. eapply H; [reflexivity|reflexivity|exact V|reflexivity|apply upon_enter|reflexivity].
  - cbv beta. intros x y d' (d0 & (-> & k & U') & ->). split; [reflexivity|]. eapply end_upon; eauto; reflexivity.
Qed.

Definition read_all_said (rd : ctype -> OM object) : list ctype -> OM (list object) :=
  fix properties (ts : list ctype) : OM (list object) :=
  match ts with
  | [] => ret []
  | t :: ts' => tr "SerialiserFactory.h" 93 ("read - " ++ named t) ;; let! v := rd t in let! vs := properties ts' in ret (v :: vs)
  end.
Lemma all_goes rd body u (tl : ctype -> option tree -> heard object) :
  (forall t k d out, upon body k u d -> goes (fun x y d' => x = y /\ d' = pn_next d) out (rd t (d, out)) (tl t (part k body))) ->
  forall ts k d out, upon body k u d ->
  goes (fun xs ys d' => xs = ys /\ exists k', upon body k' u d') out (read_all_said rd ts (d, out))
    (in_turn (fun p => let^ _ := announced env named (snd p) in tl (snd p) (part (fst p) body)) (map (fun p => (k + fst p, snd p)) (numbered ts))).
Proof.
  intros H. induction ts as [|t ts IH]; intros k d out U.
  - apply goes_ret. eauto.
  - rewrite numbered_cons. cbn [read_all_said map fst snd in_turn]. rewrite Nat.add_0_r.
    replace (let^ _ := announced env named t in tl t (part k body)) with (and_then (announced env named t) (fun _ => tl t (part k body))) by reflexivity.
    assert (E : forall (g : object -> heard (list object)), and_then (and_then (announced env named t) (fun _ => tl t (part k body))) g = and_then (announced env named t) (fun _ => and_then (tl t (part k body)) g)).
    { intros g. unfold announced, note, and_then. cbn [fst snd]. destruct (tl t (part k body)) as [s [b|e| |]]; cbn [fst snd]; try reflexivity. now rewrite append_assoc3. }
    rewrite E. unfold announced. apply trace_bind. clear out. intros out.
    eapply goes_bind; [apply (H t k d out U)|]. cbv beta. clear out. intros x y d1 out (-> & ->). apply upon_next in U.
    replace (map (fun p => (k + fst p, snd p)) (map (fun p : nat * ctype => (S (fst p), snd p)) (numbered ts))) with (map (fun p => (S k + fst p, snd p)) (numbered ts)).
    2:{ rewrite map_map. apply map_ext. intros p. cbn. f_equal. lia. }
    eapply goes_bind; [apply (IH (S k) _ out U)|]. cbv beta. intros xs ys d2 out2 (-> & K). apply goes_ret. auto.
Qed.
Lemma read_said_class n c ptr : read_said cs env named (S n) (RClass c ptr) =
  (tr "SerialiserFactoryReaders.h" 64 ("read::Composite::" ++ named (RClass c ptr)) ;; tr "SerialiserFactoryReaders.h" 70 "AutoComposite" ;;
   startComposite_said env ;;
   finally (read_line env named (RClass c ptr) ;;
            let! vs := read_all_said (read_said cs env named n) (cs c) in ret (if ptr then OClassPtr c vs else OClass c vs)) (endComposite_said env)).
Proof. reflexivity. Qed.
Lemma read_said_vector n ptr : read_said cs env named (S n) (RVector ptr) =
  (tr "SerialiserFactoryReaders.h" 64 ("read::Composite::" ++ named (RVector ptr)) ;; tr "SerialiserFactoryReaders.h" 70 "AutoComposite" ;;
   startComposite_said env ;;
   finally (read_line env named (RVector ptr) ;; vector_read_said env ptr) (endComposite_said env)).
Proof. reflexivity. Qed.
Lemma numbered_zero {A} (l : list A) : map (fun p => (0 + fst p, snd p)) (numbered l) = numbered l.
Proof. rewrite <- (map_id (numbered l)) at 2. apply map_ext. now intros []. Qed.

Lemma read_goes : forall n ty d out, on_level d -> depth (view d) < n ->
  goes (fun x y d' => x = y /\ d' = pn_next d) out (read_said cs env named n ty (d, out)) (told' n ty (view d)).
Proof.
  induction n as [|n IH]; intros ty d out L D; [lia|]. destruct ty as [p ptr|c ptr|ptr].
  - apply prim_goes. exact L.
  - rewrite read_said_class. cbn [told]. apply parts_goes; [exact L|]. clear out.
    intros l t r u l1 body r1 d1 out -> Ht Hp Hb U Hc. unfold read_line.
    assert (G : forall out, goes (fun x y d' => x = y /\ exists k, upon body k (Frame l1 AList r1 :: Frame l ADescribed r :: u) d') out
      ((let! vs := read_all_said (read_said cs env named n) (cs c) in ret (if ptr then OClassPtr c vs else OClass c vs)) (d1, out))
      (let^ xs := in_turn (fun p => let^ _ := announced env named (snd p) in told' n (snd p) (part (fst p) body)) (numbered (cs c)) in
       silent (Gives (if ptr then OClassPtr c xs else OClass c xs)))).
    { clear out. intros out. rewrite <- (numbered_zero (cs c)). eapply goes_bind; [eapply all_goes; [|exact U]|].
      - intros t' k d' out' U'. rewrite <- (upon_view _ _ _ _ U'). apply IH; [eapply upon_level; eauto|]. rewrite (upon_view _ _ _ _ U').
        pose proof (part_depth k body). pose proof (part_depth 1 t). rewrite Hp in *. cbn [depth view here] in *. lia.
      - cbv beta. intros xs ys d' out' (-> & K). apply goes_ret. auto. }
    destruct ptr; apply trace_bind; exact G.
  - rewrite read_said_vector. cbn [told]. apply parts_goes; [exact L|]. clear out.
    intros l t r u l1 body r1 d1 out -> Ht Hp Hb U Hc. unfold read_line. pose proof (upon_view _ _ _ _ U) as V. pose proof (upon_level _ _ _ _ U) as L1.
    assert (G : forall out, goes (fun x y d' => x = y /\ exists k, upon body k (Frame l1 AList r1 :: Frame l ADescribed r :: u) d') out
      (vector_read_said env ptr (d1, out)) (let^ _ := must_be_list env (part 0 body) in silent Wild)).
    { clear out. intros out. rewrite <- V. unfold vector_read_said. pose proof (attested_goes d1 out L1) as G.
      unfold goes, and_then in *. destruct (must_be_list env (view d1)) as [s [b|e| |]]; cbn [fst snd silent] in *.
      - destruct G as (x & d2 & E & -> & Vb & Hl). destruct ptr; unfold bind, ret.
        + rewrite E. reflexivity.
        + rewrite E. pose proof (attested_goes d1 (out ++ s) L1) as G2. unfold goes in G2. rewrite Vb in G2. destruct b as [a es]. cbn in Hl. subst a.
          cbn [must_be_list and_then list_noted note silent fst snd] in G2. destruct G2 as (x2 & d2 & E2 & -> & _). rewrite E2. reflexivity.
      - destruct G as (d2 & E). destruct ptr; unfold bind, ret; rewrite E; eauto.
      - destruct ptr; unfold bind, ret; now rewrite G.
      - destruct ptr; unfold bind, ret; now rewrite G. }
    destruct ptr; apply trace_bind; exact G.
Qed.

(** ** Whole blobs *)
Lemma node_same d : on_level d -> node_text tn tnum d = node_shown tn tnum (view d).
Proof.
  intros L. unfold node_text, node_shown. rewrite wide_columns. destruct d as [[[|c l]|l [a es] r] u]; [reflexivity|destruct L|].
  cbn [view here pn_dtype tree_atom]. destruct a; cbn [atom_type]; try reflexivity. cbn. now rewrite spelt_spaced.
Qed.
Lemma blob_goes n ty t out : height t <= n -> ends_as out (deserialise_said cs env tn tnum named n ty (decoded t, out)) (told_blob cs env tn tnum named n ty t).
Proof.
  intros Hn.
  assert (G : goes (fun x y _ => x = y) out (deserialise_said cs env tn tnum named n ty (decoded t, out)) (told_blob cs env tn tnum named n ty t)).
  { unfold deserialise_said, told_blob. apply trace_bind. clear out. intros out. unfold readyPayload_said.
    rewrite bind_bind. apply trace_bind. clear out. intros out.
    rewrite bind_bind. change (Some t) with (view (decoded t)) at 1.
    eapply goes_bind; [apply (described_goes (decoded t) out); exact I|]. cbv beta. clear out. intros _ t' d1 out (-> & V & Ht).
    cbn in V. injection V as <-. destruct t as [a ts]. cbn in Ht. subst a.
    rewrite bind_bind. rewrite (step_eq _ _ tt _ (w_enter (decoded (Node ADescribed ts)))) by reflexivity.
    pose proof (upon_enter [] ADescribed ts [] []) as U0. change (Data (At [] (Node ADescribed ts) []) []) with (decoded (Node ADescribed ts)) in U0.
    rewrite bind_bind. rewrite (step_eq _ _ (pn_get_ulong (w_enter (decoded (Node ADescribed ts)))) _ (pn_next (w_enter (decoded (Node ADescribed ts))))) by reflexivity.
    rewrite ulong_code, (upon_view _ _ _ _ U0). rewrite strip_mod. set (code := code_in _). clearbody code.
    apply upon_next in U0. revert U0. generalize (pn_next (w_enter (decoded (Node ADescribed ts)))). intros d1 U.
    pose proof (upon_view _ _ _ _ U) as V. rewrite <- V.
    rewrite bind_bind. apply trace_bind. clear out. intros out.
    rewrite bind_bind. eapply (goes_bind (fun _ _ d' => d' = d1)).
    { change ENVELOPE with 1%N. destruct (code mod 2 ^ 32 =? 1)%N; [now apply goes_ret|apply trace_goes]. }
    cbv beta. clear out. intros _ _ d2 out ->.
    rewrite bind_bind. eapply goes_bind; [apply (attested_goes d1 out); eapply upon_level; exact U|]. cbv beta. clear out. intros _ body d2 out (-> & V1 & Hb).
    rewrite V1 in V. symmetry in V. apply view_some in V1 as (l1 & r1 & u1 & ->). destruct body as [a es]. cbn in Hb. subst a.
    rewrite bind_bind. rewrite (step_eq _ _ tt _ (w_enter (Data (At l1 (Node AList es) r1) u1))) by reflexivity.
    pose proof (upon_enter l1 AList es r1 u1) as U1. revert U1. generalize (w_enter (Data (At l1 (Node AList es) r1) u1)). intros d2 U1.
    pose proof (upon_view _ _ _ _ U1) as V1. rewrite <- V1.
    rewrite bind_bind. eapply goes_bind; [apply (described_goes d2 out); eapply upon_level; exact U1|]. cbv beta. clear out. intros _ p d3 out (-> & V2 & Hp).
    rewrite V2 in V1. symmetry in V1. apply view_some in V2 as (l2 & r2 & u2 & ->). destruct p as [a ps]. cbn in Hp. subst a.
    eapply (goes_bind (fun _ _ d' => d' = Data (At l2 (Node ADescribed ps) r2) u2)).
    { unfold auto_enter_said. pose proof (upon_enter l2 ADescribed ps r2 u2) as U2.
      assert (E : forall s, finally (fun s => tr "AMQPBlob.cxx" (span env 348 349) ("readyPayload::" ++ node_text tn tnum (fst s) ++ " " ++ describedToString (pn_get_ulong (fst s))) s) (moving pn_exit) s =
        match tr "AMQPBlob.cxx" (span env 348 349) ("readyPayload::" ++ node_text tn tnum (fst s) ++ " " ++ describedToString (pn_get_ulong (fst s))) s with
        | Ok a s' => Ok a (moving pn_exit s') | Throw e s' => Throw e (moving pn_exit s') | Abort => Abort | UB => UB | Fuel => Fuel end) by reflexivity.
      rewrite E. cbn [fst]. rewrite node_same by (eapply upon_level; exact U2). rewrite ulong_code, (upon_view _ _ _ _ U2), <- names_same.
      unfold trace, Output.DBG, cout, goes, note. cbn [fst snd moving]. rewrite line_same.
      rewrite (exit_among l2 ADescribed ps r2 u2) by (eapply upon_among; exact U2). eauto. }
    cbv beta. clear out. intros _ _ d3 out ->.
    change (Some (Node ADescribed ps)) with (view (Data (At l2 (Node ADescribed ps) r2) u2)).
    eapply goes_weaken; [apply (read_goes n ty _ out); [exact I|]|intros x y d' [-> _]; reflexivity].
    cbn [view here depth]. pose proof (part_depth 1 (Node ADescribed ts)) as D1. rewrite V in D1. pose proof (part_depth 0 (Node AList es)) as D2. rewrite V1 in D2. cbn [depth] in *. lia. }
  unfold goes, ends_as in *. destruct (snd (told_blob _ _ _ _ _ _ _ _)) as [x|e| |]; auto. destruct G as (y & d & E & <-). eauto.
Qed.
End Told.

(** ** The result is the same *)
Lemma erases_trace {A} env f n s (m : OM A) m' : erases m m' -> erases (trace env f n s ;; m) m'.
Proof. apply erases_dbg. Qed.
Lemma erases_ending {A} (m : OM A) m' (f : data * string -> data * string) f' : erases m m' ->
  (forall d out, fst (f (d, out)) = f' d /\ begins (snd (f (d, out))) out) -> erases (finally m f) (finally m' f').
Proof.
  intros H K d out. specialize (H d out). unfold finally.
  destruct (m (d, out)) as [a [d1 o1]|e [d1 o1]| | |], (m' d) as [a' d1'|e' d1'| | |]; try contradiction; auto;
  destruct H as (-> & -> & H); specialize (K d1' o1); destruct (f (d1', o1)) as [d2 o2]; cbn [fst snd] in K; destruct K as [<- K]; eauto using begins_trans.
Qed.
Section Erased.
Context (cs : classes) (env : platform) (tn : pn_type -> string) (tnum : pn_type -> Z) (named : ctype -> string).
Lemma erases_get p : erases (prim_get_said env p) (prim_get p).
Proof.
  intros d out. unfold prim_get_said, bind, silently. destruct (prim_get p d) as [v d1|e d1| | |]; auto using begins_refl.
  unfold trace, Output.DBG, cout, ret. repeat split. eexists. reflexivity.
Qed.
Lemma erases_start : erases (startComposite_said env) read_startComposite.
Proof.
  apply erases_trace. apply erases_bind; [apply erases_silently|]. intros _. apply erases_bind; [intros d out; repeat split; apply begins_refl|]. intros _.
  apply erases_bind; [apply erases_silently|]. intros k. apply erases_trace. apply erases_bind; [apply erases_list|]. intros _ d out.
  unfold bind, trace, Output.DBG, cout, enter_said. cbn [fst]. repeat split. eexists. reflexivity.
Qed.
Lemma erases_composite {A} (m : OM A) m' : erases m m' -> erases (startComposite_said env ;; finally m (endComposite_said env)) (read_startComposite ;; finally m' endComposite).
Proof.
  intros H. apply erases_bind; [apply erases_start|]. intros _. apply erases_ending; [exact H|]. intros d out. unfold endComposite_said, leaving. cbn [fst snd].
  split; [reflexivity|]. rewrite append_assoc3. eexists. reflexivity.
Qed.
Lemma erases_vector ptr : erases (vector_read_said env ptr) vector_deserialiseImpl.
Proof.
  intros d out. unfold vector_read_said, vector_deserialiseImpl, list_attested, attest_is_list_said, bind, silently, ret.
  destruct ptr.
  - destruct (attest_is_list d) as [[] d1|e d1| | |]; auto using begins_refl. exact I.
  - unfold attest_is_list, require. destruct (is_type TList d) eqn:E; cbn; rewrite ?E; cbn; auto using begins_refl.
Qed.
Lemma erases_read : forall n ty, erases (read_said cs env named n ty) (read cs n ty).
Proof.
  induction n as [|n IH]; intros ty; [exact erases_fuel|]. destruct ty as [p ptr|c ptr|ptr].
  - cbn [read_said read]. unfold read_prim_said, read_prim. do 3 apply erases_trace. apply erases_ending.
    + apply erases_bind; [apply erases_get|]. intros v. apply erases_ret.
    + intros d out. split; [reflexivity|]. eexists. reflexivity.
  - rewrite read_said_class. do 2 apply erases_trace. cbn [read]. apply erases_composite. unfold read_line.
    assert (G : forall ts, erases (read_all_said env named (read_said cs env named n) ts) ((fix properties (ts : list ctype) : PM (list object) :=
                 match ts with [] => ret [] | t :: ts' => let! v := read cs n t in let! vs := properties ts' in ret (v :: vs) end) ts)).
    { induction ts as [|t ts IHt]; [apply erases_ret|]. cbn [read_all_said]. apply erases_trace. apply erases_bind; [apply IH|]. intros v.
      apply erases_bind; [exact IHt|]. intros vs. apply erases_ret. }
    destruct ptr; apply erases_trace; (apply erases_bind; [apply G|]); intros vs; apply erases_ret.
  - rewrite read_said_vector. do 2 apply erases_trace. cbn [read]. apply erases_composite. unfold read_line. destruct ptr; apply erases_trace; apply erases_vector.
Qed.
Lemma erases_ready : erases (readyPayload_said env tn tnum) readyPayload.
Proof.
  apply erases_trace. apply erases_bind; [apply erases_silently|]. intros _. apply erases_bind; [intros d out; repeat split; apply begins_refl|]. intros _.
  apply erases_bind; [apply erases_silently|]. intros k. apply erases_trace.
  assert (G : erases (list_attested env ;; enter_said ;; silently attest_is_described ;;
     auto_enter_said false (fun s => trace env "AMQPBlob.cxx" (span env 348 349) ("readyPayload::" ++ node_text tn tnum (fst s) ++ " " ++ describedToString (pn_get_ulong (fst s))) s))
     (attest_is_list ;; (fun d => Ok tt (w_enter d)) ;; attest_is_described ;; auto_enter false (ret tt))).
  { apply erases_bind; [apply erases_list|]. intros _. apply erases_bind; [intros d out; repeat split; apply begins_refl|]. intros _.
    apply erases_bind; [apply erases_silently|]. intros _. apply erases_enter. intros d out. unfold trace, Output.DBG, cout. cbn [fst]. repeat split. eexists. reflexivity. }
  destruct (N.eqb _ _); [exact G|apply erases_trace, G].
Qed.
Lemma erases_deserialise n ty : erases (deserialise_said cs env tn tnum named n ty) (deserialise cs n ty).
Proof. apply erases_trace. apply erases_bind; [apply erases_ready|]. intros _. apply erases_read. Qed.
End Erased.

(** ** What is shown *)
Section Shown.
Context (cs : classes) (env : platform) (tn : pn_type -> string) (tnum : pn_type -> Z) (named : ctype -> string).
Notation told' := (told cs env named).
Lemma returns_after vs a s : in_returns env vs s -> in_returns env vs (a ++ s).
Proof. intros []; [constructor|]. rewrite <- append_assoc3. now constructor. Qed.
Lemma returns_both vs ws s s' : in_returns env vs s -> in_returns env ws s' -> in_returns env (vs ++ ws)%list (s ++ s').
Proof. induction 1; intros H'; [now apply returns_after|]. cbn [List.app]. rewrite !append_assoc3. constructor. auto. Qed.
Lemma returns_before vs a s : in_returns env vs s -> in_returns env vs (s ++ a).
Proof. intros H. rewrite <- (app_nil_r vs). apply returns_both; [exact H|constructor]. Qed.
Definition shows (h : heard object) : Prop := forall x, snd h = Gives x -> in_returns env (values_of x) (fst h).
Lemma shows_after {A} (h : heard A) f : (forall a, shows (f a)) -> shows (and_then h f).
Proof. intros H x. unfold and_then. destruct h as [s [a|e| |]]; cbn [fst snd]; try discriminate. intros E. apply returns_after. now apply H. Qed.
Lemma shows_closing h s : shows h -> shows (closing h s).
Proof. intros H x. unfold closing. destruct (snd h) eqn:E; cbn [fst snd]; rewrite ?E; try discriminate. intros [= ->]. apply returns_before. now apply H. Qed.
Lemma shows_parts ty o f : (forall b, shows (f b)) -> shows (told_parts env named ty o f).
Proof. intros H. unfold told_parts. do 3 (apply shows_after; intros _). apply shows_after; intros t. apply shows_after; intros _. apply shows_after; intros b. apply shows_after; intros _. apply shows_closing, H. Qed.
Lemma shows_turn {A} (f : A -> heard object) l : (forall a, shows (f a)) ->
  forall xs, snd (in_turn f l) = Gives xs -> in_returns env (flat_map values_of xs) (fst (in_turn f l)).
Proof.
  intros H. induction l as [|a l IH]; intros xs; cbn [in_turn].
  - intros [= <-]. constructor.
  - specialize (H a). unfold and_then, shows in *. destruct (f a) as [s [x|e| |]]; cbn [fst snd] in *; try discriminate.
    destruct (in_turn f l) as [s' [xs'|e| |]]; cbn [fst snd silent] in *; try discriminate.
    intros [= <-]. cbn [flat_map]. rewrite append_nil. apply returns_both; auto.
Qed.
Lemma shows_told : forall n ty o, shows (told' n ty o).
Proof.
  induction n as [|n IH]; intros ty o; [discriminate|]. destruct ty as [p ptr|c ptr|ptr]; cbn [told].
  - unfold told_value. do 3 (apply shows_after; intros _). apply shows_closing. apply shows_after; intros v x.
    unfold and_then, note, silent. cbn [fst snd]. intros [= <-]. rewrite append_nil.
    assert (E : values_of (if ptr then OPrimPtr v else OPrim v) = [v]) by (destruct ptr; reflexivity). rewrite E.
    unfold at_line, SpecOutputWriter.line.
    replace ("PrimToSerializer<" ++ fst (value_line p) ++ ">::get - return " ++ text_of env v) with (("PrimToSerializer<" ++ fst (value_line p) ++ ">::get - ") ++ "return " ++ text_of env v)
      by now rewrite !append_assoc3.
    rewrite (append_assoc3 _ ("return " ++ _)), (append_assoc3 "return "), <- append_assoc3, <- (append_nil newline). constructor. constructor.
  - apply shows_parts. intros b. apply shows_after; intros _ x. unfold and_then.
    pose proof (shows_turn (fun p => let^ _ := announced env named (snd p) in told' n (snd p) (part (fst p) b)) (numbered (cs c))) as G.
    destruct (in_turn _ _) as [s [xs|e| |]]; cbn [fst snd silent] in *; try discriminate. intros [= <-]. rewrite append_nil.
    replace (values_of (if ptr then OClassPtr c xs else OClass c xs)) with (flat_map values_of xs) by (destruct ptr; reflexivity).
    apply G; [|reflexivity]. intros a. apply shows_after; intros _. apply IH.
  - apply shows_parts. intros b. apply shows_after; intros _. apply shows_after; intros _ x. discriminate.
Qed.
Lemma shows_blob n ty t : shows (told_blob cs env tn tnum named n ty t).
Proof.
  unfold told_blob. do 2 (apply shows_after; intros _). apply shows_after; intros t'. apply shows_after; intros _. apply shows_after; intros _.
  apply shows_after; intros b. apply shows_after; intros p. apply shows_after; intros _. apply shows_told.
Qed.
Lemma blob_not_empty n ty t : fst (told_blob cs env tn tnum named n ty t) <> "".
Proof.
  assert (N : forall f k s r, at_line env f k s ++ r <> "") by discriminate.
  unfold told_blob. match goal with |- fst (and_then (note _ _ _ _) ?f) <> _ => generalize f end. intros f. unfold and_then, note. cbn [fst snd].
  apply N.
Qed.
Lemma blob_shown n ty t out x d : height t <= n -> deserialise cs n ty (decoded t) = Ok x d ->
  exists s, deserialise_said cs env tn tnum named n ty (decoded t, out) = Ok x (d, out ++ s) /\ s <> "" /\ in_returns env (values_of x) s.
Proof.
  intros H E. pose proof (blob_goes cs env tn tnum named n ty t out H) as G. pose proof (erases_deserialise cs env tn tnum named n ty (decoded t) out) as K. rewrite E in K.
  unfold ends_as in G. pose proof (shows_blob n ty t) as S. unfold shows in S. pose proof (blob_not_empty n ty t) as N.
  destruct (snd (told_blob _ _ _ _ _ _ _ _)) as [y|e| |].
  - destruct G as (d' & G). rewrite G in *. destruct K as (-> & -> & _). eauto.
  - destruct G as (d' & G). rewrite G in K. destruct K.
  - now rewrite G in K.
  - now rewrite G in K.
Qed.
Lemma blob_hides n ty key p rest rest' more more' :
  told_blob cs env tn tnum named n ty (Node ADescribed (key :: Node AList (p :: rest) :: more)) =
  told_blob cs env tn tnum named n ty (Node ADescribed (key :: Node AList (p :: rest') :: more')).
Proof. reflexivity. Qed.
End Shown.
