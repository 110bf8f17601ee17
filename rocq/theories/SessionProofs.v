(** Proofs: inspecting one blob after another ends as SpecSession.v says. *)
From Coq Require Import Lia.
From Verif Require Import Base Proton ProtonProofs TypeNames Schema SpecSchema SchemaProofs Descriptors SpecDescriptors Factory SpecFactory FactoryProofs
  Readers SpecReaders Blob ReadersProofs SpecAccept AcceptProofs SpecDisplay SpecInstalled DisplayProofs ContentsProofs SpecReadScript SpecParse ParseProofs
  SpecSupply SupplyProofs FrameProofs SpecFate FateProofs PrepareProofs FateBlobProofs SpecSession.
Import List ListNotations.
Open Scope string_scope.

(** ** One entry *)
Lemma missing_prefix have t ks rest : Forall (fun k => known have t k = true) ks -> missing have t (map Some ks ++ rest) = missing have t rest.
Proof. induction 1 as [|k ks H _ IH]; [reflexivity|]. cbn [map app missing]. unfold known in H. now rewrite H. Qed.
Lemma missing_first have t k rest : known have t k = false -> missing have t (Some k :: rest) = Some k.
Proof. intros H. cbn [missing]. unfold known in H. now rewrite H. Qed.

Definition lands_with {A} (f : factory) (o : outcome factory A) (r : fate unit) (k : option string) : Prop :=
  match r with
  | Gives _ => exists a f', o = Ok a f' /\ same f f'
  | Raises e => exists k' f', k = Some k' /\ o = Throw e f' /\ marked f k' f'
  | Stops => False
  | Wild => o = UB
  end.
Lemma comes_to_missing {A} have t f ks rest (o : outcome factory A) : (forall q, avail f q <-> readable_prim q \/ In q have) ->
  comes_to (fits f t) ks f o ->
  (look_up have t (map Some ks ++ rest) = look_up have t rest /\ missing have t (map Some ks ++ rest) = missing have t rest /\ exists a f', o = Ok a f' /\ same f f') \/
  (look_up have t (map Some ks ++ rest) = Raises RuntimeError /\ exists k f', missing have t (map Some ks ++ rest) = Some k /\ o = Throw RuntimeError f' /\ marked f k f').
Proof.
  intros A0 [(H & E)|(ks1 & k & ks2 & f' & -> & H & N & E & M)]; [left|right].
  - assert (K : Forall (fun k => known have t k = true) ks) by (eapply Forall_impl; [|exact H]; intros k; apply (known_fits have t f k A0)).
    split; [now apply look_up_prefix|]. split; [now apply missing_prefix|exact E].
  - assert (K : Forall (fun k => known have t k = true) ks1) by (eapply Forall_impl; [|exact H]; intros q; apply (known_fits have t f q A0)).
    assert (Kk : known have t k = false). { destruct (known have t k) eqn:K0; [|reflexivity]. elim N. now apply (known_fits have t f k A0). }
    rewrite map_app, <- app_assoc. cbn [map app]. rewrite look_up_prefix, missing_prefix by exact K. split; [now apply look_up_missing|].
    exists k, f'. split; [now apply missing_first|auto].
Qed.
Lemma make_entry_ends kf t f have : proper t -> sound f -> (forall q, avail f q <-> readable_prim q \/ In q have) ->
  lands_with f (make_entry kf t f) (look_up have t (wanted kf t)) (missing have t (wanted kf t)).
Proof.
  intros [Hm Hp] S A0.
  assert (D : resolvable t \/ exists c a fd b, t = TComposite c /\ c_fields c = (a ++ fd :: b)%list /\ (forall fd, In fd a -> f_type fd = "*" -> f_requires fd <> []) /\ resolvedType fd = Undef /\ property_type fd = None).
  { destruct t as [c|x]; [|now left]. destruct (first_unresolved _ Hm) as [H|(a & fd & b & H)]; [now left|]. right. exists c, a, fd, b. tauto. }
  destruct D as [Hr|(c & a & fd & b & -> & E & Ha & Hu & Hn)].
  - destruct (looked_up_some kf t Hm Hr) as (ks & HL). rewrite (wanted_looked_up _ _ _ HL), <- (app_nil_r (map Some ks)).
    destruct (comes_to_missing have t f ks [] _ A0 (make_entry_outcome kf t ks f Hm Hp Hr HL S)) as [(-> & -> & x & f' & -> & Sm)|(-> & k & f' & -> & -> & M)]; cbn; eauto 6.
  - cbn [wanted make_entry]. rewrite E, map_app. cbn [map]. rewrite Hn. cbn [made] in Hm. rewrite E in Hm. apply Forall_app in Hm as [Hm _].
    assert (Hf : exists ks, Forall2 (fun fd k => property_type fd = Some k) a ks).
    { clear -Hm Ha. induction a as [|fd a IH]; [exists []; constructor|]. apply Forall_cons_iff in Hm as [Hm1 Hm].
      destruct (resolvedType_spec fd Hm1 (Ha fd (or_introl eq_refl))) as (t & _ & H2). destruct IH as (ks & Hks); [exact Hm|intros; apply Ha; auto; now right|].
      exists (t :: ks). now constructor. }
    destruct Hf as (ks & Hks).
    replace (map property_type a) with (map Some ks) by (clear -Hks; induction Hks; cbn; congruence).
    unfold processComposite. unfold bind at 1, make. cbn [n_name] in Hp.
    set (f1 := {| heap := heap f ++ [RComposite (c_name c) []]; types := types f; descriptors := descriptors f |}).
    assert (S1 : same f f1) by now apply same_types.
    pose proof (readers_outcome (List.length (heap f)) (c_name c) a Hp Hm ks (looked_up_fields _ _ Hm Ha Hks) f1 (same_sound _ _ S1 S)) as H.
    assert (H' : comes_to (fits f1 (TComposite c)) ks f1 (property_readers (List.length (heap f)) (c_name c) a f1)).
    { eapply comes_to_ok; [|exact H]. intros k. unfold fits, own. cbn [n_name is_restricted]. tauto. }
    assert (A1 : forall q, avail f1 q <-> readable_prim q \/ In q have) by (intros q; rewrite <- A0; apply S1).
    unfold bind at 1. rewrite E, property_readers_app. unfold bind at 1.
    destruct (comes_to_missing have (TComposite c) f1 ks (None :: map property_type b) _ A1 H') as [(-> & -> & x & f' & -> & _)|(-> & k & f' & -> & -> & M)].
    + cbn [look_up lands_with property_readers]. unfold bind at 1. unfold bind at 1. now rewrite Hu.
    + cbn. exists k, f'. split; [reflexivity|]. split; [reflexivity|]. eapply same_marked; eauto.
Qed.

(** ** What the factory remembers *)
Record remembers (m : memory) (f : factory) : Prop := {
  rm_sound : sound f;
  rm_clean : forall q, unpoisoned f q <-> ~ In q (m_lacked m);
  rm_avail : forall q, avail f q <-> readable_prim q \/ In q (names m);
  rm_backed : backed (m_installed m) (m_known m) f;
  rm_prints : forall fp, match print_of m fp with Some ty => exists i, byDescriptor f fp = Some i /\ byType f ty = Some i | None => byDescriptor f fp = None end;
  rm_types : Forall proper (m_known m);
  rm_custom : Forall (fun r => is_custom r /\ typeIsPrimitive (reader_type r) = false) (m_installed m);
  rm_names : NoDup (names m) }.

Lemma remembers_nothing : remembers nothing new_factory.
Proof.
  split.
  - intros k _. discriminate.
  - intros q. split; [intros _ []|intros _; discriminate].
  - intros q. cbn. unfold avail. cbn. intuition congruence.
  - intros k i H. discriminate.
  - reflexivity.
  - constructor.
  - constructor.
  - constructor.
Qed.
Lemma known_by_name m f t : remembers m f -> proper t -> (In (n_name t) (names m) <-> byType f (n_name t) <> None).
Proof.
  intros R Hp. rewrite <- (nonprim_avail f t Hp), (rm_avail _ _ R). split; [auto|]. intros [H|H]; [|exact H]. apply readable_primitive in H. destruct Hp as [_ Hq]. change (typeIsPrimitive (n_name t) = false) in Hq. congruence.
Qed.
Lemma print_of_print t m fp : print_of (print t m) fp = if String.eqb fp (n_descriptor t) then Some (n_name t) else print_of m fp.
Proof. unfold print_of, print. cbn [m_prints find fst]. rewrite (String.eqb_sym fp). now destruct (String.eqb _ fp). Qed.

Lemma NoDup_split {A} (a b : list A) : NoDup (a ++ b) -> NoDup a /\ NoDup b /\ forall x, In x a -> ~ In x b.
Proof.
  induction a as [|x a IH]; cbn [app]; intros N; [split; [constructor|]; split; [exact N|intros ? []]|]. inversion N as [|? ? N1 N2]; subst. destruct (IH N2) as (H1 & H2 & H3).
  split; [constructor; [rewrite in_app_iff in N1; tauto|exact H1]|]. split; [exact H2|]. intros y [<-|Hy]; [rewrite in_app_iff in N1; tauto|auto].
Qed.
Lemma NoDup_snoc {A} (a : list A) x : NoDup a -> ~ In x a -> NoDup (a ++ [x]).
Proof.
  induction 1 as [|y a N _ IH]; intros H; cbn [app]; [repeat constructor; tauto|]. cbn [In] in H. constructor; [|tauto]. rewrite in_app_iff. cbn [In]. intuition congruence.
Qed.
Lemma entry_right mo m f t : remembers m f -> proper t ->
  if memb (n_name t) (m_lacked m) then process_entry mo t f = UB
  else if memb (n_name t) (names m) then exists f', process_entry mo t f = Ok tt f' /\ remembers (print t m) f'
  else match look_up (names m) t (wanted mo t) with
       | Gives _ => exists f', process_entry mo t f = Ok tt f' /\ remembers (print t (know t m)) f'
       | Raises e => exists k f', missing (names m) t (wanted mo t) = Some k /\ process_entry mo t f = Throw e f' /\ remembers (lack k m) f'
       | Stops => False
       | Wild => process_entry mo t f = UB
       end.
Proof.
  intros R Hp. pose proof (proper_okent _ Hp) as Ho. pose proof (known_by_name _ _ _ R Hp) as Hb.
  destruct (process_type_cases mo t f (proj1 Ho) (proj2 Ho)) as [(j & E & P)|[(E & P)|(Ha & C)]].
  - assert (Hj : byType f (n_name t) = Some j) by now apply byType_spec.
    assert (Ml : memb (n_name t) (m_lacked m) = false).
    { destruct (memb _ _) eqn:M; [|reflexivity]. apply memb_spec in M. assert (U : unpoisoned f (n_name t)) by (unfold unpoisoned; congruence). apply (rm_clean _ _ R) in U. contradiction. }
    assert (M : memb (n_name t) (names m) = true) by (apply memb_spec, Hb; congruence). rewrite Ml, M.
    eexists. split. { unfold process_entry, bind. rewrite P. unfold types_at. rewrite E. reflexivity. }
    destruct R as [R1 R2 R3 R4 R5 R6 R7 R8]. split; try assumption. intros fp. rewrite print_of_print, byDescriptor_put.
    destruct (String.eqb fp (n_descriptor t)); [|apply R5]. exists j. split; [reflexivity|exact Hj].
  - assert (Ml : memb (n_name t) (m_lacked m) = true).
    { destruct (memb _ _) eqn:M; [reflexivity|]. assert (U : ~ In (n_name t) (m_lacked m)) by (rewrite <- memb_spec; congruence). apply (rm_clean _ _ R) in U. contradiction. }
    rewrite Ml. unfold process_entry, bind. now rewrite P.
  - assert (Un : unpoisoned f (n_name t)) by (unfold unpoisoned; unfold absent in Ha; congruence).
    assert (Ml : memb (n_name t) (m_lacked m) = false).
    { destruct (memb _ _) eqn:M; [|reflexivity]. apply memb_spec in M. apply (rm_clean _ _ R) in Un. contradiction. }
    assert (M : memb (n_name t) (names m) = false).
    { destruct (memb (n_name t) (names m)) eqn:M; [|reflexivity]. apply memb_spec, Hb in M. elim M. now apply absent_byType. }
    rewrite Ml, M. pose proof (make_entry_ends mo t f (names m) Hp (rm_sound _ _ R) (rm_avail _ _ R)) as F.
    pose proof (process_entry_ext mo t f Ho) as X.
    destruct R as [R1 R2 R3 R4 R5 R6 R7 R8]. destruct (look_up (names m) t (wanted mo t)) as [[]|e| |] eqn:EL; cbn [lands_with] in F.
    + destruct F as (i & f1 & F & _).
      assert (B1 : backed (m_installed m) (m_known m ++ [t]) f) by (eapply backed_incl; [apply incl_refl|apply incl_appl, incl_refl|exact R4]).
      pose proof (process_entry_backed mo t (m_installed m) (m_known m ++ [t]) (proj1 Hp) Ho (in_or_app _ [t] t (or_intror (or_introl eq_refl))) f B1) as B2.
      assert (Gr : exists f2, process_entry mo t f = Ok tt f2 /\ grown f t f2).
      { destruct (first_resolvable mo (names m) t (proj1 Hp) EL) as (ks & Hr & HL).
        destruct (entry_outcome mo t ks f Hp Hr HL R1) as [(_ & _ & f2 & E2 & G)|[(_ & _ & ks1 & k & ks2 & f2 & -> & _ & _ & E2 & _)|(N & _)]]; [eauto| |contradiction].
        exfalso. unfold process_entry, bind in E2. destruct C as [(i' & g & r & _ & _ & _ & _ & _ & P)|[(e & g & E' & _)|[(_ & E')|[(_ & E')|(_ & E')]]]]; [|congruence..].
        rewrite P in E2. unfold types_at in E2. cbn [types set_types] in E2. rewrite assoc_put_same in E2. discriminate. }
      destruct Gr as (f2 & E2 & G). exists f2. split; [exact E2|]. rewrite E2 in B2, X. cbn [lands] in B2, X.
      destruct (process_entry_cases mo t f Ho) as [(i2 & f3 & P3 & H3 & D3 & E3)|[(e & f3 & _ & E3)|[E3|[E3|E3]]]]; rewrite E2 in E3; try discriminate. injection E3 as ->.
      split.
      * intros q Hq. apply G. auto.
      * intros q. destruct (G q) as [_ ->]. apply R2.
      * intros q. destruct (G q) as [-> _]. rewrite R3. unfold names, know, print. cbn [m_installed m_known]. rewrite map_app, !in_app_iff. cbn [map In]. intuition congruence.
      * exact B2.
      * intros fp. rewrite print_of_print, byDescriptor_put. destruct (String.eqb fp (n_descriptor t)); [exists i2; split; [reflexivity|exact H3]|].
        specialize (R5 fp). change (print_of (know t m) fp) with (print_of m fp). unfold byDescriptor in R5 |- *. rewrite D3. destruct (print_of m fp); [|exact R5]. destruct R5 as (j & H1 & H2). exists j. split; [exact H1|]. now apply X.
      * cbn. apply Forall_app. auto.
      * exact R7.
      * unfold names, know, print. cbn [m_installed m_known]. rewrite map_app, app_assoc. fold (names m). cbn [map]. apply NoDup_snoc; [exact R8|].
        intros Hq. apply memb_spec in Hq. congruence.
    + destruct F as (k & f1 & F1 & F & Mk). exists k, f1. split; [exact F1|].
      destruct C as [(i' & g & r & E' & _)|[(e' & g & E' & P)|[(_ & E')|[(_ & E')|(_ & E')]]]]; rewrite F in E'; try discriminate. injection E' as <- <-.
      split; [unfold process_entry, bind; now rewrite P|].
      pose proof (make_entry_origin mo t f (proj1 Ho) f (fun k i H => or_introl H)) as Or. rewrite F in Or. cbn [lands] in Or.
      pose proof (make_entry_ext mo t f (proj1 Ho)) as Ex. rewrite F in Ex. cbn [lands] in Ex.
      pose proof (make_entry_descriptors mo t f (proj1 Ho)) as De. rewrite F in De. cbn [lands] in De.
      split; try assumption.
      * eapply marked_sound; eauto.
      * intros q. destruct (Mk q) as [_ ->]. rewrite R2. unfold lack. cbn [m_lacked]. destruct (own_name k) eqn:Ok.
        -- apply own_spec in Ok. cbn [In]. destruct (String.eqb_spec q k) as [->|Nq]; [|intuition congruence]. tauto.
        -- assert (~ typeIsPrimitive k = false) by (rewrite <- own_spec; congruence). tauto.
      * intros q. destruct (Mk q) as [-> _]. apply R3.
      * exact (backed_mono _ _ _ _ R4 Ex Or).
      * intros fp. specialize (R5 fp). change (print_of (lack k m) fp) with (print_of m fp). unfold byDescriptor in R5 |- *. rewrite De. destruct (print_of m fp); [|exact R5]. destruct R5 as (j & H1 & H2). exists j. split; [exact H1|]. now apply Ex.
    + destruct F.
    + destruct C as [(i' & g & r & E' & _)|[(e' & g & E' & P)|[(_ & E')|[(P & E')|(_ & E')]]]]; rewrite F in E'; try discriminate.
      unfold process_entry, bind. now rewrite P.
Qed.
Lemma learn_right mo ts : forall m f, remembers m f -> Forall proper ts ->
  match fst (learn mo m ts) with
  | Gives _ => exists f', process_entries mo ts f = Ok tt f' /\ remembers (snd (learn mo m ts)) f'
  | Raises e => exists f', process_entries mo ts f = Throw e f' /\ remembers (snd (learn mo m ts)) f'
  | Stops => False
  | Wild => process_entries mo ts f = UB
  end.
Proof.
  induction ts as [|t ts IH]; intros m f R Hp; cbn [learn process_entries].
  - cbn. eauto.
  - apply Forall_cons_iff in Hp as [Hp1 Hp]. pose proof (entry_right mo m f t R Hp1) as E. unfold bind.
    destruct (memb (n_name t) (m_lacked m)); [cbn; now rewrite E|]. destruct (memb (n_name t) (names m)).
    + destruct E as (f' & -> & R'). now apply IH.
    + destruct (look_up (names m) t (wanted mo t)) as [[]|e| |].
      * destruct E as (f' & -> & R'). now apply IH.
      * destruct E as (k & f' & -> & -> & R'). cbn. eauto.
      * destruct E.
      * rewrite E. destruct (missing _ _ _); reflexivity.
Qed.

Lemma learn_installed mo ts : forall m, m_installed (snd (learn mo m ts)) = m_installed m.
Proof.
  induction ts as [|t ts IH]; intros m; [reflexivity|]. cbn [learn]. destruct (memb _ _); [reflexivity|]. destruct (memb _ _); [now rewrite IH|].
  destruct (look_up (names m) t (wanted mo t)); [now rewrite IH|..]; destruct (missing _ _ _); reflexivity.
Qed.

(** ** One blob *)
Lemma called_known us ty u : In u us -> n_name u = ty -> NoDup (map n_name us) -> type_called us ty = Some u.
Proof.
  intros H <- N. unfold type_called. induction us as [|t us IH]; [destruct H|]. cbn [map find] in *. inversion N as [|? ? N1 N2]; subst. destruct H as [->|H].
  - now rewrite String.eqb_refl.
  - destruct (String.eqb_spec (n_name t) (n_name u)) as [E|]; [|auto]. elim N1. rewrite E. now apply in_map.
Qed.
Lemma remembered_found m f : remembers m f -> forall ty i, byType f ty = Some i -> exists r, lock f i = Some r /\ found_as f (m_installed m) (m_known m) ty r.
Proof.
  intros R ty i Hi. destruct (rm_backed _ _ R ty i Hi) as (r & Hr & C). exists r. split; [eapply byType_lock; eauto|]. unfold found_as.
  destruct (NoDup_split _ _ (rm_names _ _ R)) as (N1 & N2 & N3). pose proof (rm_custom _ _ R) as Hc. rewrite Forall_forall in Hc. pose proof (rm_types _ _ R) as Ht. rewrite Forall_forall in Ht.
  destruct C as [(p & -> & ->)|[[C <-]|(t & T & <- & Rd)]]; [left; eauto| |]; right.
  - split; [now apply Hc|]. rewrite (find_named _ _ N1 C). split; [now apply Hc|reflexivity].
  - split; [apply Ht, T|]. rewrite find_unnamed; [|intros X; exact (N3 _ X (in_map n_name _ _ T))]. exists t. split; [now apply called_known|exact Rd].
Qed.

Lemma custom_reader_spec r : custom_reader r = true <-> is_custom r.
Proof. destruct r; cbn; intuition discriminate. Qed.
Section Looking.
Context (fmt : N -> string) (custom : nat -> option string -> PM ivalue) (answers : nat -> bool -> option tree -> fate string) (mo kf : bool) (fuel : nat).
Notation looking := (look fmt answers mo kf).
Lemma look_right m f t : answers_as (m_installed m) custom answers -> remembers m f -> own_names [] t = true -> height t < fuel ->
  match fst (looking m t) with
  | Gives x => exists f', dumpContents fmt custom mo kf fuel (decoded t, f) = Ok x (decoded t, f') /\ remembers (snd (looking m t)) f'
  | Raises e => exists f', dumpContents fmt custom mo kf fuel (decoded t, f) = Throw e (decoded t, f') /\ remembers (snd (looking m t)) f'
  | Stops => dumpContents fmt custom mo kf fuel (decoded t, f) = Abort
  | Wild => dumpContents fmt custom mo kf fuel (decoded t, f) = UB
  end.
Proof.
  intros Ha R Ho Hh. apply own_names_spec in Ho as [_ Hn]. unfold look, dumpContents. unfold bind at 1 3 5 7. unfold on_data at 1 3 5 7. cbv beta iota.
  pose proof (envelope_fate fuel t ltac:(lia)) as E. destruct (envelope_of t) as [e|x| |] eqn:Ee; cbn [fst snd]; [|rewrite E; eauto|destruct E|now rewrite E].
  destruct E as [-> Hm]. set (ts := List.concat (s_types (e_schema e))) in *.
  assert (Hp : Forall proper ts). { rewrite Forall_forall in *. intros n X. split; [auto|]. eapply Hn; eauto. }
  pose proof (learn_right mo ts m f R Hp) as P.
  pose proof (learn_installed mo ts m) as I.
  destruct (learn mo m ts) as [r m']. cbn [fst snd] in *. unfold bind, on_factory, process. fold ts. cbv beta iota.
  destruct r as [[]|x| |]; cbn [onward].
  2:{ destruct P as (f' & -> & R'). eauto. } 2:{ destruct P. } 2:{ now rewrite P. }
  destruct P as (f' & -> & R'). cbn [snd]. pose proof (rm_prints _ _ R' (e_descriptor e)) as Hl. destruct (print_of m' (e_descriptor e)) as [ty|]; [|now rewrite Hl].
  destruct Hl as (i & -> & Hi). destruct (remembered_found _ _ R' _ _ Hi) as (r & Hr & _). unfold reader_at. rewrite (lock_heap _ _ _ Hr).
  rewrite <- I in Ha. pose proof (payload_right fmt custom answers kf (m_installed m') (m_known m') f' (e_schema e) t fuel ty i r Ha (remembered_found _ _ R') Hi Hr Hh) as L. fold ts in L.
  unfold payload. set (x := match part 1 t with Some (Node AList cs) => _ | _ => _ end) in *.
  cbn [on_data]. destruct x as [y|y| |]; cbn [leaves] in L.
  - destruct L as (a & -> & ->). eauto.
  - rewrite L. eauto.
  - now rewrite L.
  - now rewrite L.
Qed.
Lemma look_installed m t : m_installed (snd (looking m t)) = m_installed m.
Proof.
  unfold look. destruct (envelope_of t) as [e| | |]; try reflexivity. set (ts := List.concat _). 
  pose proof (learn_installed mo ts m) as I.
  destruct (learn mo m ts). exact I.
Qed.

Lemma add_right m f r : remembers m f -> is_custom r -> typeIsPrimitive (reader_type r) = false -> ~ In (reader_type r) (names m) ->
  exists f', installCustomSerialiser r f = Ok tt f' /\ remembers (add r m) f'.
Proof.
  intros R Hc Hn Hi.
  assert (N : byType f (reader_type r) = None).
  { destruct (byType f (reader_type r)) eqn:E; [|reflexivity]. assert (A : avail f (reader_type r)) by (right; congruence). apply (rm_avail _ _ R) in A as [A|A]; [|contradiction].
    apply readable_primitive in A. congruence. }
  destruct (installCustomSerialiser r f) as [[] f'| | | |] eqn:E; try discriminate. exists f'. split; [reflexivity|].
  pose proof (step_backed mo (Install r) f f' _ _ (conj Hc N) (or_introl E) (rm_backed _ _ R)) as B.
  destruct (install_ext r f f' N E) as (X & H1 & H2 & H3). unfold installCustomSerialiser, bind, make in E. injection E as <-. set (f1 := set_types _ _) in *.
  assert (Bt : forall q, byType f1 q = if String.eqb q (reader_type r) then Some (List.length (heap f)) else byType f q).
  { intros q. unfold f1. unfold byType. cbn [types set_types]. rewrite assoc_put. now destruct (String.eqb q (reader_type r)). }
  destruct R as [R1 R2 R3 R4 R5 R6 R7 R8]. split.
  - intros k Hk. unfold unpoisoned, f1. cbn [types set_types]. rewrite assoc_put. destruct (String.eqb k (reader_type r)); [discriminate|]. now apply R1.
  - intros q. unfold unpoisoned, f1. cbn [types set_types]. rewrite assoc_put. unfold add. cbn [m_lacked]. rewrite filter_In.
    destruct (String.eqb_spec q (reader_type r)) as [->|Nq]; [split; [intros _ [_ ?]; discriminate|discriminate]|]. rewrite <- R2 || idtac.
    specialize (R2 q). unfold unpoisoned in R2. cbn [negb]. tauto.
  - intros q. unfold avail. rewrite Bt. specialize (R3 q). unfold avail in R3. unfold names, add in *. cbn [m_installed m_known]. rewrite map_app, !in_app_iff in *. cbn [map In].
    destruct (String.eqb_spec q (reader_type r)) as [->|Nq]; [intuition discriminate|]. intuition congruence.
  - eapply backed_incl; [|apply incl_refl|exact B]. intros q. cbn. rewrite in_app_iff. cbn. tauto.
  - intros fp. specialize (R5 fp). change (print_of (add r m) fp) with (print_of m fp). unfold byDescriptor in R5 |- *. rewrite H3. destruct (print_of m fp); [|exact R5].
    destruct R5 as (j & G1 & G2). exists j. split; [exact G1|]. now apply X.
  - exact R6.
  - cbn. apply Forall_app. auto.
  - unfold names, add. cbn [m_installed m_known]. rewrite map_app, <- app_assoc. cbn [map app]. apply NoDup_Add with (a := reader_type r) (l := names m); [apply Add_app|]. auto.
Qed.

(** ** A history *)
Definition low (es : list event) : Prop := forall t, In (Look t) es -> height t < fuel.
Lemma story_right es : forall m f, answers_as (m_installed m ++ added es) custom answers -> remembers m f -> orderly fmt answers mo kf m es = true -> low es ->
  Forall2 (fun o p => turns_out (fst p) o (snd p)) (sitting fmt custom mo kf fuel es f) (story fmt answers mo kf m es).
Proof.
  induction es as [|[t|r] es IH]; intros m f Ha R Ho Hl; cbn [sitting story orderly] in *; [constructor| |].
  - apply andb_true_iff in Ho as [Ho1 Ho].
    assert (Ha1 : answers_as (m_installed m) custom answers) by (intros ty w Hi; apply (Ha ty w), in_or_app; now left).
    pose proof (look_right m f t Ha1 R Ho1 (Hl t (or_introl eq_refl))) as L. pose proof (look_installed m t) as I.
    destruct (looking m t) as [x m']. cbn [fst snd] in *.
    assert (Ha2 : answers_as (m_installed m' ++ added es) custom answers) by (rewrite I; exact Ha).
    assert (Hl2 : low es) by (intros u Hu; apply Hl; now right).
    destruct x as [x|x| |].
    + destruct L as (f' & E & R'). rewrite E. constructor; [cbn; eauto|]. now apply IH.
    + destruct L as (f' & E & R'). rewrite E. constructor; [cbn; eauto|]. now apply IH.
    + rewrite L. repeat constructor.
    + rewrite L. repeat constructor.
  - rewrite !andb_true_iff, negb_true_iff in Ho. destruct Ho as [[[H1 H2] H3] Ho].
    destruct (add_right m f r R) as (f' & -> & R').
    + now apply custom_reader_spec.
    + now apply own_spec.
    + intros X. apply memb_spec in X. congruence.
    + apply IH; [|exact R'|exact Ho|intros u Hu; apply Hl; now right].
      intros ty w Hi. apply (Ha ty w). cbn [add m_installed] in Hi. unfold added. cbn [map List.concat]. now rewrite app_assoc.
Qed.
End Looking.

(** ** As with a new factory *)
Lemma look_up_mono have have' t ks : incl have have' -> look_up have t ks = Gives tt -> look_up have' t ks = Gives tt.
Proof.
  intros Hi. induction ks as [|[k|] ks IH]; cbn [look_up]; [auto| |discriminate]. destruct (itself t k); [exact IH|]. destruct (memb k primitives); [exact IH|]. cbn [orb].
  destruct (memb k have) eqn:M; [|discriminate]. apply memb_spec, Hi, memb_spec in M. rewrite M. exact IH.
Qed.
Lemma called_app a b ty : type_called (a ++ b) ty = match type_called a ty with Some u => Some u | None => type_called b ty end.
Proof. unfold type_called. induction a as [|t a IH]; [reflexivity|]. cbn. destruct (String.eqb (n_name t) ty); auto. Qed.
Lemma find_snoc {A} (p : A -> bool) l x : find p (l ++ [x]) = match find p l with Some y => Some y | None => if p x then Some x else None end.
Proof. induction l as [|y l IH]; [reflexivity|]. cbn. destruct (p y); auto. Qed.
Lemma learn_all mo ts : forall have m, incl have (names m) -> (forall u, In u ts -> ~ In (n_name u) (m_lacked m)) -> prepare mo have ts = Gives tt ->
  exists m', learn mo m ts = (Gives tt, m') /\ m_lacked m' = m_lacked m /\ incl (m_known m') (m_known m ++ ts) /\
  (forall ty, ~ In ty (map reader_type (m_installed m)) -> type_called (m_known m') ty = match type_called (m_known m) ty with Some u => Some u | None => type_called ts ty end) /\
  forall fp, print_of m' fp = match find (fun t => String.eqb (n_descriptor t) fp) (rev ts) with Some t => Some (n_name t) | None => print_of m fp end.
Proof.
  induction ts as [|t ts IH]; intros have m Hi Hl P; cbn [learn prepare rev] in *.
  - exists m. split; [reflexivity|]. split; [reflexivity|]. split; [apply incl_appl, incl_refl|]. split; [|reflexivity]. intros ty _. destruct (type_called (m_known m) ty); reflexivity.
  - assert (Ml : memb (n_name t) (m_lacked m) = false). { destruct (memb (n_name t) (m_lacked m)) eqn:M; [|reflexivity]. apply memb_spec in M. elim (Hl t (or_introl eq_refl) M). }
    assert (Hl' : forall u, In u ts -> ~ In (n_name u) (m_lacked m)) by (intros u Hu; apply Hl; now right).
    rewrite Ml. destruct (memb (n_name t) (names m)) eqn:M.
    + assert (P' : exists have', incl have' (names m) /\ prepare mo have' ts = Gives tt).
      { destruct (memb (n_name t) have) eqn:M'; [eauto|]. destruct (look_up have t (wanted mo t)) as [[]| | |]; try discriminate. cbn [onward] in P. exists (n_name t :: have). split; [|exact P].
        intros q [<-|Hq]; [now apply memb_spec|auto]. }
      destruct P' as (have' & Hi' & P'). destruct (IH have' (print t m) Hi' Hl' P') as (m' & E1 & E2 & E3 & E4 & E5).
      exists m'. split; [exact E1|]. split; [exact E2|]. split; [intros u Hu; apply E3 in Hu; cbn in Hu; rewrite in_app_iff in *; cbn; tauto|]. split.
      * intros ty Hty. rewrite E4 by exact Hty. cbn [print m_known]. destruct (type_called (m_known m) ty) eqn:C; [reflexivity|]. unfold type_called in *. cbn [find].
        destruct (String.eqb_spec (n_name t) ty) as [<-|]; [|reflexivity]. exfalso. apply memb_spec in M. unfold names in M. apply in_app_iff in M as [M|M]; [contradiction|].
        apply in_map_iff in M as (u & Hu & M). apply (find_none _ _ C) in M. rewrite Hu, String.eqb_refl in M. discriminate.
      * intros fp. rewrite E5, find_snoc, print_of_print, (String.eqb_sym fp). destruct (find _ (rev ts)); [reflexivity|]. now destruct (String.eqb _ _).
    + assert (M' : memb (n_name t) have = false). { destruct (memb _ have) eqn:M'; [|reflexivity]. apply memb_spec, Hi, memb_spec in M'. congruence. }
      rewrite M' in P. destruct (look_up have t (wanted mo t)) as [[]| | |] eqn:L; try discriminate. cbn [onward] in P. rewrite (look_up_mono _ _ _ _ Hi L).
      assert (Hi' : incl (n_name t :: have) (names (print t (know t m)))).
      { unfold names, print, know. cbn [m_installed m_known]. rewrite map_app, app_assoc. intros q [<-|Hq]; apply in_app_iff; [right; now left|left; now apply Hi]. }
      destruct (IH (n_name t :: have) (print t (know t m)) Hi' Hl' P) as (m' & E1 & E2 & E3 & E4 & E5).
      exists m'. split; [exact E1|]. split; [exact E2|]. split; [intros u Hu; apply E3 in Hu; cbn in Hu; rewrite !in_app_iff in *; cbn in *; tauto|]. split.
      * intros ty Hty. rewrite E4 by exact Hty. cbn [print know m_known]. rewrite called_app. destruct (type_called (m_known m) ty); [reflexivity|].
        unfold type_called. cbn [find]. destruct (String.eqb (n_name t) ty); reflexivity.
      * intros fp. rewrite E5, find_snoc, print_of_print, (String.eqb_sym fp). destruct (find _ (rev ts)); [reflexivity|]. now destruct (String.eqb _ _).
Qed.

(** The names that are looked up are there. *)
Lemma look_up_known have t ks k : look_up have t ks = Gives tt -> In (Some k) ks -> itself t k = true \/ In k primitives \/ In k have.
Proof.
  induction ks as [|[q|] ks IH]; cbn [look_up]; intros L H; [destruct H| |discriminate].
  destruct (itself t q || memb q primitives || memb q have) eqn:E; [|discriminate]. destruct H as [[= ->]|H]; [|auto].
  rewrite !orb_true_iff, !memb_spec in E. tauto.
Qed.
Lemma prepared_names mo ts : forall have, prepare mo have ts = Gives tt -> forall ty u k, ~ In ty have -> type_called ts ty = Some u -> In (Some k) (wanted mo u) ->
  In k primitives \/ In k have \/ In k (map n_name ts).
Proof.
  induction ts as [|t ts IH]; intros have P ty u k Hty C H; [discriminate|]. cbn [prepare] in P. unfold type_called in C. cbn [find] in C.
  assert (S : forall h, (In k primitives \/ In k h \/ In k (map n_name ts)) -> (forall q, In q h -> In q have \/ q = n_name t) -> In k primitives \/ In k have \/ In k (map n_name (t :: ts))).
  { intros h [X|[X|X]] Y; cbn [map In]; [auto| |auto]. apply Y in X as [X| ->]; auto. }
  destruct (String.eqb_spec (n_name t) ty) as [E|E].
  - injection C as ->. destruct (memb (n_name u) have) eqn:M; [apply memb_spec in M; congruence|].
    destruct (look_up have u (wanted mo u)) as [[]| | |] eqn:L; try discriminate. destruct (look_up_known _ _ _ _ L H) as [X|[X|X]]; auto.
    right. right. left. destruct u as [c|]; [|discriminate]. cbn in X. apply String.eqb_eq in X. now rewrite X.
  - destruct (memb (n_name t) have).
    + eapply S; [eapply IH; eauto|auto].
    + destruct (look_up have t (wanted mo t)) as [[]| | |]; try discriminate. cbn [onward] in P.
      eapply S; [eapply (IH _ P ty u); [intros [X|X]; [congruence|contradiction]|exact C|exact H]|]. intros q [<-|Hq]; auto.
Qed.

Section Same.
Context (double : N -> string) (mo kf : bool) (known ts : list notation) (inst : string -> option (bool -> option tree -> fate string)).
Definition within (ty : string) : Prop := In ty primitives \/ inst ty <> None \/ In ty (map n_name ts).
Hypothesis Hcalled : forall ty, inst ty = None -> In ty (map n_name ts) -> type_called known ty = type_called ts ty.
Hypothesis Hwanted : forall ty u k, inst ty = None -> type_called ts ty = Some u -> In (Some k) (wanted mo u) -> within k.
Lemma primitive_given ty o : In ty primitives -> primitive double dec ty o <> None.
Proof. unfold primitives. cbn [In]. intros [<-|[<-|[<-|[<-|[<-|[<-|[<-|[]]]]]]]]; cbn; discriminate. Qed.
Lemma value_same : forall n b ty o, within ty -> value double dec kf known ts inst n b ty o = value double dec kf ts ts inst n b ty o.
Proof.
  induction n as [|n IH]; intros b ty o W; [reflexivity|]. cbn [value].
  destruct (primitive _ _ ty o) as [r|] eqn:Ep; [reflexivity|]. destruct (inst ty) as [g|] eqn:Ei; [reflexivity|].
  destruct W as [W|[W|W]]; [elim (primitive_given ty o W Ep)|congruence|]. rewrite (Hcalled ty Ei W). pose proof (fun u k => Hwanted ty u k Ei) as Hw.
  destruct (type_called ts ty) as [u|]; [|reflexivity]. specialize (fun k => Hw u k eq_refl). destruct u as [c|x].
  - unfold object_of. assert (X : forall body, every (property (value double dec kf known ts inst n) body) (numbered (c_fields c)) = every (property (value double dec kf ts ts inst n) body) (numbered (c_fields c))).
    { intros body. apply every_ext. intros p Hp. unfold property. destruct (property_type (snd p)) as [ty'|] eqn:Et; [|reflexivity]. apply IH, Hw.
      cbn [wanted]. rewrite <- Et. apply in_map. unfold numbered in Hp. apply in_combine_r with (x := fst p) in Hp || idtac. destruct p. now apply in_combine_r in Hp. }
    destruct o as [[[] cs]|]; try reflexivity. apply onward_ext. intros t Ht. apply onward_ext. intros fp _. destruct (type_printed ts fp) as [[c'|]|]; try reflexivity.
    destruct (Nat.eqb _ _); [|reflexivity]. destruct (part 1 t) as [[[] bs]|]; try reflexivity. now rewrite X.
  - assert (Sq : forall e, within e -> sequence_of ts (value double dec kf known ts inst n) e o = sequence_of ts (value double dec kf ts ts inst n) e o).
    { intros e He. unfold sequence_of. apply onward_ext. intros t Ht. apply onward_ext. intros _ _. f_equal. apply every_ext. intros p Hp. now apply IH. }
    assert (Mp : forall k v, within k -> within v -> mapping_of kf ts (value double dec kf known ts inst n) k v o = mapping_of kf ts (value double dec kf ts ts inst n) k v o).
    { intros k v Hk Hv. unfold mapping_of. apply onward_ext. intros t Ht. apply onward_ext. intros _ _. f_equal. apply every_ext. intros i _. unfold entry_of.
      now rewrite !(IH _ k), !(IH _ v) by assumption. }
    cbn [wanted] in Hw. destruct (r_kind x); destruct (r_of x) as [|k1 [|k2 [|]]]; auto; try (apply Sq, Hw; now left); apply Mp; apply Hw; destruct mo; cbn; auto.
Qed.
End Same.

Lemma serialiser_none answers rs ty : Forall is_custom rs -> serialiser_for answers rs ty = None -> ~ In ty (map reader_type rs).
Proof.
  intros Hc H X. apply in_map_iff in X as (r & <- & X). unfold serialiser_for in H. destruct (find _ rs) as [q|] eqn:E.
  - apply find_some in E as [E _]. rewrite Forall_forall in Hc. apply Hc in E. destruct q; try destruct E; discriminate.
  - apply (find_none _ _ E) in X. rewrite String.eqb_refl in X. discriminate.
Qed.
Lemma serialiser_some answers rs ty : Forall is_custom rs -> In ty (map reader_type rs) -> serialiser_for answers rs ty <> None.
Proof. intros Hc X H. now apply (serialiser_none _ _ _ Hc) in H. Qed.

Lemma look_new double answers mo kf m t : Forall is_custom (m_installed m) -> self_contained mo (m_installed m) t ->
  (forall u, In u (types_of_blob t) -> ~ In (n_name u) (m_lacked m)) -> agree (m_known m) (types_of_blob t) ->
  fst (look double answers mo kf m t) = inspected double answers mo kf (m_installed m) t /\
  m_lacked (snd (look double answers mo kf m t)) = m_lacked m /\ incl (m_known (snd (look double answers mo kf m t))) (m_known m ++ types_of_blob t).
Proof.
  unfold self_contained, types_of_blob, look, inspected. intros Hc Hs Hl Ha. destruct (envelope_of t) as [e|x| |]; cbn [onward fst snd]; try (split; [reflexivity|]; split; [reflexivity|apply incl_appl, incl_refl]).
  destruct Hs as [Hp Hn]. set (ts := List.concat (s_types (e_schema e))) in *.
  destruct (learn_all mo ts (map reader_type (m_installed m)) m (incl_appl _ (incl_refl _)) Hl Hp) as (m' & E1 & E2 & E3 & E4 & E5).
  pose proof (learn_installed mo ts m) as Ei. rewrite E1 in Ei |- *. cbn [fst snd onward] in *. split; [|auto]. rewrite Hp, E5. cbn [onward]. unfold payload_type in *. fold ts in Hn |- *.
  destruct (find _ (rev ts)) as [n|] eqn:En; [|congruence]. unfold payload. rewrite Ei. destruct (part 1 t) as [[[] cs]|]; try reflexivity. destruct (Nat.eqb _ _); [|reflexivity].
  f_equal. apply (value_same double mo).
  - intros ty Hi Hty. apply (serialiser_none _ _ _ Hc) in Hi. rewrite E4 by exact Hi. destruct (type_called (m_known m) ty) as [u|] eqn:C; [|reflexivity].
    apply find_some in C as [C1 C2]. apply String.eqb_eq in C2. symmetry. unfold type_called.
    destruct (find (fun t0 => String.eqb (n_name t0) ty) ts) as [v|] eqn:D.
    + apply find_some in D as [D1 D2]. apply String.eqb_eq in D2. f_equal. symmetry. apply Ha; congruence.
    + exfalso. apply in_map_iff in Hty as (v & <- & Hv). apply (find_none _ _ D) in Hv. rewrite String.eqb_refl in Hv. discriminate.
  - intros ty u k Hi C W. apply (serialiser_none _ _ _ Hc) in Hi. destruct (prepared_names mo ts _ Hp ty u k Hi C W) as [X|[X|X]]; [now left| |right; now right].
    right. left. now apply serialiser_some.
  - right. right. apply in_map. apply find_some in En as [En _]. now apply in_rev.
Qed.

(** ** A history of blobs that agree *)
Lemma learnt_names mo ts : forall m, incl (m_known (snd (learn mo m ts))) (m_known m ++ ts).
Proof.
  induction ts as [|t ts IH]; intros m; cbn [learn]; [apply incl_appl, incl_refl|]. destruct (memb _ (m_lacked m)); [apply incl_appl, incl_refl|]. destruct (memb _ (names m)).
  - intros u Hu. apply IH in Hu. cbn in Hu. rewrite in_app_iff in *. cbn. tauto.
  - destruct (look_up (names m) t (wanted mo t)).
    + intros u Hu. apply IH in Hu. cbn in Hu. rewrite !in_app_iff in *. cbn in *. tauto.
    + destruct (missing _ _ _); apply incl_appl, incl_refl.
    + destruct (missing _ _ _); apply incl_appl, incl_refl.
    + destruct (missing _ _ _); apply incl_appl, incl_refl.
Qed.
Section Agreeing.
Context (double : N -> string) (answers : nat -> bool -> option tree -> fate string) (mo kf : bool).
Lemma story_new ts : forall m, Forall is_custom (m_installed m) -> m_lacked m = [] -> (forall t, In t ts -> own_names (m_installed m) t = true) ->
  (forall t, In t ts -> self_contained mo (m_installed m) t) -> (forall t, In t ts -> agree (m_known m) (types_of_blob t)) ->
  ForallOrdPairs (fun t t' => agree (types_of_blob t) (types_of_blob t')) ts ->
  orderly double answers mo kf m (map Look ts) = true /\
  story double answers mo kf m (map Look ts) = to_the_end (map (fun t => (t, inspected double answers mo kf (m_installed m) t)) ts).
Proof.
  induction ts as [|t ts IH]; intros m Hc Hl Ho Hs Ha Hp; [split; reflexivity|]. cbn [map story orderly to_the_end snd].
  destruct (look_new double answers mo kf m t Hc (Hs t (or_introl eq_refl))) as (E1 & E2 & E3); [rewrite Hl; auto|apply Ha; now left|].
  pose proof (look_installed double answers mo kf m t) as E4. rewrite <- E1. destruct (look double answers mo kf m t) as [x m']. cbn [fst snd] in *. inversion Hp as [|? ? P1 P2]; subst.
  destruct (IH m') as [I1 I2]; try assumption.
  - now rewrite E4.
  - congruence.
  - rewrite E4. intros u Hu. apply Ho. now right.
  - rewrite E4. intros u Hu. apply Hs. now right.
  - intros u Hu a b X Y. apply E3, in_app_iff in X as [X|X]; [now apply (Ha u); [right|..]|]. rewrite Forall_forall in P1. now apply (P1 u Hu).
  - split.
    + apply andb_true_iff. split; [|exact I1]. pose proof (Ho t (or_introl eq_refl)) as Ht. unfold own_names in *. apply andb_true_iff in Ht as [_ Ht]. exact Ht.
    + rewrite I2, E4. destruct (inspected _ _ _ _ _ t); reflexivity.
Qed.
Lemma story_adds rs es : forall m, Forall is_custom rs -> forallb own_name (map reader_type rs) = true -> NoDup (map reader_type rs) -> (forall r, In r rs -> ~ In (reader_type r) (names m)) -> m_lacked m = [] ->
  exists m', m_installed m' = (m_installed m ++ rs)%list /\ m_known m' = m_known m /\ m_lacked m' = [] /\
  orderly double answers mo kf m (map Equip rs ++ es) = orderly double answers mo kf m' es /\
  story double answers mo kf m (map Equip rs ++ es) = story double answers mo kf m' es.
Proof.
  induction rs as [|r rs IH]; intros m Hc Ho Hd Hn Hl.
  - exists m. rewrite app_nil_r. repeat split; assumption || reflexivity.
  - cbn [map app forallb story orderly] in *. apply andb_true_iff in Ho as [Ho1 Ho]. inversion Hc as [|? ? C1 C2]; subst. inversion Hd as [|? ? D1 D2]; subst.
    destruct (IH (add r m)) as (m' & E1 & E2 & E3 & E4 & E5); try assumption.
    + intros q Hq. unfold names, add. cbn [m_installed m_known]. rewrite map_app, !in_app_iff. cbn [map In]. specialize (Hn q (or_intror Hq)). unfold names in Hn. rewrite in_app_iff in Hn.
      intros [[X|[X|[]]]|X]; try tauto. apply D1. rewrite X. now apply in_map.
    + cbn. now rewrite Hl.
    + exists m'. split; [rewrite E1; cbn; now rewrite <- app_assoc|]. split; [exact E2|]. split; [exact E3|]. split; [|exact E5].
      rewrite E4, Ho1. apply custom_reader_spec in C1. rewrite C1. assert (M : memb (reader_type r) (names m) = false).
      { destruct (memb _ _) eqn:M; [|reflexivity]. apply memb_spec in M. elim (Hn r (or_introl eq_refl) M). } rewrite M. reflexivity.
Qed.
End Agreeing.
