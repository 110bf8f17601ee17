(** Proofs about what is written while readers are made (OutputProcess.v). *)
From Coq Require Import Lia.
From Verif Require Import Base OutputWriter SpecOutputWriter SpecTypes TypeNames Schema Factory FactoryProofs SpecOutput OutputReader SpecOutputReader SpecFate OutputProcess OutputMake SpecOutputMake OutputMakeProofs SpecOutputProcess.
Import List ListNotations.
Open Scope string_scope.

Section Proofs.
Context (env : platform) (called : nat -> string).

(** ** The same results *)
Definition erases {A} (m : LM A) (m' : FM A) : Prop := forall f before, alike (m (f, before)) (m' f) before.
Lemma erases_bind {A B} (m : LM A) (m' : FM A) (k : A -> LM B) (k' : A -> FM B) : erases m m' -> (forall a, erases (k a) (k' a)) -> erases (bind m k) (bind m' k').
Proof.
  intros H K f before. specialize (H f before). unfold alike, bind in *. destruct (m' f) as [a f'|e f'| | |]; try (rewrite H; reflexivity).
  - destruct H as [text ->]. specialize (K a f' (before ++ text)). unfold alike in K. destruct (k' a f') as [b f2|e f2| | |]; try exact K; destruct K as [text' ->]; exists (text ++ text'); now rewrite str_assoc.
  - destruct H as [text ->]. now exists text.
Qed.
Lemma erases_unheard {A} (m : FM A) : erases (unheard m) m.
Proof. intros f before. unfold alike, unheard. destruct (m f); try reflexivity; exists ""; now rewrite str_nil. Qed.
Lemma erases_ret {A} (a : A) : erases (ret a) (ret a).
Proof. intros f before. exists "". now rewrite str_nil. Qed.
Lemma erases_lift {A} (r : res A) : erases (lift r) (lift r).
Proof. intros f before. unfold alike, lift. destruct r; try reflexivity; exists ""; now rewrite str_nil. Qed.
Lemma erases_throw {A} e : erases (@throw _ A e) (throw e).
Proof. intros f before. exists "". now rewrite str_nil. Qed.
Lemma erases_log {B} s n t (k : LM B) (k' : FM B) : erases k k' -> erases (log_in env s n t ;; k) k'.
Proof.
  intros K f before. unfold bind, log_in. specialize (K f (before ++ DBG env s n t)). unfold alike in *. destruct (k' f); try exact K; destruct K as [text ->]; exists (DBG env s n t ++ text); now rewrite str_assoc.
Qed.
Lemma erases_compute k m m' : erases m m' -> erases (computeIfAbsent_said env called k m) (computeIfAbsent k m').
Proof.
  intros H f before. unfold computeIfAbsent_said, computeIfAbsent. cbn [fst]. destruct (assoc k (types f)) as [[i|]|]; [|reflexivity|].
  - assert (E : erases (log env 61 ("ComputeIfAbsent """ ++ k ++ """ - found it") ;;
       log env 62 ("                """ ++ k ++ """ - RTN: " ++ match nth_error (heap f) i with Some r => reader_name called r | None => "" end) ;; ret i) (ret i)).
    { apply erases_log, erases_log, erases_ret. } exact (E f before).
  - apply erases_log. apply erases_bind; [exact H|]. intros i f1 b1. unfold bind at 1. cbn [unheard fst]. set (f2 := set_types (put k (Some i) (types f1)) f1).
    destruct (nth_error (heap f2) i) as [r|]; [|reflexivity].
    assert (E : erases (log env (span env 52 53) ("                """ ++ k ++ """ - RTN: " ++ reader_name called r ++ " : " ++ reader_type r) ;;
              log env 56 (k ++ " =?= " ++ reader_type r) ;; if String.eqb k (reader_type r) then ret i else abort) (if String.eqb k (reader_type r) then ret i else abort)).
    { apply erases_log, erases_log. destruct (String.eqb k (reader_type r)); [apply erases_ret|]. intros ? ?. reflexivity. }
    specialize (E f2 b1). destruct (String.eqb k (reader_type r)); exact E.
Qed.
Lemma erases_properties self name fields : erases (property_readers_said env called self name fields) (property_readers self name fields).
Proof.
  induction fields as [|fd fields IH]; [apply erases_ret|]. cbn [property_readers_said property_readers]. apply erases_bind; [apply erases_lift|]. intros t. apply erases_log. apply erases_bind.
  - destruct (f_kind fd); try apply erases_unheard; try (destruct (String.eqb t name); [apply erases_log, erases_ret|apply erases_unheard]).
    apply erases_log. apply erases_bind; [apply erases_compute, erases_unheard|]. intros i. apply erases_ret.
  - intros [i|]; [|apply erases_throw]. apply erases_bind; [exact IH|]. intros is. apply erases_ret.
Qed.
Lemma erases_fetch type : erases (fetchReaderForRestricted_said env called type) (fetchReaderForRestricted type).
Proof.
  unfold fetchReaderForRestricted_said, fetchReaderForRestricted. apply erases_log, erases_log. destruct (typeIsPrimitive type); [apply erases_log, erases_compute, erases_unheard|].
  apply erases_bind; [apply erases_unheard|]. intros [i|]; [apply erases_ret|apply erases_throw].
Qed.
Lemma erases_type kf t : erases (process_type_said env called kf t) (process_type kf t).
Proof.
  unfold process_type_said, process_type. apply erases_log, erases_compute. destruct t as [c|r].
  - unfold processComposite_said, processComposite. apply erases_log. apply erases_bind; [apply erases_unheard|]. intros self. apply erases_bind; [apply erases_properties|]. intros rs.
    apply erases_bind; [apply erases_unheard|]. intros _. apply erases_ret.
  - unfold processRestricted_said, processRestricted. apply erases_log. destruct (r_kind r).
    + apply erases_log. apply erases_bind; [apply erases_fetch|]. intros. apply erases_unheard.
    + unfold processMap_said, processMap. apply erases_log. apply erases_bind.
      * destruct kf; (apply erases_bind; [apply erases_fetch|]; intros; apply erases_bind; [apply erases_fetch|]; intros; apply erases_ret).
      * intros [k v]. apply erases_unheard.
    + apply erases_log, erases_unheard.
    + apply erases_log, erases_log. apply erases_bind; [apply erases_fetch|]. intros. apply erases_unheard.
Qed.
Lemma erases_process kf s : erases (process_said env called kf s) (process kf s).
Proof.
  unfold process_said, process. apply erases_log. induction (List.concat (s_types s)) as [|t ts IH]; [apply erases_ret|]. cbn [process_entries_said process_entries].
  apply erases_bind; [|intros _; exact IH]. unfold process_entry_said, process_entry. apply erases_bind; [apply erases_type|]. intros _. apply erases_unheard.
Qed.

(** ** What is written *)
Definition follows {A B} (o : outcome (factory * string) A) (before : string) (h : heard B) (Q : B -> A -> factory -> Prop) : Prop :=
  match snd h with
  | Gives b => exists a f, o = Ok a (f, before ++ fst h) /\ Q b a f
  | Raises e => exists f, o = Throw e (f, before ++ fst h)
  | Wild => o = UB
  | Stops => False
  end.
Lemma follows_bind {A A' B B'} (m : LM A) (k : A -> LM A') (h : heard B) (k' : B -> heard B') f before Q Q' :
  follows (m (f, before)) before h Q -> (forall b a f' before', Q b a f' -> follows (k a (f', before')) before' (k' b) Q') ->
  follows (bind m k (f, before)) before (and_then h k') Q'.
Proof.
  intros H K. unfold follows, bind, and_then in *. destruct h as [text [b|e| |]]; cbn [fst snd] in *.
  - destruct H as (a & f' & -> & Hq). specialize (K b a f' (before ++ text) Hq). destruct (snd (k' b)); try exact K.
    + destruct K as (a' & f2 & -> & Hq'). exists a', f2. split; [now rewrite str_assoc|exact Hq'].
    + destruct K as (f2 & ->). exists f2. now rewrite str_assoc.
  - destruct H as (f' & ->). now exists f'.
  - contradiction.
  - now rewrite H.
Qed.
Lemma follows_log {A B} s n t (k : LM A) (k' : unit -> heard B) f before Q :
  (forall before', follows (k (f, before')) before' (k' tt) Q) -> follows ((log_in env s n t ;; k) (f, before)) before (and_then (note env s n t) k') Q.
Proof.
  intros K. refine (follows_bind (log_in env s n t) (fun _ => k) (note env s n t) k' f before (fun _ _ f' => f' = f) Q _ _).
  - cbn [follows snd note]. exists tt, f. split; [|reflexivity]. unfold log_in, note, at_line. cbn [fst]. now rewrite DBG_is.
  - intros [] a f' b' ->. apply K.
Qed.
Lemma follows_gives {A B} (a : A) (b : B) f before (Q : B -> A -> factory -> Prop) : Q b a f -> follows (Ok a (f, before)) before (silent (Gives b)) Q.
Proof. intros H. exists a, f. cbn [fst silent]. now rewrite str_nil. Qed.
Lemma follows_raises {A B} e f before (Q : B -> A -> factory -> Prop) : follows (Throw e (f, before)) before (silent (Raises e)) Q.
Proof. exists f. cbn [fst silent]. now rewrite str_nil. Qed.
Lemma follows_weak {A B} (o : outcome (factory * string) A) before (h : heard B) (Q Q' : B -> A -> factory -> Prop) : (forall b a f, Q b a f -> Q' b a f) -> follows o before h Q -> follows o before h Q'.
Proof. intros H. unfold follows. destruct (snd h); auto. intros (x & f & E & Hq). eauto. Qed.

Notation keeps := (keeps_book called).
Definition extends (f f' : factory) : Prop := forall i r, nth_error (heap f) i = Some r -> nth_error (heap f') i = Some r.
Lemma extends_refl f : extends f f.
Proof. intros i r H. exact H. Qed.
Lemma extends_trans f g h : extends f g -> extends g h -> extends f h.
Proof. intros H K i r E. auto. Qed.
Definition with_heap (r : reader) (f : factory) : factory := {| heap := heap f ++ [r]; types := types f; descriptors := descriptors f |}.
Lemma extends_make r f : extends f (with_heap r f).
Proof. intros i x H. cbn. rewrite nth_error_app1; [exact H|]. apply nth_error_Some. congruence. Qed.
Lemma made_last r f : nth_error (heap (with_heap r f)) (List.length (heap f)) = Some r.
Proof. cbn. now rewrite nth_error_app2, Nat.sub_diag by lia. Qed.
Lemma keeps_types f f' b : keeps f b -> types f' = types f -> (forall i r, nth_error (heap f) i = Some r -> exists r', nth_error (heap f') i = Some r' /\ reader_name called r' = reader_name called r) -> keeps f' b.
Proof.
  intros H T E k. specialize (H k). rewrite T. destruct (assoc k (types f)) as [[i|]|]; auto. destruct H as (r & Hn & Hb). destruct (E i r Hn) as (r' & Hn' & En). exists r'. rewrite En. auto.
Qed.
Lemma keeps_make r f b : keeps f b -> keeps (with_heap r f) b.
Proof. intros H. apply (keeps_types f); auto. intros i x Hx. exists x. split; [now apply extends_make|reflexivity]. Qed.
Lemma keeps_put f b k i r : keeps f b -> nth_error (heap f) i = Some r -> keeps (set_types (put k (Some i) (types f)) f) ((k, reader_name called r) :: b).
Proof.
  intros H Hn k'. cbn [types set_types heap]. rewrite assoc_put. cbn [assoc]. specialize (H k'). destruct (String.eqb k' k) eqn:E.
  - exists r. split; [exact Hn|]. rewrite ?E. rewrite ?(String.eqb_sym k k'), ?E. reflexivity.
  - rewrite ?(String.eqb_sym k k'), ?E. exact H.
Qed.
(** Objects a function returns have the type asked for. *)
Definition has_made (k : string) (b : string * book) (i : nat) (f : factory) : Prop :=
  exists r, nth_error (heap f) i = Some r /\ reader_name called r = fst b /\ reader_type r = k /\ keeps f (snd b).
Lemma follows_compute k (m : LM nat) (h : heard (string * book)) f b before (P : factory -> Prop) : keeps f b ->
  (forall before', follows (m (f, before')) before' h (fun p i f' => has_made k p i f' /\ P f')) -> P f -> (forall g i, P g -> P (set_types (put k (Some i) (types g)) g)) ->
  follows (computeIfAbsent_said env called k m (f, before)) before (taken_or env b k h) (fun b' i f' => keeps f' b' /\ P f').
Proof.
  intros Hk Hm HP Hput. unfold computeIfAbsent_said, taken_or. cbn [fst]. pose proof (Hk k) as K. destruct (assoc k (types f)) as [[i|]|]; [|contradiction|].
  - destruct K as (r & Hn & ->). rewrite Hn. apply follows_log. intros b1. apply follows_log. intros b2. apply follows_gives. auto.
  - rewrite K. apply follows_log. intros b1. eapply follows_bind; [apply Hm|]. intros [name b'] i f' b2 [(r & Hn & Hname & Htype & Hk') HP']. cbn [fst snd] in *.
    unfold bind at 1. cbn [unheard fst]. set (f2 := set_types (put k (Some i) (types f')) f'). change (heap f2) with (heap f'). rewrite Hn, Htype, String.eqb_refl, Hname.
    apply follows_log. intros b3. apply follows_log. intros b4. apply follows_gives. split; [|now apply Hput]. rewrite <- Hname. now apply keeps_put.
Qed.
Lemma property_made type f b before : keeps f b ->
  follows (unheard (make_property type) (f, before)) before (silent match assoc type primitive_book with Some name => Gives (name, b) | None => Raises RuntimeError end)
    (fun p i f' => has_made type p i f' /\ extends f f').
Proof.
  intros Hk. unfold make_property, makePropertyReader, primitive_book. unfold unheard, bind. cbn [assoc].
  assert (G : forall p, type = prim_name p -> follows (Ok (List.length (heap f)) (with_heap (RProperty p) f, before)) before (silent (Gives (property_reader_name p, b))) (fun q i f' => has_made type q i f' /\ extends f f')).
  { intros p ->. apply follows_gives. split; [|apply extends_make]. exists (RProperty p). split; [apply made_last|]. repeat split. cbn [snd]. now apply keeps_make. }
  repeat match goal with |- context [String.eqb ?a ?b] => destruct (String.eqb_spec a b) as [->|?]; [cbn [lift]; first [exact (G PInt eq_refl)|exact (G PLong eq_refl)|exact (G PDouble eq_refl)|exact (G PBoolean eq_refl)|exact (G PString eq_refl)|exact (G PFloat eq_refl)|exact (G PBinary eq_refl)]|] end.
  cbn [lift]. apply follows_raises.
Qed.
Lemma primitive_follows type f b before : keeps f b ->
  follows (computeIfAbsent_said env called type (unheard (make_property type)) (f, before)) before (primitive_aloud env b type) (fun b' _ f' => keeps f' b' /\ extends f f').
Proof.
  intros Hk. apply follows_compute; [exact Hk| |apply extends_refl|].
  - intros b'. now apply property_made.
  - intros g i H. exact H.
Qed.
Lemma there_follows type f b before : keeps f b ->
  follows (unheard (types_at type) (f, before)) before (must_be_there b type) (fun b' p f' => b' = b /\ p <> None /\ f' = f) \/
  snd (must_be_there b type) = Raises RuntimeError /\ exists f', unheard (types_at type) (f, before) = Ok None (f', before).
Proof.
  intros Hk. pose proof (Hk type) as K. unfold must_be_there, unheard, types_at. destruct (assoc type (types f)) as [[i|]|]; [|contradiction|].
  - destruct K as (r & _ & ->). left. apply follows_gives. repeat split. discriminate.
  - rewrite K. right. eauto.
Qed.
Lemma there_then {A} type f b before (k : nat -> LM A) (k' : book -> heard book) Q : keeps f b ->
  (forall i before', follows (k i (f, before')) before' (k' b) Q) ->
  follows ((let! p := unheard (types_at type) in match p with None => throw RuntimeError | Some i => k i end) (f, before)) before (and_then (must_be_there b type) k') Q.
Proof.
  intros Hk K. destruct (there_follows type f b before Hk) as [H|(H & f' & E)].
  - eapply follows_bind; [exact H|]. intros b' [i|] f' before' (-> & N & ->); [apply K|contradiction].
  - unfold bind. rewrite E. unfold follows, and_then. rewrite H. cbn [fst snd]. exists f'. unfold must_be_there. cbn [fst silent]. now rewrite str_nil.
Qed.
Lemma follows_map {A A' B} (m : LM A) (g : A -> A') (h : heard B) f before (Q : B -> A -> factory -> Prop) (Q' : B -> A' -> factory -> Prop) :
  follows (m (f, before)) before h Q -> (forall b a f', Q b a f' -> Q' b (g a) f') -> follows ((let! a := m in ret (g a)) (f, before)) before h Q'.
Proof.
  intros H G. unfold follows, bind in *. destruct (snd h); [|destruct H as (f' & ->); eauto|exact H|now rewrite H].
  destruct H as (x & f' & -> & Hq). exists (g x), f'. split; [reflexivity|auto].
Qed.
Lemma heard_assoc {X Y Z} (x : heard X) (y : X -> heard Y) (z : Y -> heard Z) : and_then (and_then x y) z = and_then x (fun a => and_then (y a) z).
Proof.
  destruct x as [tx [x|e| |]]; unfold and_then; cbn [fst snd]; try reflexivity. destruct (y x) as [ty [w|e| |]]; cbn [fst snd]; try reflexivity. now rewrite str_assoc.
Qed.
Lemma properties_follow self name fields : forall f b before, keeps f b ->
  follows (property_readers_said env called self name fields (f, before)) before (one_by_one (property_aloud env name) b fields) (fun b' _ f' => keeps f' b' /\ extends f f').
Proof.
  induction fields as [|fd fields IH]; intros f b before Hk; [apply follows_gives; split; [exact Hk|apply extends_refl]|]. cbn [property_readers_said one_by_one]. unfold property_aloud at 1.
  destruct (has_type fd) eqn:Ht.
  2:{ unfold bind at 1, lift. assert (E : resolvedType fd = Undef). { unfold has_type, resolvedType in *. destruct (f_kind fd); try discriminate; destruct (f_requires fd); try discriminate; reflexivity. } rewrite E. reflexivity. }
  unfold bind at 1, lift at 1. rewrite (typed_resolved fd Ht).
  assert (Last : forall i g bg before', keeps g bg -> extends f g ->
    follows ((let! is := property_readers_said env called self name fields in ret (i :: is)) (g, before')) before' (one_by_one (property_aloud env name) bg fields) (fun b' (_ : list nat) f' => keeps f' b' /\ extends f f')).
  { intros i g bg before' Hg He. eapply follows_map; [exact (IH g bg before' Hg)|]. intros b' a' f' [H1 H2]. split; [exact H1|]. eapply extends_trans; eauto. }
  assert (There : forall before', follows ((let! p := unheard (types_at (shown_type fd)) in match p with None => throw RuntimeError | Some i => let! is := property_readers_said env called self name fields in ret (i :: is) end) (f, before')) before'
     (and_then (must_be_there b (shown_type fd)) (fun b' => one_by_one (property_aloud env name) b' fields)) (fun b' (_ : list nat) f' => keeps f' b' /\ extends f f')).
  { intros before'. apply there_then; [exact Hk|]. intros i b'. apply Last; [exact Hk|apply extends_refl]. }
  unfold says. rewrite heard_assoc. apply follows_log. intros b1.
  assert (Pick : forall (m : LM (option nat)) (h : heard book), follows (m (f, b1)) b1 h (fun b' p f' => p <> None /\ keeps f' b' /\ extends f f') ->
    follows ((let! p := m in match p with None => throw RuntimeError | Some i => let! is := property_readers_said env called self name fields in ret (i :: is) end) (f, b1)) b1
      (and_then h (fun b' => one_by_one (property_aloud env name) b' fields)) (fun b' (_ : list nat) f' => keeps f' b' /\ extends f f')).
  { intros m h H. eapply follows_bind; [exact H|]. intros b' [i|] f' before' (N & K & E); [now apply Last|contradiction]. }
  assert (Me : follows ((log env 172 "IT ME!!!!" ;; ret (Some self)) (f, b1)) b1 (let^ _ := note env "CompositeFactoryInternal.cxx" 172 "IT ME!!!!" in silent (Gives b)) (fun b' p f' => p <> None /\ keeps f' b' /\ extends f f')).
  { apply follows_log. intros b2. apply follows_gives. split; [discriminate|]. split; [exact Hk|apply extends_refl]. }
  destruct (f_kind fd) eqn:Kd; try (exact (There b1)); try (destruct (String.eqb (shown_type fd) name); [apply (Pick _ _ Me)|exact (There b1)]).
  apply Pick. apply follows_log. intros b2. unfold shown_type. rewrite Kd. eapply follows_map; [now apply primitive_follows|]. intros b' i f' [H1 H2]. split; [discriminate|auto].
Qed.
Lemma element_follows type f b before : keeps f b ->
  follows (fetchReaderForRestricted_said env called type (f, before)) before (element_aloud env b type) (fun b' _ f' => keeps f' b' /\ extends f f').
Proof.
  intros Hk. unfold fetchReaderForRestricted_said, element_aloud. change primitive_name with typeIsPrimitive. apply follows_log. intros b1. apply follows_log. intros b2.
  destruct (typeIsPrimitive type); [apply follows_log; intros b3; now apply primitive_follows|].
  destruct (there_follows type f b b2 Hk) as [H|(H & f' & E)].
  - unfold follows in *. destruct (snd (must_be_there b type)) eqn:Es; unfold bind.
    + destruct H as (p & f' & -> & -> & N & ->). destruct p as [i|]; [|contradiction]. exists i, f. split; [reflexivity|]. split; [exact Hk|apply extends_refl].
    + destruct H as (f' & ->). eauto.
    + exact H.
    + now rewrite H.
  - unfold bind. rewrite E. unfold follows. rewrite H. exists f'. unfold must_be_there. cbn [fst silent]. now rewrite str_nil.
Qed.
Lemma elements_follow {A} (g : nat -> nat -> A) x y f b before : keeps f b ->
  follows ((let! i := fetchReaderForRestricted_said env called x in let! j := fetchReaderForRestricted_said env called y in ret (g i j)) (f, before)) before
    (one_by_one (element_aloud env) b [x; y]) (fun b' _ f' => keeps f' b' /\ extends f f').
Proof.
  intros Hk. cbn [one_by_one]. eapply follows_bind; [now apply element_follows|]. intros b1 i f1 before1 [K1 E1].
  assert (U : forall h : heard book, and_then h (fun b' => silent (Gives b')) = h) by (intros [t [u|e| |]]; unfold and_then, silent; cbn [fst snd]; now rewrite ?str_nil). rewrite U.
  eapply follows_map; [now apply element_follows|]. intros b2 j f2 [K2 E2]. split; [exact K2|]. eapply extends_trans; eauto.
Qed.
Lemma made_follows {A} (m : LM A) (mk : A -> reader) (h : heard book) (called_ : string) name f before :
  follows (m (f, before)) before h (fun b' _ f' => keeps f' b' /\ extends f f') -> (forall a, reader_name called (mk a) = called_) -> (forall a, reader_type (mk a) = name) ->
  follows ((let! a := m in unheard (make (mk a))) (f, before)) before (and_then h (fun b' => silent (Gives (called_, b')))) (fun p i f' => has_made name p i f' /\ True).
Proof.
  intros H N T. eapply follows_bind; [exact H|]. intros b' x f' before' [K _]. unfold unheard, make. apply follows_gives. split; [|exact I]. exists (mk x). split; [apply (made_last (mk x) f')|].
  split; [apply N|]. split; [apply T|]. cbn [snd]. now apply (keeps_make (mk x) f').
Qed.
Lemma type_made_follows kf t f b before : keeps f b ->
  follows (match t with TComposite c => processComposite_said env called c | TRestricted r => processRestricted_said env called kf r end (f, before)) before
    (type_made_aloud env kf b t) (fun p i f' => has_made (n_name t) p i f' /\ True).
Proof.
  intros Hk. destruct t as [c|r]; cbn [type_made_aloud n_name].
  - unfold processComposite_said. apply follows_log. intros b1. unfold bind at 1. cbn [unheard make]. change {| heap := heap f ++ [RComposite (c_name c) []]; types := types f; descriptors := descriptors f |} with (with_heap (RComposite (c_name c) []) f).
    set (self := List.length (heap f)). eapply follows_bind; [apply properties_follow, keeps_make, Hk|]. intros b' rs f' before' [K E].
    assert (Hn : nth_error (heap f') self = Some (RComposite (c_name c) [])) by (apply E, made_last). unfold bind, unheard, install_kids. rewrite Hn. cbn [ret].
    assert (L : self < List.length (heap f')) by (apply nth_error_Some; congruence).
    apply follows_gives. split; [|exact I]. exists (RComposite (c_name c) rs). cbn [heap]. rewrite (nth_error_set _ _ _ _ L), Nat.eqb_refl. repeat split. cbn [snd].
    apply (keeps_types f'); [exact K|reflexivity|]. intros i r Hr. cbn [heap]. rewrite (nth_error_set _ _ _ _ L). destruct (Nat.eqb_spec i self) as [->|]; [|eauto].
    rewrite Hn in Hr. injection Hr as <-. eauto.
  - unfold processRestricted_said, says. apply follows_log. intros b1. destruct (r_kind r).
    + rewrite heard_assoc. apply follows_log. intros b2. apply (made_follows _ (fun e => RList (r_name r) e)); [now apply element_follows|reflexivity|reflexivity].
    + unfold processMap_said. rewrite heard_assoc. apply follows_log. intros b2.
      eapply (follows_bind _ _ _ _ _ _ (fun b' _ f' => keeps f' b' /\ extends f f')).
      * destruct kf; [exact (elements_follow (fun k v => (k, v)) (of0 r) (of1 r) f b b2 Hk)|exact (elements_follow (fun v k => (k, v)) (of1 r) (of0 r) f b b2 Hk)].
      * intros b' [k v] f' before' [K _]. unfold unheard, make. apply follows_gives. split; [|exact I]. exists (RMap (r_name r) k v). split; [apply (made_last (RMap (r_name r) k v) f')|].
        repeat split. cbn [snd]. now apply (keeps_make (RMap (r_name r) k v) f').
    + rewrite heard_assoc. apply follows_log. intros b2. apply (made_follows (ret tt) (fun _ => REnum (r_name r) (r_choices r))); [|reflexivity|reflexivity].
      apply follows_gives. split; [exact Hk|apply extends_refl].
    + rewrite heard_assoc. apply follows_log. intros b2. rewrite heard_assoc. apply follows_log. intros b3. apply (made_follows _ (fun e => RArray (r_name r) e)); [now apply element_follows|reflexivity|reflexivity].
Qed.
Lemma type_follows kf t f b before : keeps f b ->
  follows (process_type_said env called kf t (f, before)) before (type_aloud env kf b t) (fun b' _ f' => keeps f' b').
Proof.
  intros Hk. unfold process_type_said, type_aloud. apply follows_log. intros b1. eapply follows_weak; [|eapply (follows_compute _ _ _ _ _ _ (fun _ => True))]; auto.
  - intros ? ? ? [H _]. exact H.
  - intros b2. now apply type_made_follows.
Qed.
Lemma taken_or_enters b k h b' : snd (taken_or env b k h) = Gives b' -> assoc k b' <> None.
Proof.
  unfold taken_or. destruct (assoc k b) as [name|] eqn:E.
  - unfold and_then. cbn [says note snd fst silent]. intros [= <-]. congruence.
  - unfold and_then. cbn [says note snd fst silent]. destruct (snd h) as [[name b2]|e| |]; cbn [snd]; try discriminate. intros [= <-]. cbn [assoc]. now rewrite String.eqb_refl.
Qed.
Lemma entry_follows kf t f b before : keeps f b ->
  follows (process_entry_said env called kf t (f, before)) before (type_aloud env kf b t) (fun b' _ f' => keeps f' b').
Proof.
  intros Hk. pose proof (type_follows kf t f b before Hk) as H. unfold process_entry_said. unfold follows in *. destruct (snd (type_aloud env kf b t)) as [b'|e| |] eqn:Es; unfold bind in *.
  - destruct H as (i & f' & -> & K). assert (N : assoc (n_name t) b' <> None).
    { unfold type_aloud, and_then in Es. cbn [says note snd] in Es. now apply taken_or_enters in Es. }
    specialize (K (n_name t)) as Kt. unfold unheard, bind, types_at. destruct (assoc (n_name t) (types f')) as [p|] eqn:Et; [|contradiction].
    exists tt, (set_descriptors (put (n_descriptor t) p (descriptors f')) f'). split; [reflexivity|]. apply (keeps_types f'); [exact K|reflexivity|]. eauto.
  - destruct H as (f' & ->). eauto.
  - exact H.
  - now rewrite H.
Qed.
Lemma process_follows kf s f b before : keeps f b -> made_aloud called before (process_said env called kf s (f, before)) (making_aloud env kf b s).
Proof.
  intros Hk. assert (H : follows (process_said env called kf s (f, before)) before (making_aloud env kf b s) (fun b' (_ : unit) f' => keeps f' b')).
  { unfold process_said, making_aloud. apply follows_log. intros b1. revert f b b1 Hk. induction (List.concat (s_types s)) as [|t ts IH]; intros f b b1 Hk; [now apply follows_gives|].
    cbn [process_entries_said one_by_one]. eapply follows_bind; [now apply entry_follows|]. intros b' x f' before' K. now apply IH. }
  unfold made_aloud, follows in *. destruct (snd (making_aloud env kf b s)); auto. destruct H as ([] & f' & E & K). eauto.
Qed.
Lemma install_follows r f b before : keeps f b ->
  exists f', installCustomSerialiser_said env called r (f, before) = Ok tt (f', before ++ fst (says env 364 ("installCustomSerialiser::" ++ reader_name called r ++ "::" ++ reader_type r))) /\
             installCustomSerialiser r f = Ok tt f' /\ keeps f' ((reader_type r, reader_name called r) :: b).
Proof.
  intros Hk. unfold installCustomSerialiser_said, installCustomSerialiser, unheard, bind, log, log_in, make. eexists. split; [|split; [reflexivity|]].
  - do 3 f_equal. unfold says, note. cbn [fst]. apply DBG_is.
  - apply (keeps_put (with_heap r f)); [now apply keeps_make|apply made_last].
Qed.
Lemma one_by_one_map {A B} (g : A -> B) (h : book -> B -> heard book) l : forall b, one_by_one h b (map g l) = one_by_one (fun b a => h b (g a)) b l.
Proof. induction l as [|a l IH]; intros b; [reflexivity|]. cbn [map one_by_one]. unfold and_then. destruct (snd (h b (g a))); try reflexivity. now rewrite IH. Qed.
Lemma one_by_one_same {A} (h h' : book -> A -> heard book) l : (forall b a, h b a = h' b a) -> forall b, one_by_one h b l = one_by_one h' b l.
Proof. intros E. induction l as [|a l IH]; intros b; [reflexivity|]. cbn [one_by_one]. rewrite E. unfold and_then. destruct (snd (h' b a)); try reflexivity. now rewrite IH. Qed.
Lemma outline_aloud kf b t : type_aloud env kf b (outline t) = type_aloud env kf b t.
Proof.
  destruct t as [c|r]; [|reflexivity]. unfold type_aloud, type_made_aloud. cbn [outline n_name c_name c_fields]. rewrite one_by_one_map.
  rewrite (one_by_one_same _ (property_aloud env (c_name c))); [reflexivity|]. intros b' f. unfold property_aloud, has_type, shown_type. cbn. destruct (f_requires f); reflexivity.
Qed.
Lemma outline_making kf b s s' : map outline (List.concat (s_types s)) = map outline (List.concat (s_types s')) -> making_aloud env kf b s = making_aloud env kf b s'.
Proof.
  intros E. unfold making_aloud. pose proof (one_by_one_map outline (type_aloud env kf) (List.concat (s_types s)) b) as H1. pose proof (one_by_one_map outline (type_aloud env kf) (List.concat (s_types s')) b) as H2.
  rewrite E, H2 in H1. rewrite (one_by_one_same _ (type_aloud env kf) _ (outline_aloud kf)), (one_by_one_same _ (type_aloud env kf) (List.concat (s_types s)) (outline_aloud kf)) in H1. now rewrite H1.
Qed.
End Proofs.
