(** What the raw dump of a schema section prints. *)
From Coq Require Import Lia.
From Verif Require Import Base Proton ProtonProofs TypeNames SpecTypes TypeNamesProofs Schema Descriptors SpecDescriptors
  DescriptorsProofs Readers SchemaDump SpecSchemaDump.
Import List ListNotations.
Open Scope string_scope.

(** ** Text *)

Fixpoint ind (n : nat) : string := match n with 0 => "" | S n => deeper (ind n) end.
Lemma ind_comm n : "  " ++ ind n = deeper (ind n).
Proof. induction n as [|n IH]; [reflexivity|]. cbn [ind]. unfold deeper in *. now rewrite <- app_assoc_s, IH. Qed.
Lemma margin_ind n : margin n = ind n.
Proof. induction n as [|n IH]; [reflexivity|]. cbn [margin]. rewrite IH. apply ind_comm. Qed.

Lemma concat_cons x xs : String.concat "" (x :: xs) = x ++ String.concat "" xs.
Proof. destruct xs; simpl; [now rewrite app_nil_r_s|reflexivity]. Qed.
Lemma lay_nil : lay [] = "".
Proof. reflexivity. Qed.
Lemma lay_cons n s ls : lay ((n, s) :: ls) = ind n ++ s ++ nl ++ lay ls.
Proof. unfold lay. cbn [map fst snd]. rewrite concat_cons, margin_ind, !app_assoc_s. reflexivity. Qed.
Lemma lay_app a b : lay (a ++ b)%list = lay a ++ lay b.
Proof.
  induction a as [|[n s] a IH]; [reflexivity|]. cbn [app]. rewrite !lay_cons, IH, !app_assoc_s. reflexivity.
Qed.

(** ** Loops *)

Lemma foldM_pure {A X} (g : A -> X -> A) xs : forall acc, foldM (fun acc x => Ret (g acc x)) xs acc = Ret (fold_left g xs acc).
Proof. induction xs as [|x xs IH]; intros acc; simpl; auto. Qed.
Lemma list_loop_pure {A X} (tr : X -> tree) (g : A -> X -> A) (body : nat -> A -> PM A) xs acc l r u :
  (forall acc l x r u, In x xs ->
     body (length xs) acc (Data (At l (tr x) r) u) = Ok (g acc x) (Data (At l (tr x) r) u)) ->
  auto_list_enter false (fun n => while_next (body n) acc) (Data (At l (list_of (map tr xs)) r) u)
  = Ok (fold_left g xs acc) (Data (At l (list_of (map tr xs)) r) u).
Proof.
  intros H.
  change (auto_list_enter false (fun n => while_next (body n) acc) (Data (At l (list_of (map tr xs)) r) u))
    with (auto_list_enter false (fun _ => while_next (body (length (map tr xs))) acc) (Data (At l (list_of (map tr xs)) r) u)).
  rewrite map_length. rewrite (list_loop tr (fun acc x => Ret (g acc x))); [now rewrite foldM_pure|exact H].
Qed.
Lemma list_loop_then {A B X} (tr : X -> tree) (g : A -> X -> A) (body : nat -> A -> PM A) (f : nat -> A -> PM B) (b : nat -> A -> B) xs acc l r u :
  (forall acc l x r u, In x xs ->
     body (length xs) acc (Data (At l (tr x) r) u) = Ok (g acc x) (Data (At l (tr x) r) u)) ->
  (forall n a d, f n a d = Ok (b n a) d) ->
  auto_list_enter false (fun n => let! a := while_next (body n) acc in f n a) (Data (At l (list_of (map tr xs)) r) u)
  = Ok (b (length xs) (fold_left g xs acc)) (Data (At l (list_of (map tr xs)) r) u).
Proof.
  intros H Hf. pose proof (list_loop_pure tr g body xs acc l r u H) as K. revert K.
  unfold auto_list_enter, finally, bind. 
  destruct (while_next _ acc _) as [a d|e d| | |]; try discriminate. rewrite Hf. intros [= <- ->].
  cbn [pn_get_list here list_of]. now rewrite map_length.
Qed.
Lemma fold_lines {X} (h : X -> line) xs : forall acc,
  fold_left (fun acc x => acc ++ lay [h x]) xs acc = acc ++ lay (map h xs).
Proof.
  induction xs as [|x xs IH]; intros acc; cbn [fold_left map]; [now rewrite lay_nil, app_nil_r_s|].
  now rewrite IH, app_assoc_s, <- lay_app.
Qed.
Lemma fold_numbered {X} (h : nat -> X -> list line) xs : forall i acc,
  fold_left (fun '(i, acc) x => (S i, acc ++ lay (h i x))) xs (i, acc) = (i + length xs, acc ++ lay (numbered h i xs)).
Proof.
  induction xs as [|x xs IH]; intros i acc; cbn [fold_left numbered length].
  - rewrite lay_nil, app_nil_r_s. f_equal. lia.
  - rewrite IH, lay_app, app_assoc_s. f_equal. lia.
Qed.
Lemma fold_concat {X} (h : X -> string) xs : forall acc,
  fold_left (fun acc x => acc ++ h x) xs acc = acc ++ String.concat "" (map h xs).
Proof.
  induction xs as [|x xs IH]; intros acc; cbn [fold_left map].
  - now rewrite app_nil_r_s.
  - now rewrite IH, concat_cons, app_assoc_s.
Qed.

(** ** Steps *)

Lemma step_list l cs r u : attest_is_list (Data (At l (list_of cs) r) u) = Ok tt (Data (At l (list_of cs) r) u).
Proof. reflexivity. Qed.
Lemma list_enter_step {A} t cs l r u (m : nat -> PM A) : auto_list_enter true m (Data (At l (list_of (t :: cs)) r) u)
  = finally (m (length (t :: cs))) pn_exit (Data (At [] t cs) (Frame l AList r :: u)).
Proof. reflexivity. Qed.
Lemma step_auto_next {A} (m : PM A) l t t' r u a :
  m (Data (At l t (t' :: r)) u) = Ok a (Data (At l t (t' :: r)) u) ->
  auto_next m (Data (At l t (t' :: r)) u) = Ok a (Data (At (t :: l) t' r) u).
Proof. unfold auto_next, finally. intros ->. reflexivity. Qed.
Lemma step_auto_last {A} (m : PM A) l t u a :
  m (Data (At l t []) u) = Ok a (Data (At l t []) u) ->
  auto_next m (Data (At l t []) u) = Ok a (Data (At l t []) u).
Proof. unfold auto_next, finally. intros ->. reflexivity. Qed.
Lemma step_attest_str b l s r u : attest_is_string b (Data (At l (str s) r) u) = Ok tt (Data (At l (str s) r) u).
Proof. reflexivity. Qed.
Lemma step_attest_opt b l s r u : attest_is_string b (Data (At l (opt_str s) r) u) = Ok tt (Data (At l (opt_str s) r) u).
Proof. destruct s, b; reflexivity. Qed.

Ltac rw := erewrite bind_ok by first
   [ apply step_list | apply step_next | apply step_str | apply step_opt | apply step_bool | apply step_symbol
   | apply step_read | apply step_read_opt | apply step_attest_str | apply step_attest_opt
   | apply step_auto_next; first [apply step_str | apply step_opt | apply step_bool | apply step_symbol]
   | apply step_auto_last; first [apply step_str | apply step_opt | apply step_bool | apply step_symbol] ]; cbv beta.

(** ** Elements *)

Section RawText.
Variable tn : pn_type -> string.

Definition prints (fuel : nat) (t : tree) (n : nat) (ls : list line) : Prop := forall l r u,
  readRaw tn fuel (ind n) (Data (At l t r) u) = Ok (lay ls) (Data (At l t r) u).

Lemma step_rec fuel t n ls l r u : prints fuel t n ls -> pn_dtype (Data (At l t r) u) = TDescribed ->
  by_type (readRaw tn fuel) (ind n) (Data (At l t r) u) = Ok (lay ls) (Data (At l t r) u).
Proof. intros H E. unfold by_type. rewrite E. apply H. Qed.

Lemma prints_element fuel n code name kind cs parts :
  registered (vendor code) = Some {| d_kind := kind; d_symbol := name; d_val := Some code |} ->
  describedToString (vendor code) = name -> (code < 2 ^ 32)%N ->
  (forall u, raw_of tn (readRaw tn fuel) kind (ind (n + 1)) (Data (At [leaf (AULong (vendor code))] (list_of cs) []) u)
    = Ok (lay parts) (Data (At [leaf (AULong (vendor code))] (list_of cs) []) u)) ->
  prints (S fuel) (described code (list_of cs)) n (element_lines n code name (length cs) parts).
Proof.
  intros Hr Hn Hc H l r u. cbn [readRaw]. unfold raw_described.
  unfold described. unfold bind at 1. rewrite enter_step. unfold finally.
  cbn [pn_dtype here leaf atom_type]. unfold bind at 1. unfold readAndNext_ulong at 1, read_raw. cbn [pn_next here ups pn_get_ulong cur_atom leaf].
  unfold bind at 1. cbn [attest_is_list require is_type pn_dtype here list_of atom_type pn_type_eqb].
  rewrite Hr. cbn [d_kind]. replace (deeper (ind n)) with (ind (n + 1)) by (rewrite Nat.add_1_r; reflexivity).
  unfold bind at 1. fold (list_of cs). rewrite H.
  cbn [ret]. unfold pn_exit. cbn [ups siblings here rev_append leaf].
  rewrite Hn, strip_vendor by exact Hc. unfold element_lines.
  cbn [app]. rewrite !lay_cons, !app_assoc_s. reflexivity.
Qed.

Lemma nplus2 n : ind (n + 2) = deeper (ind (n + 1)).
Proof. replace (n + 2) with (S (n + 1)) by lia. reflexivity. Qed.
Lemma nplus3 n : ind (n + 3) = deeper (ind (n + 2)).
Proof. replace (n + 3) with (S (n + 2)) by lia. reflexivity. Qed.
Lemma nplus4 n : ind (n + 4) = deeper (ind (n + 3)).
Proof. replace (n + 4) with (S (n + 3)) by lia. reflexivity. Qed.

Lemma prints_fingerprint fuel n fp :
  prints (S fuel) (fingerprint_tree fp [leaf ANull]) n (fingerprint_lines (tn TNull) n fp).
Proof.
  apply (prints_element fuel n 3 "OBJECT_DESCRIPTOR" KObject); try reflexivity. intros u.
  cbn [raw_of]. unfold raw_object. rw. rewrite <- nplus2, !lay_cons, lay_nil.
  transitivity (Ok (ind (n + 2) ++ "1/2] " ++ fp ++ nl ++ ind (n + 2) ++ "2/2] " ++ (" 1 " ++ tn TNull ++ "") ++ nl)
    (Data (At [leaf (AULong (vendor 3))] (list_of [leaf (ASymbol fp); leaf ANull]) []) u)); [reflexivity|].
  f_equal. rewrite !app_nil_r_s, !app_assoc_s. reflexivity.
Qed.

Lemma step_requires n rs l r u :
  auto_list_enter false (fun k =>
        let! text := while_next (fun acc =>
          let! s := get_string false in ret (acc ++ deeper (ind n) ++ s ++ nl)) "" in
        ret (ind n ++ "3/7] List: Requires: elements " ++ num k ++ nl ++ text)) (Data (At l (list_of (map str rs)) r) u)
  = Ok (lay ((n, "3/7] List: Requires: elements " ++ count (length rs)) :: map (fun r => (S n, r)) rs))
       (Data (At l (list_of (map str rs)) r) u).
Proof.
  rewrite (list_loop_then str (fun acc s => acc ++ lay [(S n, s)]) (fun _ acc =>
          let! s := get_string false in ret (acc ++ deeper (ind n) ++ s ++ nl))
        _ (fun k text => ind n ++ "3/7] List: Requires: elements " ++ num k ++ nl ++ text)).
  - f_equal. rewrite (fold_lines (fun r => (S n, r))). rewrite lay_cons, !app_assoc_s. reflexivity.
  - intros acc l' x r' u' _. rw. rewrite lay_cons, lay_nil, app_nil_r_s. reflexivity.
  - reflexivity.
Qed.

Lemma prints_field fuel n w : prints (S fuel) (field_tree w) n (field_lines n w).
Proof.
  apply (prints_element fuel n 4 "FIELD" KField); try reflexivity. intros u.
  cbn [raw_of]. unfold raw_field. rw. rewrite <- nplus2, list_enter_step. unfold finally.
  rw. rw. erewrite bind_ok by apply step_requires. cbv beta.
  repeat rw. cbn [ret pn_exit ups siblings here rev_append]. f_equal.
  rewrite !lay_app, !lay_cons, !lay_nil, !app_nil_r_s, !app_assoc_s.
  replace (S (n + 2)) with (n + 3) by lia. destruct (w_mandatory w), (w_multiple w); reflexivity.
Qed.

(** A loop over described elements that numbers what it prints. *)
Lemma step_elements {X} fuel (tr : X -> tree) (body : nat -> nat -> string -> string) (text : nat -> nat -> string) (h : X -> list line) n m xs l r u :
  (forall i k t, body i k t = ind m ++ text i k ++ nl ++ t) ->
  (forall x, In x xs -> prints fuel (tr x) n (h x)) -> (forall x l r u, pn_dtype (Data (At l (tr x) r) u) = TDescribed) ->
  auto_list_enter false (fun k => while_next (fun '(i, acc) =>
        let! t := by_type (readRaw tn fuel) (ind n) in
        ret (S i, acc ++ body i k t)) (1, "")) (Data (At l (list_of (map tr xs)) r) u)
  = Ok (1 + length xs, lay (numbered (fun i x => (m, text i (length xs)) :: h x) 1 xs)) (Data (At l (list_of (map tr xs)) r) u).
Proof.
  intros HB H HD.
  rewrite (list_loop_pure tr (fun '(i, acc) x => (S i, acc ++ lay ((m, text i (length xs)) :: h x))) (fun k => fun '(i, acc) =>
        let! t := by_type (readRaw tn fuel) (ind n) in
        ret (S i, acc ++ body i k t))).
  - rewrite (fold_numbered (fun i x => (m, text i (length xs)) :: h x)). reflexivity.
  - intros [i acc] l' x r' u' Hx. erewrite bind_ok by (apply step_rec; [apply H; exact Hx|apply HD]).
    cbv beta. rewrite lay_cons, HB. reflexivity.
Qed.

Lemma step_provides (g : string -> string) ps l r u :
  auto_list_enter false (fun _ => while_next (fun acc =>
        let! s := get_string false in ret (acc ++ g s)) "") (Data (At l (list_of (map str ps)) r) u)
  = Ok (String.concat "" (map g ps)) (Data (At l (list_of (map str ps)) r) u).
Proof.
  rewrite (list_loop_pure str (fun acc s => acc ++ g s) (fun _ acc =>
        let! s := get_string false in ret (acc ++ g s))).
  - now rewrite fold_concat.
  - reflexivity.
Qed.

Lemma step_descriptor fuel n fp l t r u :
  auto_next (by_type (readRaw tn (S fuel)) (ind n)) (Data (At l (fingerprint_tree fp [leaf ANull]) (t :: r)) u)
  = Ok (lay (fingerprint_lines (tn TNull) n fp)) (Data (At (fingerprint_tree fp [leaf ANull] :: l) t r) u).
Proof. apply step_auto_next, step_rec; [apply prints_fingerprint|reflexivity]. Qed.

Lemma prints_class fuel n c : prints (S (S fuel)) (class_tree c) n (class_lines (tn TNull) n c).
Proof.
  apply (prints_element (S fuel) n 5 "COMPOSITE_TYPE" KComposite); try reflexivity. intros u.
  cbn [raw_of]. unfold raw_composite. rw. rewrite <- nplus2. unfold list_of at 1. rewrite enter_step. unfold finally.
  repeat rw. erewrite bind_ok by apply (step_provides (fun s => ind (n + 2) ++ s ++ " ")). cbv beta.
  rw. erewrite bind_ok by reflexivity. rewrite <- nplus3. erewrite bind_ok by apply step_descriptor. cbv beta.
  rewrite <- nplus4.
  erewrite bind_ok; [|apply (step_elements (S fuel) field_tree _ (fun i k => num i ++ "/" ++ num k ++ "]") (field_lines (n + 4)) _ (n + 3));
      [intros; rewrite !app_assoc_s; reflexivity|intros; apply prints_field|reflexivity]].
  cbn [ret pn_exit ups siblings here rev_append]. f_equal.
  cbn [app]. rewrite !lay_cons, !lay_app, !lay_cons, margin_ind. unfold quoted. rewrite !app_assoc_s. cbn [append].
  rewrite !app_assoc_s. reflexivity.
Qed.

Lemma prints_container fuel n c : prints (S (S fuel)) (container_tree c) n (container_lines (tn TNull) n c).
Proof.
  apply (prints_element (S fuel) n 6 "RESTRICTED_TYPE" KRestricted); try reflexivity. intros u.
  cbn [raw_of]. unfold raw_restricted. rw. rewrite <- nplus2. unfold list_of at 1. rewrite enter_step. unfold finally.
  repeat rw. erewrite bind_ok by apply (step_provides (fun s => s ++ " ")). cbv beta.
  rw. rw. rewrite <- nplus3. erewrite bind_ok by apply step_descriptor. cbv beta.
  cbn [ret pn_exit ups siblings here rev_append]. f_equal.
  cbn [app]. rewrite !lay_cons, !app_assoc_s. reflexivity.
Qed.

Lemma prints_type fuel n t : prints (S (S fuel)) (type_tree t) n (type_lines (tn TNull) n t).
Proof. destruct t; [apply prints_class|apply prints_container]. Qed.

Definition type_entry (n i m j : nat) (t : wire_type) : list line :=
  (n + 3, count i ++ ":" ++ count j ++ "/" ++ count m ++ "] ") :: type_lines (tn TNull) (n + 4) t.

Lemma step_group fuel n i g l r u :
  auto_list_enter false (fun m =>
        let! (_, text) := while_next (fun '(j, acc) =>
          let! t := by_type (readRaw tn (S (S fuel))) (ind (n + 4)) in
          ret (S j, acc ++ ind (n + 3) ++ num i ++ ":" ++ num j ++ "/" ++ num m ++ "] " ++ nl ++ t)) (1, "") in
        ret (" list: entries: " ++ num m ++ nl ++ text)) (Data (At l (list_of (map type_tree g)) r) u)
  = Ok (" list: entries: " ++ num (length g) ++ nl ++ lay (numbered (type_entry n i (length g)) 1 g))
       (Data (At l (list_of (map type_tree g)) r) u).
Proof.
  rewrite (list_loop_then type_tree (fun '(j, acc) t => (S j, acc ++ lay (type_entry n i (length g) j t)))
     (fun m => fun '(j, acc) =>
          let! t := by_type (readRaw tn (S (S fuel))) (ind (n + 4)) in
          ret (S j, acc ++ ind (n + 3) ++ num i ++ ":" ++ num j ++ "/" ++ num m ++ "] " ++ nl ++ t))
     _ (fun m p => " list: entries: " ++ num m ++ nl ++ snd p)).
  - rewrite fold_numbered. reflexivity.
  - intros [j acc] l' t r' u' _.
    erewrite bind_ok by (apply step_rec; [apply prints_type|destruct t; reflexivity]).
    unfold type_entry. rewrite lay_cons, !app_assoc_s. reflexivity.
  - intros k [j a] d. reflexivity.
Qed.

Lemma prints_schema fuel n groups :
  prints (S (S (S fuel))) (schema_tree groups) n (schema_lines (tn TNull) n groups).
Proof.
  unfold schema_tree, schema_lines. rewrite <- (map_length (fun g => list_of (map type_tree g)) groups) at 1.
  apply (prints_element (S (S fuel)) n 2 "SCHEMA" KSchema); try reflexivity. intros u.
  cbn [raw_of]. unfold raw_schema. rw. rewrite <- nplus2, <- nplus3, <- nplus4.
  set (group := fun i g => (n + 2, count i ++ "/" ++ count (length groups) ++ "] list: entries: " ++ count (length g)) ::
      numbered (type_entry n i (length g)) 1 g).
  erewrite (list_loop_then (fun g => list_of (map type_tree g)) (fun '(i, acc) g => (S i, acc ++ lay (group i g))) _ _ (fun _ p => snd p)).
  - rewrite fold_numbered. reflexivity.
  - intros [i acc] l g r u' _. rw. erewrite bind_ok by apply step_group. cbv beta.
    unfold group. rewrite lay_cons, !app_assoc_s. reflexivity.
  - intros k [i a] d. reflexivity.
Qed.

Lemma prints_payload fuel n fp body :
  prints (S fuel) (payload_tree fp body) n [(n, "DESCRIBED: "); (n + 1, "blob: bytes: " ++ count (String.length fp))].
Proof.
  intros l r u.
  transitivity (Ok (ind n ++ "DESCRIBED: " ++ nl ++ deeper (ind n) ++ "blob: bytes: " ++ num (String.length fp) ++ nl)
    (Data (At l (payload_tree fp body) r) u)); [reflexivity|].
  rewrite !lay_cons, lay_nil, !app_assoc_s, app_nil_r_s, Nat.add_1_r. reflexivity.
Qed.

Lemma prints_envelope fuel fp body groups more :
  prints (S (S (S (S fuel)))) (envelope_tree (payload_tree fp body) groups more) 0 (envelope_lines (tn TNull) fp groups (length more)).
Proof.
  apply (prints_element (S (S (S fuel))) 0 1 "ENVELOPE" KEnvelope); try reflexivity. intros u.
  cbn [raw_of]. unfold raw_envelope. rw. rewrite <- nplus2, <- nplus3. unfold list_of at 1. rewrite enter_step. unfold finally.
  erewrite bind_ok by (apply step_auto_next, step_rec; [apply prints_payload|reflexivity]). cbv beta.
  destruct more as [|m more];
  (erewrite bind_ok by (first [apply step_auto_next|apply step_auto_last]; apply step_rec; [apply prints_schema|reflexivity])); cbv beta;
  cbn [ret pn_exit ups siblings here rev_append]; f_equal;
  rewrite !lay_app, !lay_cons, lay_nil, !app_assoc_s, app_nil_r_s; reflexivity.
Qed.
End RawText.

Theorem raw_dump_shows : forall tn fuel fp body groups more l r u, 3 <= fuel ->
  let d := Data (At l (envelope_tree (payload_tree fp body) groups more) r) u in
  dumpSchema tn fuel ToRaw d = Ok (lay (envelope_lines (tn TNull) fp groups (length more))) d.
Proof.
  intros tn fuel fp body groups more l r u H. destruct fuel as [|[|[|fuel]]]; try lia.
  apply (prints_envelope tn fuel fp body groups more l r u).
Qed.

(** Enums that differ in their constants only look the same. *)
Theorem raw_dump_hides_constants : forall tn fuel fp body more l r u, 3 <= fuel ->
  forall c cs1 cs2,
  let enum cs := {| wr_name := wr_name c; wr_label := wr_label c; wr_provides := wr_provides c;
                    wr_source := wr_source c; wr_fingerprint := wr_fingerprint c; wr_choices := cs |} in
  let blob cs := Data (At l (envelope_tree (payload_tree fp body) [[WContainer (enum cs)]] more) r) u in
  exists text, dumpSchema tn fuel ToRaw (blob cs1) = Ok text (blob cs1) /\
               dumpSchema tn fuel ToRaw (blob cs2) = Ok text (blob cs2).
Proof.
  intros tn fuel fp body more l r u H c cs1 cs2 enum blob. eexists. split; apply (raw_dump_shows tn fuel); exact H.
Qed.

(** ** Everything is mentioned *)
Lemma occurs_refl s : occurs_in s s.
Proof. exists "", "". now rewrite app_nil_r_s. Qed.
Lemma occurs_l s a b : occurs_in s a -> occurs_in s (a ++ b).
Proof. intros (x & y & ->). exists x, (y ++ b). now rewrite !app_assoc_s. Qed.
Lemma occurs_r s a b : occurs_in s b -> occurs_in s (a ++ b).
Proof. intros (x & y & ->). exists (a ++ x), y. now rewrite !app_assoc_s. Qed.
Lemma occurs_tr s t u : occurs_in s t -> occurs_in t u -> occurs_in s u.
Proof. intros (x & y & ->) (x' & y' & ->). exists (x' ++ x), (y ++ y'). now rewrite !app_assoc_s. Qed.
Lemma occurs_concat s t l : In t l -> occurs_in s t -> occurs_in s (String.concat "" l).
Proof.
  intros H Hs. induction l as [|x l IH]; [destruct H|]. cbn [String.concat]. destruct l as [|y l].
  - destruct H as [->|[]]; auto.
  - destruct H as [-> |H]; [now apply occurs_l|]. apply occurs_r. cbn [String.append]. now apply IH.
Qed.
Lemma occurs_lay s n t ls : In (n, t) ls -> occurs_in s t -> occurs_in s (lay ls).
Proof.
  intros H Hs. unfold lay. eapply occurs_concat; [apply in_map, H|]. cbn [fst snd]. now apply occurs_r, occurs_l.
Qed.
Definition said (s : string) (ls : list line) : Prop := exists n t, In (n, t) ls /\ occurs_in s t.
Lemma said_here s n a ls : occurs_in s a -> said s ((n, a) :: ls).
Proof. exists n, a. simpl. auto. Qed.
Lemma said_cons s x ls : said s ls -> said s (x :: ls).
Proof. intros (n & t & H & K). exists n, t. simpl. auto. Qed.
Lemma said_l s a b : said s a -> said s (a ++ b)%list.
Proof. intros (n & t & H & K). exists n, t. rewrite in_app_iff. auto. Qed.
Lemma said_r s a b : said s b -> said s (a ++ b)%list.
Proof. intros (n & t & H & K). exists n, t. rewrite in_app_iff. auto. Qed.
Lemma said_element s n code name k parts : said s parts -> said s (element_lines n code name k parts).
Proof. intros H. unfold element_lines. now apply said_r. Qed.
Lemma said_numbered {A} s (f : nat -> A -> list line) x xs : In x xs -> (forall i, said s (f i x)) -> forall i, said s (numbered f i xs).
Proof.
  intros H Hf. induction xs as [|y xs IH]; intros i; [destruct H|]. cbn [numbered].
  destruct H as [-> |H]; [now apply said_l|now apply said_r, IH].
Qed.
Ltac here := apply said_here; repeat first [apply occurs_refl | apply occurs_r].
Tactic Notation "below" integer(k) := do k apply said_cons.

Lemma said_property s w n : In s (property_facts w) -> said s (field_lines n w).
Proof.
  intros H. unfold field_lines. apply said_element. cbn [property_facts In] in H.
  destruct H as [<-|[<-|[<-|[<-|H]]]].
  - here.
  - below 1. here.
  - apply said_r, said_r. here.
  - apply said_r, said_r. below 1. here.
  - apply said_r, said_l. exists (n + 3), s. split; [|apply occurs_refl]. now apply (in_map (fun r => (n + 3, r))).
Qed.
Lemma said_fingerprint nn s n : said s (fingerprint_lines nn n s).
Proof. apply said_element. here. Qed.
Lemma said_type nn s t n : In s (type_facts t) -> said s (type_lines nn n t).
Proof.
  destruct t as [c|r]; cbn [type_facts In type_lines]; unfold class_lines, container_lines.
  - intros [<-|[<-|[<-|H]]]; apply said_element.
    + here.
    + apply said_r, said_l, said_fingerprint.
    + below 1. apply said_here. unfold quoted. apply occurs_r. apply (occurs_r _ (String "034" "")). apply occurs_l, occurs_refl.
    + apply in_app_iff in H as [H|H].
      * below 2. apply said_here, occurs_r, occurs_l.
        eapply occurs_concat; [apply (in_map (fun p => margin (n + 2) ++ p ++ " ")), H|]. apply occurs_r, occurs_l, occurs_refl.
      * apply in_flat_map in H as (w & Hw & H). apply said_r, said_r, said_r.
        eapply said_numbered; [exact Hw|]. intros i. apply said_cons. now apply said_property.
  - intros [<-|[<-|[<-|[<-|H]]]]; apply said_element.
    + here.
    + apply said_r, said_fingerprint.
    + below 1. here.
    + below 3. here.
    + below 2. apply said_here, occurs_r, occurs_l.
      eapply occurs_concat; [apply (in_map (fun p => p ++ " ")), H|]. apply occurs_l, occurs_refl.
Qed.
Lemma said_envelope nn fp groups more g t s : In g groups -> In t g -> In s (type_facts t) ->
  said s (envelope_lines nn fp groups more).
Proof.
  intros Hg Ht Hs. apply said_element, said_r, said_element. eapply said_numbered; [exact Hg|]. intros i.
  apply said_cons. eapply said_numbered; [exact Ht|]. intros j. apply said_cons. now apply said_type.
Qed.
Theorem raw_dump_mentions : forall tn fuel fp body groups more l r u, 3 <= fuel ->
  let d := Data (At l (envelope_tree (payload_tree fp body) groups more) r) u in
  exists text, dumpSchema tn fuel ToRaw d = Ok text d /\
    forall g t s, In g groups -> In t g -> In s (type_facts t) -> occurs_in s text.
Proof.
  intros tn fuel fp body groups more l r u H. eexists. split; [apply (raw_dump_shows tn fuel); exact H|].
  intros g t s Hg Ht Hs. destruct (said_envelope (tn TNull) fp groups (length more) g t s Hg Ht Hs) as (n & ln & Hl & Ho).
  eapply occurs_lay; eassumption.
Qed.
