(** Exactly which objects can be inspected. *)
From Coq Require Import Permutation.
From Verif Require Import Base Proton ProtonProofs TypeNames Ordering Schema SpecSchema SchemaProofs
  SpecOrdering Descriptors SpecDescriptors DescriptorsProofs
  Factory SpecFactory FactoryProofs Readers SpecReaders Blob ReadersProofs
  Writer SpecWriter WriterProofs SpecWriteRead WriteReadProofs ManyProofs Programs SpecPrograms ProgramsProofs DecideProofs
  SpecSupply SupplyProofs.
Import List ListNotations.
Open Scope string_scope.

Section Shown.
Context (fmt : N -> string) (custom : nat -> option string -> PM ivalue) (mo kf : bool).
Theorem shown_exactly root ws h cf :
  can_inspect root -> kf = true \/ map_free (shown root) -> run mo h new_factory cf -> unrelated_history h root ->
  schema_for root ws ->
  exists ts levels, Forall2 type_means ws ts /\ inserts notation dependsOn ts [] = Ret levels /\ Permutation (List.concat levels) ts /\
  let blob := decoded (envelope_tree (wire root) [ws] [leaf ANull]) in
  forall fuel, height (envelope_tree (wire root) [ws] [leaf ANull]) < fuel ->
  let result := dumpContents fmt custom mo kf fuel (blob, cf) in
  (supplied cf (List.concat levels) /\ unspoiled cf (List.concat levels) <->
     exists cf', result = Ok ("{ Parsed : " ++ printed fmt dec (shown root) ++ " }") (blob, cf')) /\
  ((exists before t behind k, List.concat levels = (before ++ t :: behind)%list /\ lacks mo cf before t k /\ unspoiled cf (before ++ [t])%list) <->
     exists cf', result = Throw RuntimeError (blob, cf')) /\
  ((exists before t behind, List.concat levels = (before ++ t :: behind)%list /\ supplied cf before /\ unspoiled cf before /\ spoiled cf (n_name t)) <->
     result = UB) /\
  ((exists cf', result = Ok ("{ Parsed : " ++ printed fmt dec (shown root) ++ " }") (blob, cf')) \/ (exists cf', result = Throw RuntimeError (blob, cf')) \/ result = UB).
Proof.
  intros HC Hm HR HU HS. pose proof HC as (HW & HT & HN & HI & HF & HP). pose proof (schema_readable root ws HI HS) as Hr.
  pose proof (all_results_means ws Hr) as H1. destruct (all_results_exact ws Hr) as [H2 H3].
  destruct (inserts_conserve _ H3) as (levels & Hi & Hperm & _). exists (all_results ws), levels. split; [exact H1|]. split; [exact Hi|]. split; [exact Hperm|].
  intros blob fuel Hfuel result.
  assert (Hp : Forall proper (List.concat levels)).
  { rewrite Forall_forall in *. intros u Hu. assert (Hu' : In u (all_results ws)) by (eapply Permutation_in; eauto).
    apply entry_proper; auto. eapply names_not_primitive; eauto. }
  assert (Hs : Forall resolvable (List.concat levels)).
  { rewrite Forall_forall in *. intros u Hu. apply (H3 u). eapply Permutation_in; eauto. }
  assert (Re : reachable mo cf) by now exists h.
  destruct (inspect_result fmt custom mo kf root ws h cf fuel HC Hm HR HU HS Hfuel) as (levels' & Hi' & D).
  rewrite Hi in Hi'. injection Hi' as <-. cbv zeta in D. fold blob in D. fold result in D.
  pose proof (process_verdict mo cf (Schema.schema_of levels) Re Hp Hs) as V.
  pose proof (process_ok mo cf (Schema.schema_of levels) Re Hp Hs) as P1.
  pose proof (process_throws mo cf (Schema.schema_of levels) Re Hp Hs) as P2.
  pose proof (process_ub mo cf (Schema.schema_of levels) Re Hp Hs) as P3.
  cbn [s_types Schema.schema_of] in *. unfold does_fail in P2. unfold goes_wrong in P3.
  rewrite <- P1, <- P2, <- P3, D. inversion V; repeat split;
    try discriminate;
    try (intros (? & ?); discriminate); try (intros (? & ? & ?); discriminate); eauto.
Qed.

Theorem written_exactly root h cf :
  can_inspect root -> kf = true \/ map_free (shown root) -> run mo h new_factory cf -> unrelated_history h root ->
  exists w ws ts levels, let blob := decoded (envelope_tree (wire root) [ws] [leaf ANull]) in
  serialise_blob root new_writer = Ok blob w /\ schema_for root ws /\
  Forall2 type_means ws ts /\ inserts notation dependsOn ts [] = Ret levels /\ Permutation (List.concat levels) ts /\
  forall fuel, height (envelope_tree (wire root) [ws] [leaf ANull]) < fuel ->
  let result := dumpContents fmt custom mo kf fuel (blob, cf) in
  (supplied cf (List.concat levels) /\ unspoiled cf (List.concat levels) <->
     exists cf', result = Ok ("{ Parsed : " ++ printed fmt dec (shown root) ++ " }") (blob, cf')) /\
  ((exists before t behind k, List.concat levels = (before ++ t :: behind)%list /\ lacks mo cf before t k /\ unspoiled cf (before ++ [t])%list) <->
     exists cf', result = Throw RuntimeError (blob, cf')) /\
  ((exists before t behind, List.concat levels = (before ++ t :: behind)%list /\ supplied cf before /\ unspoiled cf before /\ spoiled cf (n_name t)) <->
     result = UB) /\
  ((exists cf', result = Ok ("{ Parsed : " ++ printed fmt dec (shown root) ++ " }") (blob, cf')) \/ (exists cf', result = Throw RuntimeError (blob, cf')) \/ result = UB).
Proof.
  intros HC Hm HR HU. pose proof HC as (HW & HT & HN & _).
  destruct (serialise_correct root) as (w & ws & E & HS); auto. { destruct root; try discriminate; reflexivity. }
  destruct (shown_exactly root ws h cf HC Hm HR HU HS) as (ts & levels & H1 & H2 & H3 & H4). exists w, ws, ts, levels. cbv zeta in *. repeat (split; [assumption|]). exact H4.
Qed.

(** With a factory for which nothing has failed. *)
Theorem shown_or_thrown root h cf :
  can_inspect root -> kf = true \/ map_free (shown root) -> run_well mo h new_factory cf -> unrelated_history h root ->
  exists w ws ts levels, let blob := decoded (envelope_tree (wire root) [ws] [leaf ANull]) in
  serialise_blob root new_writer = Ok blob w /\ schema_for root ws /\
  Forall2 type_means ws ts /\ inserts notation dependsOn ts [] = Ret levels /\ Permutation (List.concat levels) ts /\
  forall fuel, height (envelope_tree (wire root) [ws] [leaf ANull]) < fuel ->
  let result := dumpContents fmt custom mo kf fuel (blob, cf) in
  (supplied cf (List.concat levels) <-> exists cf', result = Ok ("{ Parsed : " ++ printed fmt dec (shown root) ++ " }") (blob, cf')) /\
  (~ supplied cf (List.concat levels) <-> exists cf', result = Throw RuntimeError (blob, cf')).
Proof.
  intros HC Hm HR HU. apply successes_clean in HR as [HR Hclean].
  destruct (written_exactly root h cf HC Hm HR HU) as (w & ws & ts & levels & H1 & H2 & H3 & H4 & H5 & H6). exists w, ws, ts, levels.
  cbv zeta in *. repeat (split; [assumption|]). intros fuel Hf. destruct (H6 fuel Hf) as (A & B & C & D). clear H6.
  assert (U : forall l, unspoiled cf l) by (intros l t Ht N; now apply N).
  assert (A' : supplied cf (List.concat levels) <-> exists cf', dumpContents fmt custom mo kf fuel (decoded (envelope_tree (wire root) [ws] [leaf ANull]), cf) = Ok ("{ Parsed : " ++ printed fmt dec (shown root) ++ " }") (decoded (envelope_tree (wire root) [ws] [leaf ANull]), cf')).
  { rewrite <- A. intuition. }
  split; [exact A'|]. split.
  - intros N. destruct D as [D|[D|D]]; [elim N; now apply A'|exact D|].
    apply C in D as (before & t & behind & _ & _ & _ & W). elim W. apply Hclean.
  - intros (cf' & E) S. apply A' in S as (cf2 & S). rewrite S in E. discriminate.
Qed.
End Shown.

(** Objects of a program. *)
Theorem typed_exactly fmt custom mo kf P T root h cf :
  in_order P -> shows P -> In T (types_of P) -> of_type P T root -> nulls_ok (class_names root) root ->
  kf = true \/ map_free (shown root) -> run_well mo h new_factory cf -> unrelated_history h root ->
  exists w us ts levels, let tree := envelope_tree (wire root) [map (entry_of P) us] [leaf ANull] in
    occurring P root us /\ serialise_blob root new_writer = Ok (decoded tree) w /\
    Forall2 type_means (map (entry_of P) us) ts /\ inserts notation dependsOn ts [] = Ret levels /\ Permutation (List.concat levels) ts /\
    forall fuel, height tree < fuel ->
    let result := dumpContents fmt custom mo kf fuel (decoded tree, cf) in
    (supplied cf (List.concat levels) <-> exists cf', result = Ok ("{ Parsed : " ++ printed fmt dec (shown root) ++ " }") (decoded tree, cf')) /\
    (~ supplied cf (List.concat levels) <-> exists cf', result = Throw RuntimeError (decoded tree, cf')).
Proof.
  intros HP HSh HT HR HN Hm HRun HU. pose proof (typed_can_inspect P HP HSh T root HT HR HN) as HC.
  destruct (shown_or_thrown fmt custom mo kf root h cf HC Hm HRun HU) as (w & ws & ts & levels & E & HS & H).
  destruct (schema_exact P HP T root HT HR ws HS) as (us & Hus & ->). exists w, us, ts, levels. cbv zeta in *. auto.
Qed.
