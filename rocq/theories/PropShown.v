(** Property theorems C84: exactly which objects can be inspected.
    Specification: SpecSupply.v, SpecWriteRead.v, SpecWriter.v, SpecPrograms.v. *)
From Coq Require Import Permutation.
From Verif Require Import Base Proton ProtonProofs TypeNames Ordering Schema SpecSchema SchemaProofs
  SpecOrdering Descriptors SpecDescriptors DescriptorsProofs
  Factory SpecFactory FactoryProofs Readers SpecReaders Blob ReadersProofs
  Writer SpecWriter WriterProofs SpecWriteRead WriteReadProofs ManyProofs Programs SpecPrograms ProgramsProofs ProgramChecks DecideProofs
  SpecSupply SupplyProofs ShownProofs WriterTests SpecWriterTests WriterTestsProofs PropPrograms.
Import List ListNotations.
Open Scope string_scope.

(** C84.  An object is written with a schema; reading the schema back puts its
    types in some order ([levels], C12 and C13).  With any factory, inspecting
    the object shows it exactly if, in this order, each type comes after those it
    names and none is one that an earlier, failed schema lacked; throws exactly if
    a type that lacks another comes first; and is undefined exactly if one that an
    earlier schema lacked comes first. *)
Theorem C84_exactly : forall fmt custom mo kf root h cf,
  can_inspect root -> kf = true \/ map_free (shown root) -> run mo h new_factory cf -> unrelated_history h root ->
  exists w ws ts levels, let blob := decoded (envelope_tree (wire root) [ws] [leaf ANull]) in
  serialise_blob root new_writer = Ok blob w /\ schema_for root ws /\
  Forall2 type_means ws ts /\ inserts notation dependsOn ts [] = Ret levels /\ Permutation (List.concat levels) ts /\
  forall fuel, height (envelope_tree (wire root) [ws] [leaf ANull]) < fuel ->
  let result := dumpContents fmt custom mo kf fuel (blob, cf) in
  (supplied cf (List.concat levels) /\ unspoiled cf (List.concat levels) <->
     exists cf', result = Ok ("{ Parsed : " ++ printed fmt dec (shown root) ++ " }") (blob, cf')) /\
  ((exists before t behind k, List.concat levels = (before ++ t :: behind)%list /\ lacks mo cf before t k /\ unspoiled cf (before ++ [t])%list) <->
     exists cf', result = Throw RuntimeError (blob, cf')) /\
  ((exists before t behind, List.concat levels = (before ++ t :: behind)%list /\ supplied cf before /\ unspoiled cf before /\ spoiled cf (n_name t)) <->
     result = UB) /\
  ((exists cf', result = Ok ("{ Parsed : " ++ printed fmt dec (shown root) ++ " }") (blob, cf')) \/ (exists cf', result = Throw RuntimeError (blob, cf')) \/ result = UB).
Proof. exact written_exactly. Qed.
Print Assumptions C84_exactly.

(** With a factory for which nothing has failed, it is shown or an exception is
    thrown. *)
Theorem C84_shown_or_thrown : forall fmt custom mo kf root h cf,
  can_inspect root -> kf = true \/ map_free (shown root) -> run_well mo h new_factory cf -> unrelated_history h root ->
  exists w ws ts levels, let blob := decoded (envelope_tree (wire root) [ws] [leaf ANull]) in
  serialise_blob root new_writer = Ok blob w /\ schema_for root ws /\
  Forall2 type_means ws ts /\ inserts notation dependsOn ts [] = Ret levels /\ Permutation (List.concat levels) ts /\
  forall fuel, height (envelope_tree (wire root) [ws] [leaf ANull]) < fuel ->
  let result := dumpContents fmt custom mo kf fuel (blob, cf) in
  (supplied cf (List.concat levels) <-> exists cf', result = Ok ("{ Parsed : " ++ printed fmt dec (shown root) ++ " }") (blob, cf')) /\
  (~ supplied cf (List.concat levels) <-> exists cf', result = Throw RuntimeError (blob, cf')).
Proof. exact shown_or_thrown. Qed.
Print Assumptions C84_shown_or_thrown.

(** The same for the objects of a program (C75): the types are those that occur
    in the object. *)
Theorem C84_programs : forall fmt custom mo kf P T root h cf,
  in_order P -> shows P -> In T (types_of P) -> of_type P T root -> nulls_ok (class_names root) root ->
  kf = true \/ map_free (shown root) -> run_well mo h new_factory cf -> unrelated_history h root ->
  exists w us ts levels, let tree := envelope_tree (wire root) [map (entry_of P) us] [leaf ANull] in
    occurring P root us /\ serialise_blob root new_writer = Ok (decoded tree) w /\
    Forall2 type_means (map (entry_of P) us) ts /\ inserts notation dependsOn ts [] = Ret levels /\ Permutation (List.concat levels) ts /\
    forall fuel, height tree < fuel ->
    let result := dumpContents fmt custom mo kf fuel (decoded tree, cf) in
    (supplied cf (List.concat levels) <-> exists cf', result = Ok ("{ Parsed : " ++ printed fmt dec (shown root) ++ " }") (decoded tree, cf')) /\
    (~ supplied cf (List.concat levels) <-> exists cf', result = Throw RuntimeError (decoded tree, cf')).
Proof. exact typed_exactly. Qed.
Print Assumptions C84_programs.

(** An object that is shown and one (C49_chain_refuted) that is not. *)
Example C84_ex_shown : can_inspect owner /\ map_free (shown owner) /\
  exists levels, inserts notation dependsOn (all_results ws_owner) [] = Ret levels /\ supplied new_factory (List.concat levels).
Proof.
  split; [apply owner_inspectable|]. split; [cbn; tauto|]. eexists. split; [vm_compute; reflexivity|].
  apply suppliedb_spec. vm_compute. reflexivity.
Qed.
Definition ws_chain : list wire_type := [
  wclass "net.A" "f:a" []; wclass "net.B" "f:b" [wfield "a" "net.A" [] false]; wclass "net.C" "f:c" [wfield "b" "net.B" [] false];
  wclass "net.D" "f:d" [wfield "e" "net.E" [] false]; wclass "net.E" "f:e" [wfield "c" "net.C" [] false]].
Example C84_ex_thrown : can_inspect chain_of_five /\ map_free (shown chain_of_five) /\
  (exists w, serialise_blob chain_of_five new_writer = Ok (decoded (envelope_tree (wire chain_of_five) [ws_chain] [leaf ANull])) w) /\
  exists levels, inserts notation dependsOn (all_results ws_chain) [] = Ret levels /\
    map n_name (List.concat levels) = ["net.E"; "net.A"; "net.D"; "net.B"; "net.C"] /\ ~ supplied new_factory (List.concat levels).
Proof.
  split; [apply chain_inspectable|]. split; [cbn; tauto|]. split; [eexists; vm_compute; reflexivity|].
  eexists. split; [vm_compute; reflexivity|]. split; [vm_compute; reflexivity|]. intros H. apply suppliedb_spec in H. vm_compute in H. discriminate.
Qed.
(** A factory that failed to process a schema that names a type of the object
    without describing it. *)
Definition shop : list op := [Process (Schema.schema_of [[class_of "net.Shop" [field_of "pet" "app.Pet" []]]])].
Example C84_ex_undefined : unrelated_history shop owner /\ exists cf, run true shop new_factory cf /\ spoiled cf "app.Pet" /\
  exists levels before t behind, inserts notation dependsOn (all_results ws_owner) [] = Ret levels /\
    List.concat levels = (before ++ t :: behind)%list /\ n_name t = "app.Pet" /\ before = [].
Proof.
  split.
  - split; [|intros r [H|[]]; discriminate]. intros u [<- |[]] H. cbn in H. repeat (destruct H as [H|H]; [discriminate|]). destruct H.
  - eexists. split.
    + eapply run_cons; [|right; eexists; vm_compute; reflexivity|apply run_nil]. cbn. constructor; [|constructor]. split; [|reflexivity].
      constructor; [|constructor]. eapply (field_of_made "pet" "app.Pet" []). vm_compute. reflexivity.
    + split; [intros H; now apply H|]. eexists _, [], _, _. split; [vm_compute; reflexivity|]. split; [reflexivity|]. split; reflexivity.
Qed.
