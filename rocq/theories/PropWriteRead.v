(** Property theorems C49, C62: inspecting what was serialised.  Specification:
    SpecWriteRead.v, SpecWriter.v ([wire], [schema_for]), SpecReaders.v
    ([printed]). *)
From Coq Require Import Permutation.
From Verif Require Import Base Proton ProtonProofs Schema SpecSchema SpecDescriptors Factory SpecFactory Readers SpecReaders Blob ReadersProofs
  Writer SpecWriter WriterProofs SpecWriteRead WriteReadProofs ManyProofs.
Import List ListNotations.
Open Scope string_scope.

(** C49.  The text is never wrong: inspecting the blob prints the object, or
    fails because the factory cannot process the schema (and then fails as that
    does).  [kf]: the compiler evaluates the key of a map entry first (C32). *)
Theorem C49_never_wrong_partial : forall fmt custom mo kf root h cf,
  can_inspect root -> kf = true \/ map_free (shown root) -> run mo h new_factory cf -> unrelated_history h root ->
  exists w ws, let blob := decoded (envelope_tree (wire root) [ws] [leaf ANull]) in
    serialise_blob root new_writer = Ok blob w /\ schema_for root ws /\
    forall fuel, height (envelope_tree (wire root) [ws] [leaf ANull]) < fuel ->
    exists ts s, Forall2 type_means ws ts /\ Permutation (List.concat (s_types s)) ts /\
      dumpContents fmt custom mo kf fuel (blob, cf)
      = match process mo s cf with
        | Ok _ cf' => Ok ("{ Parsed : " ++ printed fmt dec (shown root) ++ " }") (blob, cf')
        | Throw e cf' => Throw e (blob, cf')
        | Abort => Abort | UB => UB | Fuel => Fuel
        end.
Proof. exact inspect_written. Qed.
Print Assumptions C49_never_wrong_partial.

(** C49: it does print the object if the alphabetical order of the types is
    one of those of C14, and no type uses itself, and all the factory was
    asked to do before succeeded. *)
Theorem C49_ordered_partial : forall fmt custom mo kf root h cf,
  can_inspect root -> elements_known root -> kf = true \/ map_free (shown root) ->
  run_well mo h new_factory cf -> unrelated_history h root ->
  exists w ws, let blob := decoded (envelope_tree (wire root) [ws] [leaf ANull]) in
    serialise_blob root new_writer = Ok blob w /\ schema_for root ws /\
    forall fuel, height (envelope_tree (wire root) [ws] [leaf ANull]) < fuel ->
    exists ts, Forall2 type_means ws ts /\
      ((forall t, In t ts -> ~ uses t t) -> listed ts ->
       exists cf', dumpContents fmt custom mo kf fuel (blob, cf)
                   = Ok ("{ Parsed : " ++ printed fmt dec (shown root) ++ " }") (blob, cf')).
Proof. exact inspect_written_well. Qed.
Print Assumptions C49_ordered_partial.

(** Not in any order: for an object that holds an object that holds an object
    ... five deep, inspection throws. *)
Theorem C49_chain_refuted : forall fmt custom mo kf, exists root w blob cf,
  can_inspect root /\ elements_known root /\ map_free (shown root) /\ filled root /\
  serialise_blob root new_writer = Ok blob w /\
  dumpContents fmt custom mo kf 20 (blob, new_factory) = Throw RuntimeError (blob, cf).
Proof. exact chain_not_inspected. Qed.
Print Assumptions C49_chain_refuted.

(** Classes need fingerprints of their own.  For two classes that share one, as
    those without a fingerprint do in a build without debugging (Serializable.h:
    61-63), properties are shown under the names of the other class, or an
    assertion fails if the numbers of properties differ; for every value. *)
Lemma sassoc a b c : (a ++ b) ++ c = a ++ (b ++ c).
Proof. induction a as [|x a IH]; cbn; [reflexivity|]. now rewrite IH. Qed.
Definition unset : string := "FINGERPRINT_NOT_SET".
Definition holder (inner : list (string * (string * item))) : item :=
  IObject "net.Outer" unset [("inner", ("net.Inner", IObject "net.Inner" unset inner))].
Theorem C49_shared_fingerprint_refuted : forall fmt custom mo kf x y,
  (exists w blob cf, serialise_blob (holder [("a", ("int", IPrim (OfInt x)))]) new_writer = Ok blob w /\
     dumpContents fmt custom mo kf 20 (blob, new_factory) = Ok ("{ Parsed : { a : { a : " ++ dec x ++ " } } }") (blob, cf)) /\
  (exists w blob, serialise_blob (holder [("a", ("int", IPrim (OfInt x))); ("b", ("int", IPrim (OfInt y)))]) new_writer = Ok blob w /\
     dumpContents fmt custom mo kf 20 (blob, new_factory) = Abort).
Proof.
  intros fmt custom mo kf x y. split.
  - destruct (serialise_blob (holder [("a", ("int", IPrim (OfInt x)))]) new_writer) as [blob w| | | |] eqn:E; try (cbv in E; discriminate).
    exists w, blob. cbv in E. injection E as <- _. destruct mo; eexists; (split; [reflexivity|]); lazy -[dec append];
      (match goal with |- Ok ?a _ = Ok ?b _ => replace a with b; [reflexivity|] end); cbn [append]; rewrite ?sassoc; reflexivity.
  - destruct (serialise_blob (holder [("a", ("int", IPrim (OfInt x))); ("b", ("int", IPrim (OfInt y)))]) new_writer) as [blob w| | | |] eqn:E; try (cbv in E; discriminate).
    exists w, blob. cbv in E. injection E as <- _. destruct mo; (split; [reflexivity|lazy -[dec append]; reflexivity]).
Qed.
Print Assumptions C49_shared_fingerprint_refuted.

Example C49_ex : can_inspect owner /\ elements_known owner /\ map_free (shown owner) /\
  (exists w, serialise_blob owner new_writer = Ok (decoded (envelope_tree (wire owner) [ws_owner] [leaf ANull])) w) /\
  exists ts, Forall2 type_means ws_owner ts /\ (forall t, In t ts -> ~ uses t t) /\ listed ts.
Proof.
  split; [apply owner_inspectable|]. split; [apply owner_known|]. split; [cbn; tauto|]. split; [apply owner_blob|apply owner_listed].
Qed.
Example C49_ex_text : forall fmt, printed fmt dec (shown owner) =
  "{ age : 40, best : { name : ""Rex"" }, pets : [ { name : ""Rex"" }, { name : ""Tom"" } ], spare : <<NULL>> }".
Proof. intros. vm_compute. reflexivity. Qed.
(** A class with a pointer, a vector of objects and a map; a factory that has
    processed another schema. *)
Example C49_ex_history : can_inspect outer /\
  let h := [Process (Schema.schema_of [[TComposite {| c_name := "net.Other"; c_label := ""; c_provides := []; c_descriptor := "f:o"; c_fields := [] |}]])] in
  unrelated_history h outer /\ exists cf, run true h new_factory cf.
Proof.
  split; [apply outer_inspectable|]. split.
  - split; [|intros r [H|[]]; discriminate]. intros u Hu H. cbn in Hu. destruct Hu as [<- |[]]. cbn in H.
    repeat (destruct H as [H|H]; [discriminate|]). destruct H.
  - eexists. eapply run_cons; [|left; vm_compute; reflexivity|apply run_nil]. cbn. constructor; [|constructor].
    split; [constructor|reflexivity].
Qed.

(** C62.  Any number of objects, inspected one after the other with one factory,
    print as they do alone.  Missing: types in other alphabetical orders. *)
Theorem C62_in_a_row_partial : forall fmt custom mo kf roots h cf,
  agree roots -> Forall can_inspect roots -> Forall elements_known roots ->
  kf = true \/ Forall (fun r => map_free (shown r)) roots ->
  run_well mo h new_factory cf -> Forall (unrelated_history h) roots ->
  exists wss tss,
    Forall2 (fun r ws => schema_for r ws /\
      exists w, serialise_blob r new_writer = Ok (decoded (envelope_tree (wire r) [ws] [leaf ANull])) w) roots wss /\
    Forall2 (Forall2 type_means) wss tss /\
    (Forall (fun ts => (forall t, In t ts -> ~ uses t t) /\ listed ts) tss ->
     forall fuel, Forall2 (fun r ws => height (envelope_tree (wire r) [ws] [leaf ANull]) < fuel) roots wss ->
     exists cf', inspect_each fmt custom mo kf fuel
                   (map (fun p => decoded (envelope_tree (wire (fst p)) [snd p] [leaf ANull])) (combine roots wss)) cf
       = Some (map (fun r => "{ Parsed : " ++ printed fmt dec (shown r) ++ " }") roots, cf')).
Proof. exact inspect_in_a_row. Qed.
Print Assumptions C62_in_a_row_partial.

(** An owner of pets, one of those pets by itself, and the owner again. *)
Example C62_ex : let roots := [owner; pet "Felix"; owner] in
  agree roots /\ Forall can_inspect roots /\ Forall elements_known roots /\ Forall (fun r => map_free (shown r)) roots /\
  Forall (unrelated_history [Install RPublicKey]) roots /\ (exists cf, run_well true [Install RPublicKey] new_factory cf) /\
  exists tss, Forall2 (Forall2 type_means) [ws_owner; [wclass "app.Pet" "f:pet" [wfield "name" "string" [] false]]; ws_owner] tss /\
    Forall (fun ts => (forall t, In t ts -> ~ uses t t) /\ listed ts) tss.
Proof. exact owners_in_a_row. Qed.
Example C62_ex_text : forall fmt custom mo,
  option_map fst (inspect_each fmt custom mo true 30
    [decoded (envelope_tree (wire owner) [ws_owner] [leaf ANull]);
     decoded (envelope_tree (wire (pet "Felix")) [[wclass "app.Pet" "f:pet" [wfield "name" "string" [] false]]] [leaf ANull]);
     decoded (envelope_tree (wire owner) [ws_owner] [leaf ANull])] new_factory) =
  Some ["{ Parsed : { age : 40, best : { name : ""Rex"" }, pets : [ { name : ""Rex"" }, { name : ""Tom"" } ], spare : <<NULL>> } }";
        "{ Parsed : { name : ""Felix"" } }";
        "{ Parsed : { age : 40, best : { name : ""Rex"" }, pets : [ { name : ""Rex"" }, { name : ""Tom"" } ], spare : <<NULL>> } }"].
Proof. intros fmt custom [|]; vm_compute; reflexivity. Qed.
