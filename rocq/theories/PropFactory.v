(** Property theorems C24 - C29, C56: the reader factory.  Specification:
    SpecFactory.v.  [kf] is the unspecified order of evaluation of two function
    arguments (see Factory.v). *)
From Verif Require Import Base TypeNames Ordering SpecOrdering Schema SpecSchema SchemaProofs Factory SpecFactory FactoryProofs.
Import List ListNotations.
Open Scope string_scope.

(** C24: after any history, when process returns every entry's name and
    fingerprint give the same live reader of that type, and so is everything
    the reader refers to. *)
Theorem C24_every_type_resolves : forall kf f s f', reachable kf f -> Forall proper (List.concat (s_types s)) ->
  one_name_per_fingerprint (List.concat (s_types s)) -> process kf s f = Ok tt f' ->
  forall t, In t (List.concat (s_types s)) -> exists i r,
    byType f' (n_name t) = Some i /\ byDescriptor f' (n_descriptor t) = Some i /\
    lock f' i = Some r /\ reader_type r = n_name t /\
    (forall j, refers f' i j -> exists r', lock f' j = Some r').
Proof. exact processed_resolves. Qed.
Print Assumptions C24_every_type_resolves.

(** C24: the reader is one for the entry as it stands, property by property. *)
Theorem C24_readers_match_entries : forall kf h f s f',
  run kf h new_factory f -> Forall proper (List.concat (s_types s)) -> process kf s f = Ok tt f' ->
  forall t, In t (List.concat (s_types s)) ->
    (forall u, In u (entries_of h ++ List.concat (s_types s)) -> n_name u = n_name t -> u = t) ->
    (forall r, In (Install r) h -> reader_type r <> n_name t) ->
  exists i r, byType f' (n_name t) = Some i /\ lock f' i = Some r /\ reads f' t r.
Proof. exact processed_reads. Qed.
Print Assumptions C24_readers_match_entries.

(** C24: process does return normally on complete schemas. *)
Theorem C24_complete_schema_processed : forall kf f s,
  Forall proper (List.concat (s_types s)) -> Forall resolvable (List.concat (s_types s)) ->
  (forall t k, In t (List.concat (s_types s)) -> k = n_name t \/ named_by t k -> unpoisoned f k) ->
  complete f (List.concat (s_types s)) -> exists f', process kf s f = Ok tt f'.
Proof. exact process_succeeds. Qed.
Print Assumptions C24_complete_schema_processed.

(** C24 with C14: a self-contained schema listed dependencies first, last or in
    another of the orders of C14, in the order the schema object gives its types, whatever the factory
    has done before provided that it succeeded. *)
Theorem C24_ordered_schema_processed : forall kf h f ts,
  run_well kf h new_factory f ->
  regular ts -> listed ts -> Forall proper ts -> closed f ts ->
  exists levels f', inserts notation dependsOn ts [] = Ret levels /\ process kf (schema_of levels) f = Ok tt f'.
Proof. exact ordered_processed_well. Qed.
Print Assumptions C24_ordered_schema_processed.

Example C24_ex : regular ts_mixed /\ listed ts_mixed /\ Forall proper ts_mixed /\
  closed new_factory ts_mixed /\ one_name_per_fingerprint ts_mixed.
Proof. destruct ts_mixed_first as [H1 H2]. assert (listed ts_mixed) by now apply first_listed. auto using ts_mixed_proper, ts_mixed_closed, ts_mixed_unique. Qed.
(** A factory that has a serialiser for public keys and has processed a schema. *)
Example C24_ex_history : exists f, run_well true [Install RPublicKey; Process (schema_of [(b_alone ++ a_with_b)%list])] new_factory f.
Proof.
  eexists. eapply well_cons; [split; [exact I|reflexivity]|reflexivity|].
  eapply well_cons; [|vm_compute; reflexivity|apply well_nil]. cbn [careful s_types schema_of List.concat]. rewrite app_nil_r.
  apply Forall_app. split; [apply b_alone_proper|apply a_with_b_proper].
Qed.
(** The readers of the class that holds a map of lists of objects and an enum. *)
Example C24_ex_readers : exists f, process true (schema_of [ts_mixed]) new_factory = Ok tt f /\
  map (fun t => byType f (n_name t)) ts_mixed = map (fun t => byDescriptor f (n_descriptor t)) ts_mixed /\
  map (fun t => match byType f (n_name t) with Some i => lock f i | None => None end) ts_mixed =
    [Some (RComposite "net.B" [1]); Some (REnum "net.E" ["A"; "B"]); Some (RList "java.util.List<net.B>" 0);
     Some (RMap "java.util.Map<string, java.util.List<net.B>>" 4 3); Some (RComposite "net.A" [5; 2])].
Proof. eexists. split; [vm_compute; reflexivity|]. split; vm_compute; reflexivity. Qed.

(** C25: processing a schema again, at once or after any other operations
    (failed ones included), returns normally, makes no reader and changes no
    lookup. *)
Theorem C25_process_again : forall kf h0 f s f1 h f2, run kf h0 new_factory f -> Forall proper (List.concat (s_types s)) ->
  process kf s f = Ok tt f1 -> run kf h f1 f2 ->
  exists f3, process kf s f2 = Ok tt f3 /\ heap f3 = heap f2 /\ (forall k, byType f3 k = byType f2 k) /\
    (one_name_per_fingerprint (entries_of h0 ++ List.concat (s_types s) ++ entries_of h) ->
     forall d, byDescriptor f3 d = byDescriptor f2 d).
Proof. exact process_again. Qed.
Print Assumptions C25_process_again.

(** With a failed schema and an installed serialiser in between. *)
Example C25_ex : exists f1 f2, process true (schema_of [ts_mixed]) new_factory = Ok tt f1 /\
  run true [Install RPublicKey; Process (schema_of [[class_of "net.C" [field_of "d" "net.D" []]]])] f1 f2 /\
  one_name_per_fingerprint (entries_of [] ++ ts_mixed ++
    entries_of [Install RPublicKey; Process (schema_of [[class_of "net.C" [field_of "d" "net.D" []]]])]).
Proof.
  exists (after true (Process (schema_of [ts_mixed])) new_factory).
  eexists. split; [vm_compute; reflexivity|]. split.
  - eapply run_cons; [split; [exact I|vm_compute; reflexivity]|left; vm_compute; reflexivity|].
    eapply run_cons; [|right; eexists; vm_compute; reflexivity|apply run_nil].
    change (Forall proper [class_of "net.C" [field_of "d" "net.D" []]]). entries_proper.
  - apply unique_checked. vm_compute. reflexivity.
Qed.

(** C26 fails: a schema that lacks a type leaves a null entry behind, and a
    later complete schema makes the program follow it (undefined behaviour; the
    assertion that would catch it comes after a debug line that already does). *)
Theorem C26_failed_schema_refuted : forall kf, exists incomplete complete_ f1,
  Forall proper (List.concat (s_types incomplete)) /\ Forall proper (List.concat (s_types complete_)) /\
  process kf incomplete new_factory = Throw RuntimeError f1 /\
  (exists f2, process kf complete_ new_factory = Ok tt f2) /\
  process kf complete_ f1 = UB.
Proof. exact failed_schema_poisons. Qed.
Print Assumptions C26_failed_schema_refuted.

(** C26 holds for schemas that do not mention a type an earlier schema lacked.
    Missing: all others, which are undefined. *)
Theorem C26_failed_schema_partial : forall kf h f s, run kf h new_factory f ->
  Forall proper (List.concat (s_types s)) -> Forall resolvable (List.concat (s_types s)) ->
  (forall t k, In t (List.concat (s_types s)) -> k = n_name t \/ named_by t k -> unpoisoned f k) ->
  complete f (List.concat (s_types s)) -> exists f', process kf s f = Ok tt f'.
Proof. intros kf h f s _. apply process_succeeds. Qed.
Print Assumptions C26_failed_schema_partial.

Example C26_ex : exists f, run true [Process (schema_of [a_with_b])] new_factory f /\
  Forall proper ts_mixed /\ Forall resolvable ts_mixed /\
  unpoisoned f "java.util.List<net.B>" /\ ~ unpoisoned f "net.B".
Proof.
  eexists. split.
  - eapply run_cons; [exact a_with_b_proper|right; eexists; vm_compute; reflexivity|apply run_nil].
  - split; [exact ts_mixed_proper|]. split.
    + destruct ts_mixed_first as [[H _] _]. eapply Forall_impl; [|exact H]. now intros t [_ [H1 _]].
    + split; [discriminate|]. intros H. apply H. reflexivity.
Qed.

(** C27: every reader found by name stays, with everything it refers to;
    likewise by fingerprint as long as a fingerprint stands for one type. *)
Theorem C27_readers_stable : forall kf h0 f h f', run kf h0 new_factory f -> run kf h f f' ->
  (forall k i, byType f k = Some i -> byType f' k = Some i) /\
  (forall k i j r, byType f k = Some i -> refers f i j -> lock f j = Some r -> lock f' j = Some r) /\
  (one_name_per_fingerprint (entries_of h0 ++ entries_of h) ->
   forall d i, byDescriptor f d = Some i -> byDescriptor f' d = Some i).
Proof. exact readers_stable. Qed.
Print Assumptions C27_readers_stable.

(** Without that condition the later type takes the fingerprint over. *)
Theorem C27_fingerprint_refuted : forall kf, exists s1 s2 f1 f2 i j,
  Forall proper (List.concat (s_types s1)) /\ Forall proper (List.concat (s_types s2)) /\
  process kf s1 new_factory = Ok tt f1 /\ process kf s2 f1 = Ok tt f2 /\
  byDescriptor f1 "net.corda:f" = Some i /\ byDescriptor f2 "net.corda:f" = Some j /\ i <> j.
Proof. exact fingerprints_taken. Qed.
Print Assumptions C27_fingerprint_refuted.

Example C27_ex : exists f1 f2, run true [Process (schema_of [ts_mixed])] new_factory f1 /\
  run true [Process (schema_of [[class_of "net.C" [field_of "a" "net.A" []; field_of "d" "net.D" []]]])] f1 f2 /\
  byType f1 "net.A" = Some 6 /\ refers f1 6 0 /\ byType f2 "net.C" = None.
Proof.
  exists (after true (Process (schema_of [ts_mixed])) new_factory). eexists. split; [|split; [|split; [|split]]].
  - eapply run_cons; [exact ts_mixed_proper|left; vm_compute; reflexivity|apply run_nil].
  - eapply run_cons; [|right; eexists; vm_compute; reflexivity|apply run_nil].
    change (Forall proper [class_of "net.C" [field_of "a" "net.A" []; field_of "d" "net.D" []]]). entries_proper.
  - vm_compute. reflexivity.
  - eapply refers_kid with (j := 3); [|vm_compute; reflexivity|now left].
    eapply refers_kid with (j := 5); [|vm_compute; reflexivity|right; now left].
    eapply refers_kid with (j := 6); [apply refers_self|vm_compute; reflexivity|now left].
  - vm_compute. reflexivity.
Qed.

(** C28, for types that have no reader yet: the serialiser stays, every property
    of its type uses it, and no reader made before changes. *)
Theorem C28_install_partial : forall kf h0 f r f1 h f2 s f3, run kf h0 new_factory f -> is_custom r ->
  byType f (reader_type r) = None ->
  installCustomSerialiser r f = Ok tt f1 -> run kf h f1 f2 -> Forall proper (List.concat (s_types s)) ->
  process kf s f2 = Ok tt f3 ->
  (exists i, byType f3 (reader_type r) = Some i /\ lock f3 i = Some r /\
   forall c, In (TComposite c) (List.concat (s_types s)) ->
     (forall u, In u (entries_of h0 ++ entries_of h ++ List.concat (s_types s)) -> n_name u = c_name c -> u = TComposite c) ->
     (forall x, In (Install x) (h0 ++ Install r :: h) -> reader_type x <> c_name c) ->
     exists q ks, byType f3 (c_name c) = Some q /\ lock f3 q = Some (RComposite (c_name c) ks) /\
       forall n fd, nth_error (c_fields c) n = Some fd -> property_type fd = Some (reader_type r) -> nth_error ks n = Some i) /\
  (forall k i j x, byType f k = Some i -> refers f i j -> lock f j = Some x -> byType f3 k = Some i /\ lock f3 j = Some x).
Proof. exact installed_used. Qed.
Print Assumptions C28_install_partial.

Example C28_ex : exists f1 f2 f3, run true [Process (schema_of [ts_mixed])] new_factory f1 /\
  byType f1 (reader_type RPublicKey) = None /\ installCustomSerialiser RPublicKey f1 = Ok tt f2 /\
  Forall proper [class_of "net.K" [field_of "a" "net.A" []; field_of "k" "java.security.PublicKey" []]] /\
  process true (schema_of [[class_of "net.K" [field_of "a" "net.A" []; field_of "k" "java.security.PublicKey" []]]]) f2 = Ok tt f3.
Proof.
  exists (after true (Process (schema_of [ts_mixed])) new_factory). eexists _, _. split; [|split; [|split; [|split]]].
  - eapply run_cons; [exact ts_mixed_proper|left; vm_compute; reflexivity|apply run_nil].
  - vm_compute. reflexivity.
  - vm_compute. reflexivity.
  - entries_proper.
  - vm_compute. reflexivity.
Qed.

(** C28 fails otherwise: installing a serialiser for a type that is in use leaves
    readers with a dangling reference ... *)
Theorem C28_reinstall_refuted : forall kf, exists r f1 s f2 f3 i ks,
  is_custom r /\ installCustomSerialiser r new_factory = Ok tt f1 /\
  process kf s f1 = Ok tt f2 /\ byType f2 "net.A" = Some i /\ lock f2 i = Some (RComposite "net.A" [ks]) /\ lock f2 ks = Some r /\
  installCustomSerialiser r f2 = Ok tt f3 /\ byType f3 "net.A" = Some i /\ lock f3 i = Some (RComposite "net.A" [ks]) /\ lock f3 ks = None.
Proof. exact reinstall_dangles. Qed.
Print Assumptions C28_reinstall_refuted.

(** ... or is not used by readers made before. *)
Theorem C28_late_install_refuted : forall kf, exists s r f1 f2 i j q,
  process kf s new_factory = Ok tt f1 /\ is_custom r /\ reader_type r = "net.B" /\
  installCustomSerialiser r f1 = Ok tt f2 /\ byType f2 "net.B" = Some q /\ lock f2 q = Some r /\
  byType f2 "net.A" = Some i /\ lock f2 i = Some (RComposite "net.A" [j]) /\ j <> q /\ lock f2 j = Some (RComposite "net.B" [1]).
Proof. exact late_install_unused. Qed.
Print Assumptions C28_late_install_refuted.

(** C29 fails: a wildcard property with no required type. *)
Theorem C29_wildcard_refuted : forall kf, exists s, Forall proper (List.concat (s_types s)) /\ process kf s new_factory = UB.
Proof. exact wildcard_undefined. Qed.
Print Assumptions C29_wildcard_refuted.

(** C29, when every wildcard property requires something: processing returns
    or throws.  Missing: wildcards that require nothing. *)
Theorem C29_wildcard_partial : forall kf s,
  Forall proper (List.concat (s_types s)) -> Forall resolvable (List.concat (s_types s)) ->
  forall f, (forall k, unpoisoned f k) ->
  (exists f', process kf s f = Ok tt f' /\ forall k, unpoisoned f' k) \/ (exists e f', process kf s f = Throw e f').
Proof. exact process_defined. Qed.
Print Assumptions C29_wildcard_partial.

Example C29_ex : Forall proper [class_of "net.A" [field_of "x" "*" ["java.util.List<net.Missing>"]]] /\
  Forall resolvable [class_of "net.A" [field_of "x" "*" ["java.util.List<net.Missing>"]]] /\
  forall k, unpoisoned new_factory k.
Proof.
  split; [entries_proper|]. split; [|discriminate]. constructor; [|constructor]. intros fd [<- |[]]. discriminate.
Qed.

(** C56 fails: the second version of a class gets the reader of the first. *)
Theorem C56_versions_refuted : forall kf, exists f1 f2 i r,
  process kf (schema_of [[version1]]) new_factory = Ok tt f1 /\ process kf (schema_of [[version2]]) f1 = Ok tt f2 /\
  byDescriptor f2 (n_descriptor version2) = Some i /\ lock f2 i = Some r /\ ~ reads f2 version2 r /\
  exists f' j r', process kf (schema_of [[version2]]) new_factory = Ok tt f' /\
    byDescriptor f' (n_descriptor version2) = Some j /\ lock f' j = Some r' /\ reads f' version2 r'.
Proof. exact versions_confused. Qed.
Print Assumptions C56_versions_refuted.
