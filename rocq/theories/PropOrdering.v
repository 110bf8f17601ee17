(** Property theorems C10 - C17: the order of a schema's types, dependency
    scores and lookup.  Specifications: SpecOrdering.v, SpecSchema.v. *)
From Coq Require Import Permutation.
From Verif Require Import Base TypeNames Ordering SpecOrdering OrderingProofs Schema SpecSchema SchemaProofs.
Import List ListNotations.
Open Scope string_scope.

(** C10, for any score function with values 0, 1, 2, cyclic or not. *)
Theorem C10_insert_conserves : forall (T : Type) (dep : T -> T -> res nat) (ps : list T),
  (forall j p, In j ps -> In p ps -> exists n, n <= 2 /\ dep j p = Ret n) ->
  exists levels, inserts T dep ps [] = Ret levels /\
    Permutation (concat levels) ps /\ (forall l, In l levels -> l <> []).
Proof. exact inserts_conserve_gen. Qed.
Print Assumptions C10_insert_conserves.

(** C10, for the schema's own scores: every list of entries, with repetitions
    and cycles. *)
Theorem C10_schema_conserves : forall ts, Forall entry_ok ts ->
  exists levels, inserts notation dependsOn ts [] = Ret levels /\
    Permutation (concat levels) ts /\ (forall l, In l levels -> l <> []).
Proof. exact inserts_conserve. Qed.
Print Assumptions C10_schema_conserves.

Example C10_ex : Forall entry_ok (ts_mixed ++ ts_mixed)%list.
Proof. apply Forall_app; split; apply ts_mixed_first. Qed.
(** Two classes that use each other. *)
Example C10_ex_cycle : exists levels,
  inserts notation dependsOn
    [class_of "net.A" [field_of "b" "net.B" []]; class_of "net.B" [field_of "a" "net.A" []]] [] = Ret levels
  /\ List.length levels = 2.
Proof. eexists. split; [vm_compute; reflexivity|reflexivity]. Qed.

(** C11: symmetric scores. *)
Theorem C11_groups_independent : forall (T : Type) (dep : T -> T -> res nat) (ps : list T) levels,
  (forall j p, In j ps -> In p ps -> exists n, n <= 2 /\ dep j p = Ret n) ->
  (forall j p, In j ps -> In p ps -> (dep j p = Ret 1 <-> dep p j = Ret 2)) ->
  inserts T dep ps [] = Ret levels ->
  forall g l x m y r, In g levels -> g = (l ++ x :: m ++ y :: r)%list -> dep x y = Ret 0 /\ dep y x = Ret 0.
Proof. exact groups_independent_gen. Qed.
Print Assumptions C11_groups_independent.

(** C11, for the schema's own scores, when no class uses another one only
    inside a container. *)
Theorem C11_schema_groups_independent : forall ts levels, regular ts ->
  (forall x y, In x ts -> In y ts -> nested_use x y -> direct x y) ->
  (forall x y, In x ts -> In y ts -> direct x y -> ~ direct y x) ->
  inserts notation dependsOn ts [] = Ret levels -> independent_groups uses levels.
Proof. exact groups_independent. Qed.
Print Assumptions C11_schema_groups_independent.

(** Without that condition the scores are not symmetric and the claim fails. *)
Theorem C11_nested_refuted : exists ts levels a b n,
  regular ts /\ inserts notation dependsOn ts [] = Ret levels /\
  in_group a n levels /\ in_group b n levels /\ uses a b.
Proof. exact same_group. Qed.
Print Assumptions C11_nested_refuted.

Example C11_ex : regular ts_chain /\
  (forall x y, In x ts_chain -> In y ts_chain -> nested_use x y -> direct x y) /\
  (forall x y, In x ts_chain -> In y ts_chain -> direct x y -> ~ direct y x).
Proof. exact ts_chain_ok. Qed.

(** C12, for any scores that report a dependency relation exactly. *)
Theorem C12_dependencies_first : forall (T : Type) (dep : T -> T -> res nat) (depends : T -> T -> Prop) ps,
  (forall j p, In j ps -> In p ps -> j <> p -> reports depends dep j p) ->
  (forall x, In x ps -> ~ depends x x) -> NoDup ps -> dependencies_first depends ps ->
  exists levels, inserts T dep ps [] = Ret levels /\
    Permutation (concat levels) ps /\ dependency_order depends levels.
Proof. exact order_first_gen. Qed.
Print Assumptions C12_dependencies_first.

(** C12, for the schema's own scores; [uses] includes use inside containers. *)
Theorem C12_schema_dependencies_first : forall ts, regular ts -> dependencies_first uses ts ->
  exists levels, inserts notation dependsOn ts [] = Ret levels /\
    Permutation (concat levels) ts /\ dependency_order uses levels.
Proof. exact order_first. Qed.
Print Assumptions C12_schema_dependencies_first.

Example C12_ex : regular ts_mixed /\ dependencies_first uses ts_mixed.
Proof. exact ts_mixed_first. Qed.

(** C13 *)
Theorem C13_dependencies_last : forall (T : Type) (dep : T -> T -> res nat) (depends : T -> T -> Prop) ps,
  (forall j p, In j ps -> In p ps -> j <> p -> reports depends dep j p) ->
  (forall x, In x ps -> ~ depends x x) -> NoDup ps -> dependencies_last depends ps ->
  exists levels, inserts T dep ps [] = Ret levels /\
    Permutation (concat levels) ps /\ dependency_order depends levels.
Proof. exact order_last_gen. Qed.
Print Assumptions C13_dependencies_last.

Theorem C13_schema_dependencies_last : forall ts,
  regular ts -> lists_containers ts -> dependencies_last uses ts ->
  exists levels, inserts notation dependsOn ts [] = Ret levels /\
    Permutation (concat levels) ts /\ dependency_order uses levels.
Proof. exact order_last. Qed.
Print Assumptions C13_schema_dependencies_last.

Example C13_ex : regular (rev ts_mixed) /\ dependencies_last uses (rev ts_mixed) /\ lists_containers (rev ts_mixed).
Proof. destruct ts_mixed_last. auto using ts_mixed_containers. Qed.

(** C14: an acyclic set of classes (it can be listed dependencies first) and an
    arrival order for which the result is not a dependency order. *)
Theorem C14_any_order_refuted : exists ts ts' levels,
  regular ts /\ Permutation ts ts' /\ dependencies_first uses ts' /\
  inserts notation dependsOn ts [] = Ret levels /\ ~ dependency_order uses levels.
Proof. exact any_order_wrong. Qed.
Print Assumptions C14_any_order_refuted.

(** What is proved of it: inserting one more entry keeps a dependency order as
    long as everything the newcomer uses is in an earlier group than everything
    that uses it. *)
Theorem C14_insert_partial : forall (T : Type) (dep : T -> T -> res nat) (depends : T -> T -> Prop) p levels k,
  (forall a b, In a (p :: concat levels) -> In b (p :: concat levels) -> a <> b -> reports depends dep a b) ->
  (forall a, In a (p :: concat levels) -> ~ depends a a) ->
  NoDup (p :: concat levels) -> dependency_order depends levels ->
  (forall x n, in_group x n levels -> depends p x -> n < k) ->
  (forall x n, in_group x n levels -> depends x p -> k <= n) ->
  exists levels', insert T dep p levels = Ret levels' /\
    Permutation (concat levels') (p :: concat levels) /\ dependency_order depends levels'.
Proof. exact insert_keeps_order. Qed.
Print Assumptions C14_insert_partial.

(** Exactly when one insertion keeps the order: nothing the newcomer depends on
    is in a later group than something that depends on the newcomer. *)
Theorem C14_insert_exactly : forall (T : Type) (dep : T -> T -> res nat) (depends : T -> T -> Prop) p levels,
  (forall a b, In a (p :: concat levels) -> In b (p :: concat levels) -> a <> b -> reports depends dep a b) ->
  (forall a, In a (p :: concat levels) -> ~ depends a a) ->
  (forall a, In a (concat levels) -> depends a p -> ~ depends p a) ->
  NoDup (p :: concat levels) -> dependency_order depends levels ->
  exists levels', insert T dep p levels = Ret levels' /\ Permutation (concat levels') (p :: concat levels) /\
    (dependency_order depends levels' <->
     forall x y n m, in_group x n levels -> in_group y m levels -> depends x p -> depends p y -> m <= n).
Proof. exact insert_right_exactly. Qed.
Print Assumptions C14_insert_exactly.

(** Any arrival order in which whoever arrives between two others finds them in
    order already. *)
Theorem C14_bridged_partial : forall (T : Type) (dep : T -> T -> res nat) (depends : T -> T -> Prop) ps,
  (forall j p, In j ps -> In p ps -> j <> p -> reports depends dep j p) ->
  (forall x, In x ps -> ~ depends x x) -> NoDup ps -> bridged depends ps ->
  exists levels, inserts T dep ps [] = Ret levels /\
    Permutation (concat levels) ps /\ dependency_order depends levels.
Proof. exact order_bridged_gen. Qed.
Print Assumptions C14_bridged_partial.

(** The same for the schema's own scores. *)
Theorem C14_listed_partial : forall ts, regular ts -> listed ts ->
  exists levels, inserts notation dependsOn ts [] = Ret levels /\
    Permutation (concat levels) ts /\ dependency_order uses levels.
Proof. exact order_listed. Qed.
Print Assumptions C14_listed_partial.

(** Which orders these are: dependencies first, dependencies last, and, if
    everything used by way of another type is also used as such, any order at all
    where containers come before classes. *)
Theorem C14_listed_orders : forall ts,
  (dependencies_first uses ts -> listed ts) /\
  (lists_containers ts -> dependencies_last uses ts -> (forall t, In t ts -> ~ uses t t) -> listed ts) /\
  (transitively_used ts -> containers_first ts ->
   (forall x y, In x ts -> In y ts -> uses x y -> uses_through (restricted_among ts) x y) -> listed ts) /\
  (transitively_used ts -> (forall x y, In x ts -> In y ts -> uses x y -> direct x y) -> listed ts).
Proof.
  intros ts. split; [exact (first_listed ts)|]. split; [exact (last_listed ts)|]. split.
  - intros H1 H2 H3. apply containers_first_listed; auto. now apply transitive_bridged.
  - intros H1 H2. apply plain_listed; auto. now apply transitive_bridged.
Qed.
Print Assumptions C14_listed_orders.

(** A list, the class that has it, the class of its elements: neither order of
    C12 and C13. *)
Example C14_ex : regular ts_between /\ listed ts_between /\
  ~ dependencies_first uses ts_between /\ ~ dependencies_last uses ts_between.
Proof.
  destruct ts_between_listed as (H1 & H2 & H3 & H4 & H5). split; [exact H1|]. split; [|exact H5].
  destruct (C14_listed_orders ts_between) as (_ & _ & H & _). auto.
Qed.
(** The newcomer 1 between 0 and 2, where 2 uses 1 and 1 uses 0, in one group: no harm. *)
Example C14_ex_insert : let dep j p := Ret (if Nat.eqb p (S j) then 1 else if Nat.eqb j (S p) then 2 else 0) in
  insert nat dep 1 [[0; 2]] = Ret [[0]; [1]; [2]].
Proof. vm_compute. reflexivity. Qed.

(** C15.  [~ blind_pair] is no restriction here: it concerns arrays and enums.
    Missing for the full property: a class [j] that uses the class [p] only
    inside a container. *)
Theorem C15_scores_partial : forall j p,
  entry_ok j -> entry_ok p -> n_name j <> n_name p ->
  ~ is_kind array_t j -> ~ is_kind enum_t j -> ~ is_kind array_t p -> ~ is_kind enum_t p ->
  (nested_use j p -> direct j p) ->
  right_score j p (dependsOn j p).
Proof. exact scores_right. Qed.
Print Assumptions C15_scores_partial.

Theorem C15_nested_refuted : exists j p, entry_ok j /\ entry_ok p /\ n_name j <> n_name p /\
  ~ uses p j /\ uses j p /\ dependsOn j p = Ret 0 /\ dependsOn p j = Ret 1.
Proof. exact nested_score_wrong. Qed.
Print Assumptions C15_nested_refuted.

(** With a wildcard property without required types the comparison reads the
    front of an empty list. *)
Theorem C15_wildcard_refuted : exists j p, made j /\ made p /\ dependsOn j p = Undef.
Proof. exact wildcard_undefined. Qed.
Print Assumptions C15_wildcard_refuted.

Example C15_ex :
  dependsOn (restricted_of "java.util.List<net.B>" "list" [])
            (class_of "net.A" [field_of "bs" "*" ["java.util.List<net.B>"]]) = Ret 1 /\
  dependsOn (restricted_of "java.util.Map<string, java.util.List<net.B>>" "map" [])
            (restricted_of "java.util.List<net.B>" "list" []) = Ret 2.
Proof. split; vm_compute; reflexivity. Qed.

(** C16.  Missing: the pairs of [blind_pair], i.e. an array with a list, map,
    array or enum one of which uses the other, and a map of enums. *)
Theorem C16_scores_partial : forall j p,
  entry_ok j -> entry_ok p -> n_name j <> n_name p ->
  (is_kind array_t j \/ is_kind enum_t j \/ is_kind array_t p \/ is_kind enum_t p) ->
  ~ blind_pair j p -> ~ blind_pair p j ->
  right_score j p (dependsOn j p).
Proof. exact array_enum_scores. Qed.
Print Assumptions C16_scores_partial.

Theorem C16_array_refuted : exists j p, entry_ok j /\ entry_ok p /\ n_name j <> n_name p /\
  uses p j /\ dependsOn j p = Ret 0.
Proof. exact array_score_wrong. Qed.
Print Assumptions C16_array_refuted.

Theorem C16_enum_refuted : exists j p, entry_ok j /\ entry_ok p /\ n_name j <> n_name p /\
  ~ uses p j /\ uses j p /\ dependsOn j p = Ret 1.
Proof. exact enum_score_wrong. Qed.
Print Assumptions C16_enum_refuted.

Example C16_ex :
  dependsOn (class_of "net.B" []) (restricted_of "net.B[]" "list" []) = Ret 1 /\
  dependsOn (class_of "net.A" [field_of "e" "net.E" []]) (restricted_of "net.E" "list" ["X"]) = Ret 2.
Proof. split; vm_compute; reflexivity. Qed.

(** C17 *)
Theorem C17_type_found : forall s t,
  NoDup (map n_name (concat (s_types s))) -> In t (concat (s_types s)) -> fromType s (n_name t) = Ret t.
Proof. exact fromType_found. Qed.
Print Assumptions C17_type_found.
Theorem C17_type_missing : forall s k,
  (forall t, In t (concat (s_types s)) -> n_name t <> k) -> fromType s k = Exc RuntimeError.
Proof. exact fromType_missing. Qed.
Print Assumptions C17_type_missing.
Theorem C17_descriptor_found : forall s t,
  NoDup (map n_descriptor (concat (s_types s))) -> In t (concat (s_types s)) ->
  fromDescriptor s (n_descriptor t) = Ret t.
Proof. exact fromDescriptor_found. Qed.
Print Assumptions C17_descriptor_found.
Theorem C17_descriptor_missing : forall s k,
  (forall t, In t (concat (s_types s)) -> n_descriptor t <> k) -> fromDescriptor s k = Exc RuntimeError.
Proof. exact fromDescriptor_missing. Qed.
Print Assumptions C17_descriptor_missing.

Example C17_ex : fromType (schema_of [ts_mixed]) "net.E" = Ret (restricted_of "net.E" "list" ["A"; "B"]).
Proof. vm_compute. reflexivity. Qed.
