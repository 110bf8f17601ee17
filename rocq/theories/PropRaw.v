(** C72: what the raw dump shows of any payload. *)
From Coq Require Import Lia.
From Verif Require Import Base Proton Descriptors SpecDescriptors Factory Readers SpecReaders ProtonProofs Blob SpecAccept SpecDisplay SpecRaw RawShowProofs.
Import List ListNotations.
Open Scope string_scope.

Theorem C72_raw_exactly : forall double float fuel t x, height t <= fuel ->
  ((exists d, dumpData double float fuel (decoded t) = Ok x d) <->
   exists p, in_envelope t p /\ raw_shows double float dec a_described p x).
Proof.
  intros fd ff fuel t x H. pose proof (dumpData_cases fd ff fuel t H) as C.
  destruct (dumpData fd ff fuel (decoded t)) as [y d|e d| | |].
  - destruct C as [_ C]. rewrite C. split; [intros (d' & [= -> _]); reflexivity|intros ->; eauto].
  - destruct C as (_ & _ & C). split; [intros (d' & ?); discriminate|]. intros (p & H1 & H2). destruct (C p x H1 H2).
  - destruct C as (_ & C). split; [intros (d' & ?); discriminate|]. intros (p & (_ & K & _) & _). destruct (C K).
  - split; [intros (d' & ?); discriminate|]. intros (p & (K & _) & _). destruct (C K).
  - destruct C.
Qed.
Print Assumptions C72_raw_exactly.

Theorem C72_undefined_exactly : forall double float fuel t, height t <= fuel ->
  (dumpData double float fuel (decoded t) = UB <-> tree_atom t <> ADescribed).
Proof.
  intros fd ff fuel t H. pose proof (dumpData_cases fd ff fuel t H) as C.
  destruct (dumpData fd ff fuel (decoded t)) as [y d|e d| | |]; split; intros K; try discriminate; try reflexivity; try contradiction.
  - destruct C as [_ C]. destruct (proj2 (C y) eq_refl) as (p & (D & _) & _). contradiction.
  - destruct C. contradiction.
  - destruct C. contradiction.
  - exact C.
Qed.
Print Assumptions C72_undefined_exactly.

Theorem C72_aborts_exactly : forall double float fuel t, height t <= fuel ->
  (dumpData double float fuel (decoded t) = Abort <-> tree_atom t = ADescribed /\ ~ keyed t).
Proof.
  intros fd ff fuel t H. pose proof (dumpData_cases fd ff fuel t H) as C.
  destruct (dumpData fd ff fuel (decoded t)) as [y d|e d| | |]; split; intros K; try discriminate; try reflexivity; try contradiction.
  - destruct C as [_ C]. destruct (proj2 (C y) eq_refl) as (p & (_ & D & _) & _). destruct K. contradiction.
  - destruct C as (_ & D & _). destruct K. contradiction.
  - exact C.
  - destruct K. contradiction.
Qed.
Print Assumptions C72_aborts_exactly.

Theorem C72_otherwise_throws : forall double float fuel t, height t <= fuel -> tree_atom t = ADescribed -> keyed t ->
  (forall p x, in_envelope t p -> ~ raw_shows double float dec a_described p x) ->
  exists e d, dumpData double float fuel (decoded t) = Throw e d.
Proof.
  intros fd ff fuel t H Ht Hk Hn. pose proof (dumpData_cases fd ff fuel t H) as C.
  destruct (dumpData fd ff fuel (decoded t)) as [y d|e d| | |]; try contradiction; eauto.
  - destruct C as [_ C]. destruct (proj2 (C y) eq_refl) as (p & H1 & H2). destruct (Hn _ _ H1 H2).
  - destruct C. contradiction.
Qed.
Print Assumptions C72_otherwise_throws.

(** The dump ends where it began. *)
Theorem C72_position_kept : forall double float fuel t x d, height t <= fuel ->
  dumpData double float fuel (decoded t) = Ok x d -> d = decoded t.
Proof. intros fd ff fuel t x d H E. pose proof (dumpData_cases fd ff fuel t H) as C. rewrite E in C. apply C. Qed.
Print Assumptions C72_position_kept.

(** A list that holds a number, an empty list and a map from one list to another:
    the value is shown twice, the key not at all. *)
Definition map_inside : tree :=
  Node AMap [Node AList []; Node AList [Node (AString "x") []; Node (ABool true) []]].
Definition payload_inside : tree := Node ADescribed [Node (ASymbol "fp") []; Node AList [Node (AInt 7) []; Node AList []; map_inside]].
Definition around (k : N) (p : tree) : tree := Node ADescribed [Node (AULong k) []; Node AList [p]].
Example C72_ex : forall double float,
  height (around (vendor 1) payload_inside) <= 7 /\ in_envelope (around (vendor 1) payload_inside) payload_inside /\
  raw_shows double float dec a_described payload_inside "fp : [ 7, [ <<<Empty List>>> ], [ [ x, true ] : [ x, true ] ] ]" /\
  dumpData double float 7 (decoded (around (vendor 1) payload_inside)) =
    Ok "fp : [ 7, [ <<<Empty List>>> ], [ [ x, true ] : [ x, true ] ] ]" (decoded (around (vendor 1) payload_inside)).
Proof.
  intros double float. split; [vm_compute; lia|]. split; [|split; [|reflexivity]].
  - split; [reflexivity|]. split; [exists (Node (AULong (vendor 1)) []); split; [reflexivity|exists (vendor 1); split; reflexivity]|].
    exists (Node AList [payload_inside]). repeat split.
  - apply (raw_described double float dec payload_inside "fp" (Node AList [Node (AInt 7) []; Node AList []; map_inside]) "[ 7, [ <<<Empty List>>> ], [ [ x, true ] : [ x, true ] ] ]").
    + exists (Node (ASymbol "fp") []). split; [reflexivity|now right].
    + reflexivity.
    + now left.
    + apply (raw_list double float dec _ ["7"; "[ <<<Empty List>>> ]"; "[ [ x, true ] : [ x, true ] ]"]); [reflexivity|].
      constructor; [exact (raw_single double float dec (Node (AInt 7) []))|].
      constructor; [apply (raw_list double float dec (Node AList []) []); [reflexivity|constructor]|].
      constructor; [|constructor].
      apply (raw_map double float dec map_inside [("[ x, true ]", "[ x, true ]")]); [reflexivity|].
      constructor; [|constructor]. do 3 eexists. do 3 (split; [reflexivity|]).
      assert (X : raw_shows double float dec a_list (Node AList [Node (AString "x") []; Node (ABool true) []]) "[ x, true ]").
      { apply (raw_list double float dec (Node AList [Node (AString "x") []; Node (ABool true) []]) ["x"; "true"]); [reflexivity|].
        constructor; [exact (raw_single double float dec (Node (AString "x") []))|].
        constructor; [exact (raw_single double float dec (Node (ABool true) []))|constructor]. }
      split; exact X.
Qed.

(** Undefined, aborting and throwing. *)
Example C72_ex_others : forall double float,
  dumpData double float 7 (decoded (Node AList [])) = UB /\
  dumpData double float 7 (decoded (around (vendor 2) payload_inside)) = Abort /\
  keyed (around (vendor 1) (Node ADescribed [Node (ASymbol "fp") []; Node (AInt 1) []])) /\
  (forall p x, in_envelope (around (vendor 1) (Node ADescribed [Node (ASymbol "fp") []; Node (AInt 1) []])) p -> ~ raw_shows double float dec a_described p x).
Proof.
  intros double float. split; [reflexivity|]. split; [reflexivity|]. split.
  - exists (Node (AULong (vendor 1)) []); split; [reflexivity|exists (vendor 1); split; reflexivity].
  - intros p x (_ & _ & b & Eb & _ & Ep & _) H. injection Eb as <-. injection Ep as <-. inversion H as [| | |? ? body ? ? Pb Hk]; subst. injection Pb as <-. destruct Hk; discriminate.
Qed.
