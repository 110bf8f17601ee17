(** Property theorem C66: everything the schema parser returns is in the
    section, in its place.  Specification: SpecAccept.v. *)
From Coq Require Import Permutation.
From Verif Require Import Base Proton TypeNames Schema SpecSchema Descriptors SpecDescriptors DescriptorsProofs SpecAccept AcceptProofs
  PropDescriptors.
Import List ListNotations.
Open Scope string_scope.

(** C66, for any tree at all, well formed or not. *)
Theorem C66_nothing_made_up : forall fuel l t r u e d',
  dispatchDescribed fuel (Data (At l t r) u) = Ok e d' -> d' = Data (At l t r) u /\ accepted t e.
Proof. exact accepts_only. Qed.
Print Assumptions C66_nothing_made_up.

(** A class with two properties. *)
Example C66_ex : exists x, dispatchDescribed 2 (decoded (class_tree ex_class)) = Ok (EType (TComposite x)) (decoded (class_tree ex_class)) /\
  accepted_class (class_tree ex_class) x /\ length (c_fields x) = 2.
Proof.
  destruct (C20_class_parsed 0 ex_class [] [] [] C20_ex) as (x & H & M). exists x. split; [exact H|].
  apply C66_nothing_made_up in H as [_ H]. split; [exact H|]. destruct H as (body & (_ & _ & Hb) & _ & _ & _ & _ & p & Hp & Hf).
  vm_compute in Hb. injection Hb as <-. vm_compute in Hp. injection Hp as <-.
  cbn [tree_children] in Hf. inversion_clear Hf as [|? ? ? ? _ H1]. inversion_clear H1 as [|? ? ? ? _ H2]. inversion_clear H2. reflexivity.
Qed.

(** The parts need not all be there: the last flag of this property is missing,
    and the one before it is taken for it. *)
Theorem C66_missing_part_refuted : exists f, dispatchDescribed 1 (decoded (described 4
    (list_of [str "x"; str "int"; list_of []; leaf ANull; leaf ANull; leaf (ABool true)]))) =
  Ok (EField f) (decoded (described 4
    (list_of [str "x"; str "int"; list_of []; leaf ANull; leaf ANull; leaf (ABool true)]))) /\ f_multiple f = true.
Proof. eexists. split; [vm_compute; reflexivity|reflexivity]. Qed.
Print Assumptions C66_missing_part_refuted.

(** And there may be more: here a string after the fingerprint and a second
    body after the first. *)
Theorem C66_extra_part_refuted : dispatchDescribed 1 (decoded (Node ADescribed
    [leaf (AULong (vendor 3)); list_of [leaf (ASymbol "f"); str "g"]; list_of [leaf (ASymbol "h")]])) =
  Ok (EDescriptor "f") (decoded (Node ADescribed
    [leaf (AULong (vendor 3)); list_of [leaf (ASymbol "f"); str "g"]; list_of [leaf (ASymbol "h")]])).
Proof. vm_compute. reflexivity. Qed.
Print Assumptions C66_extra_part_refuted.

(** For example: a container of an unknown source is never accepted. *)
Theorem C66_source_known : forall fuel l t r u x d',
  dispatchDescribed fuel (Data (At l t r) u) = Ok (EType (TRestricted x)) d' -> r_source x = "list" \/ r_source x = "map".
Proof.
  intros fuel l t r u x d' H. apply C66_nothing_made_up in H as [_ (body & name & choices & H)]. unfold kind_fits in H. intuition.
Qed.
Print Assumptions C66_source_known.
