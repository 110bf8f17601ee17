(** Property theorems C107: what making properties and containers of a schema and putting
    types in order writes to standard output.  Specification: SpecOutputMake.v.  Model:
    OutputMake.v. *)
From Verif Require Import Base OutputWriter SpecOutputWriter PropOutputWriter TypeNames Ordering Schema SpecParse OutputParse OutputMake SpecOutputMake OutputMakeProofs.
Import SpecOutputMake.
Import List ListNotations.
Open Scope string_scope.

(** Writing changes nothing else: properties, containers, scores and the order of types are
    those of Schema.v and Ordering.v. *)
Theorem C107_same_result : forall env moved,
  (forall name type requires default label mandatory multiple,
     snd (Field_make_told env moved name type requires default label mandatory multiple) = Field_make name type requires default label mandatory multiple) /\
  (forall fingerprint name label provides source choices,
     snd (Restricted_make_told env fingerprint name label provides source choices) = Restricted_make fingerprint name label provides source choices) /\
  (forall a b, snd (dependsOn_told env a b) = dependsOn a b) /\
  (forall t groups, snd (insert_told env t groups) = insert notation dependsOn t groups).
Proof. intros env moved. repeat split; intros; [apply field_result|apply container_result|apply score_result|apply insert_result]. Qed.
Print Assumptions C107_same_result.

(** What making a property writes, to the letter, also if it fails: it does not depend on
    the default, the label and the flags. *)
Theorem C107_property : forall env moved name type requires default label mandatory multiple,
  fst (Field_make_told env moved name type requires default label mandatory multiple) = lines env (property_lines moved name type requires).
Proof. intros. apply field_lines. Qed.
Print Assumptions C107_property.

(** What making a container or an enumeration writes: neither its fingerprint nor its label
    nor what it provides nor any constant. *)
Theorem C107_container : forall env fingerprint name label provides source choices,
  fst (Restricted_make_told env fingerprint name label provides source choices) = lines env (container_lines name source choices).
Proof. intros. apply container_line. Qed.
Print Assumptions C107_container.

(** What comparing two types writes, unless its behaviour is undefined. *)
Theorem C107_comparison : forall env a b n, dependsOn a b = Ret n ->
  fst (dependsOn_told env a b) = lines env (comparison_lines a b).
Proof. intros env a b n. apply score_lines. Qed.
Print Assumptions C107_comparison.

(** What putting a type in its place writes, to the letter: its name and the names of the
    types there up to the first it must precede, each followed by the comparison; then the
    comparisons with the members of the group it joins, and all this for each that depends
    on it and is moved. *)
Theorem C107_insertion : forall env t groups groups', insert notation dependsOn t groups = Ret groups' ->
  fst (insert_told env t groups) = lines env (insertion_lines (List.length (List.concat groups)) t groups).
Proof. intros env t groups groups'. apply insert_lines. Qed.
Print Assumptions C107_insertion.

(** Neither can be undefined if all properties have a known type. *)
Theorem C107_defined : forall t groups, typed t = true -> forallb typed (List.concat groups) = true ->
  (exists groups', insert notation dependsOn t groups = Ret groups') /\ forall a, In a (List.concat groups) -> exists n, dependsOn a t = Ret n.
Proof.
  intros t groups Ht Hg. split; [now apply typed_inserted|]. intros a Ha. exists (score a t). apply typed_score; [|exact Ht]. now apply (proj1 (forallb_forall typed _) Hg).
Qed.
Print Assumptions C107_defined.

(** Of types that are put in order no labels, fingerprints, provided types, sources and
    constants show, nor the names, defaults, labels and flags of their properties: without
    these the text is the same, and so is the order. *)
Theorem C107_hidden : forall env t t' groups groups',
  bare t = bare t' -> map (map bare) groups = map (map bare) groups' ->
  fst (insert_told env t groups) = fst (insert_told env t' groups') /\
  forall r r', insert notation dependsOn t groups = Ret r -> insert notation dependsOn t' groups' = Ret r' -> map (map bare) r = map (map bare) r'.
Proof.
  intros env t t' groups groups' Ht Hg. pose proof (bare_insert env t groups) as E. pose proof (bare_insert env t' groups') as E'. rewrite Ht, Hg, E' in E. split.
  - apply (f_equal fst) in E. now symmetry.
  - intros r r' Hr Hr'. apply (f_equal snd) in E. unfold told_map in E. cbn [snd] in E. rewrite !insert_result, Hr, Hr' in E. now injection E as ->.
Qed.
Print Assumptions C107_hidden.

(** ** Cases that meet the hypotheses *)
Section Examples.
Let env : platform := here.
Example C107_ex_property :
  fst (Field_make_told env (fun _ => "") "xs" "*" ["java.util.List<net.A>"] "" "" true false) =
    "[Field.cxx::141] typeIsPrimitive - *" ++ newline ++ "[Field.cxx::68] -> restricted xs" ++ newline ++ "[Field.cxx::82] xs is a container" ++ newline ++
    "[Field.cxx::133] FIELD::FIELD - name: xs, type: " ++ newline ++ "[RestrictedField.cxx::32] RestrictedField - xs::*" ++ newline.
Proof. rewrite C107_property. vm_compute. reflexivity. Qed.
Example C107_ex_container :
  fst (Restricted_make_told env "net.corda:1" "net.A[]" "" [] "list" []) =
    "[Restricted.cxx::102] RESTRICTED::MAKE - net.A[]" ++ newline ++ "[Array.cxx::66] ARRAY OF::net.A, name::net.A[]" ++ newline.
Proof. rewrite C107_container. vm_compute. reflexivity. Qed.
Let x : field := {| f_kind := CompositeField; f_name := "x"; f_type := "net.A"; f_requires := []; f_default := ""; f_label := ""; f_mandatory := true; f_multiple := false; f_subTypes := [] |}.
Let A : notation := TComposite {| c_name := "net.A"; c_label := ""; c_provides := []; c_descriptor := "net.corda:1"; c_fields := [] |}.
Let B : notation := TComposite {| c_name := "net.B"; c_label := ""; c_provides := []; c_descriptor := "net.corda:2"; c_fields := [x] |}.
Let B' : notation := TComposite {| c_name := "net.B"; c_label := "secret"; c_provides := ["net.I"]; c_descriptor := "net.corda:3"; c_fields := [x] |}.
Example C107_ex_insert :
  typed A = true /\ typed B = true /\
  fst (insert_told env B [[A]]) =
    "[OrderedTypeNotations.h::154] Insert: net.B" ++ newline ++ "[OrderedTypeNotations.h::162] net.A" ++ newline ++
    "[Composite.cxx::126] net.B ?Depends on net.A" ++ newline ++ "[Composite.cxx::130] " ++ BLUE ++ "FIELD - net.B" ++ RESET ++ "::0" ++ newline ++
    "[Composite.cxx::146]   C/C a) net.A == net.A" ++ newline /\
  fst (insert_told env A [[B]]) = lines env (search_lines A [[B]]) ++ lines env (comparison_lines A B) ++ lines env (search_lines B []).
Proof. vm_compute. auto. Qed.
Example C107_ex_hidden : bare B = bare B' /\ B <> B' /\ fst (insert_told env B [[A]]) = fst (insert_told env B' [[A]]).
Proof. split; [reflexivity|]. split; [discriminate|]. now apply C107_hidden. Qed.
End Examples.
