(** C104: taking any text apart as a type name. *)
From Verif Require Import Base TypeNames SpecTypes SpecNames SpecParse TypeNamesProofs NamesProofs ParseProofs.
From Coq Require Import ZArith.
Import List ListNotations.
Open Scope string_scope.

Theorem C104_lists : forall s,
  listType s = Ret (unboxed_name (up_to "<" s), unboxed_name (but_last (arguments s))).
Proof. exact list_parts_right. Qed.
Print Assumptions C104_lists.

Theorem C104_maps : forall s, mapType s =
  match at_comma 0 (arguments s) with
  | Some (k, v) => Ret (up_to "<" s, unboxed_name (unindented k), unboxed_name (unindented (but_last v)))
  | None => Exc OutOfRange
  end.
Proof. intros s. rewrite map_parts_right. unfold map_parts. destruct (at_comma 0 (arguments s)) as [[k v]|]; reflexivity. Qed.
Print Assumptions C104_maps.

Theorem C104_arrays : forall s, arrayType s = Ret (up_to "[" s).
Proof. exact array_part_right. Qed.
Print Assumptions C104_arrays.

(** What is taken for a container. *)
Theorem C104_containers : forall s, isContainer s =
  if unclear s then Undef else Ret (array_name s || String.prefix "java.util.List" s || String.prefix "java.util.Map" s).
Proof.
  intros s. change (String.prefix "java.util.List" s) with (list_name s). change (String.prefix "java.util.Map" s) with (map_name s).
  rewrite container_name_is. unfold isContainer. destruct (array_cases s) as [[-> ->]|[-> ->]]; reflexivity.
Qed.
Print Assumptions C104_containers.

(** The types mentioned: exactly one list, or std::out_of_range when there is none. *)
Theorem C104_mentioned : forall s,
  (forall l, nestedGenericTypes s = Ret l <-> names_in s l) /\
  (nestedGenericTypes s = Exc OutOfRange <-> ~ exists l, names_in s l).
Proof.
  intros s. split; [intros l; apply mentions_exactly|]. split.
  - intros H [l M]. apply mentions_exactly in M. congruence.
  - intros H. destruct (nestedGenericTypes_total s) as [[l E]|E]; [|exact E]. exfalso. apply H. exists l. now apply mentions_exactly.
Qed.
Print Assumptions C104_mentioned.

Theorem C104_normalised : forall s s', makePrim s = s' <-> replaced_all in_order s s'.
Proof. exact normalised_right. Qed.
Print Assumptions C104_normalised.

Example C104_ex_map : at_comma 0 "java.util.Map<int,long>,  java.lang.Long>" = Some ("java.util.Map<int,long>", "  java.lang.Long>").
Proof. reflexivity. Qed.
Example C104_ex_parts : map_parts "java.util.Map<java.util.Map<int,long>,  java.lang.Long>" = Some ("java.util.Map", "java.util.Map<int,long>", "long").
Proof. reflexivity. Qed.
Example C104_ex_mentions : names_in "java.util.Map<int, java.util.List<net.corda.Party>>"
  ["java.util.Map<int, java.util.List<net.corda.Party>>"; "int"; "java.util.List<net.corda.Party>"; "net.corda.Party"].
Proof. apply mentions_exactly. vm_compute. reflexivity. Qed.
Example C104_ex_none : ~ exists l, names_in "java.util.List<java.util.Map<int>>" l.
Proof. apply (proj2 (C104_mentioned _)). vm_compute. reflexivity. Qed.
(** A name without brackets loses its last letter, and a list may end in anything. *)
Example C104_ex_odd : listType "java.util.List" = Ret ("java.util.List", "java.util.Lis") /\ listType "java.util.List<int" = Ret ("java.util.List", "in").
Proof. split; reflexivity. Qed.
Example C104_ex_normalised : replaced_all in_order "java.util.Map<java.lang.Integer, my.java-lang_LongList>" "java.util.Map<int, my.longList>".
Proof. apply normalised_right. vm_compute. reflexivity. Qed.
