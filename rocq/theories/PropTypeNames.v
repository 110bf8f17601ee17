(** Property theorems C04 - C09: type names.  Specification: SpecTypes.v. *)
From Verif Require Import Base TypeNames SpecTypes TypeNamesProofs MakePrimProofs MakePrimExactProofs.
Open Scope string_scope.

(** C04.  [c] is the container name, [t] any element type name. *)
Theorem C04_list_type_name : forall c t, ~ has "<" c ->
  listType (c ++ "<" ++ t ++ ">") = Ret (unboxed_name c, unboxed_name t).
Proof. exact listType_spec. Qed.
Print Assumptions C04_list_type_name.

Example C04_ex : listType "java.util.List<java.util.List<java.lang.Integer>>"
                 = Ret ("java.util.List", "java.util.List<java.lang.Integer>").
Proof. reflexivity. Qed.
Example C04_ex2 : ~ has "<" "java.util.List".
Proof. unfold has; simpl; intuition discriminate. Qed.

(** C05.  Key and value may be any bracketed texts; [g] are the blanks after the
    comma. *)
Theorem C05_map_type_name : forall c k g v,
  ~ has "<" c -> bracketed false k -> ~ begins_with " " k -> blanks g -> ~ begins_with " " v ->
  mapType (c ++ "<" ++ k ++ "," ++ g ++ v ++ ">") = Ret (c, unboxed_name k, unboxed_name v).
Proof. exact mapType_spec. Qed.
Print Assumptions C05_map_type_name.

(** Every printed type expression over plain names meets the hypotheses. *)
Theorem C05_keys_are_bracketed : forall g t, blanks g -> Forall plain (names t) ->
  bracketed false (print g t) /\ ~ begins_with " " (print g t).
Proof. intros g t Hg Ht. split; [exact (print_bracketed g t false Hg Ht)|exact (print_no_blank g t Ht)]. Qed.
Print Assumptions C05_keys_are_bracketed.

Example C05_ex :
  mapType "java.util.Map<java.util.Map<int, string>, java.util.List<java.lang.Long>>"
  = Ret ("java.util.Map", "java.util.Map<int, string>", "java.util.List<java.lang.Long>").
Proof. reflexivity. Qed.

(** C06 *)
Theorem C06_components : forall g t, blanks g -> Forall plain (names t) ->
  nestedGenericTypes (print g t)
  = Ret (print g t :: map (fun c => print g (unbox_if_name c)) (tl (components t))).
Proof. exact nestedGenericTypes_spec. Qed.
Print Assumptions C06_components.

Theorem C06_terminates : forall s,
  (exists l, nestedGenericTypes s = Ret l) \/ nestedGenericTypes s = Exc OutOfRange.
Proof. exact nestedGenericTypes_total. Qed.
Print Assumptions C06_terminates.

Example C06_ex : nestedGenericTypes "java.util.Map<int, java.util.List<net.corda.Party>>"
  = Ret ["java.util.Map<int, java.util.List<net.corda.Party>>"; "int";
         "java.util.List<net.corda.Party>"; "net.corda.Party"].
Proof. reflexivity. Qed.
Example C06_ex_malformed : nestedGenericTypes "java.util.Map<int" = Exc OutOfRange.
Proof. reflexivity. Qed.

(** C07.  Missing for the full property: class names in which something that
    looks like a boxed name occurs, see the refutation below. *)
Theorem C07_normalise_partial : forall g t, blanks g ->
  Forall (fun n => boxed n \/ unrelated n) (names t) ->
  makePrim (print g t) = print g (map_names unboxed_name t).
Proof. exact makePrim_spec. Qed.
Print Assumptions C07_normalise_partial.

(** On every string whatsoever: *)
Theorem C07_normalise_idempotent : forall s, makePrim (makePrim s) = makePrim s.
Proof. exact makePrim_idempotent. Qed.
Print Assumptions C07_normalise_idempotent.

Theorem C07_no_boxed_left : forall s b l r, boxed b -> makePrim s <> l ++ b ++ r.
Proof. exact makePrim_no_boxed. Qed.
Print Assumptions C07_no_boxed_left.

Theorem C07_normalise_refuted : exists g t, blanks g /\ Forall plain (names t) /\
  makePrim (print g t) <> print g (map_names unboxed_name t).
Proof. exact makePrim_bad. Qed.
Print Assumptions C07_normalise_refuted.

(** Exactly: a text without line breaks is left alone if and only if no part of it
    resembles a boxed name, so that a name is treated as it should be if and only if
    it is a boxed name or no part of it resembles one. *)
Theorem C07_exactly : forall n, ~ has "010" n -> ~ has "013" n ->
  (makePrim n = n <-> forall b l m r, boxed b -> n = l ++ m ++ r -> ~ looks_like b m) /\
  (makePrim n = unboxed_name n <-> boxed n \/ forall b l m r, boxed b -> n = l ++ m ++ r -> ~ looks_like b m).
Proof.
  intros n H1 H2. assert (H : forall c, has c n -> c <> "010"%char /\ c <> "013"%char) by (intros c Hc; split; intros ->; contradiction).
  split; [now apply untouched|now apply normalised_exactly].
Qed.
Print Assumptions C07_exactly.
(** A dot of a boxed name stands for any character. *)
Example C07_ex_exactly : boxed "java.lang.Byte" /\ looks_like "java.lang.Byte" "java-lang_Byte" /\ makePrim "my.java-lang_ByteBuffer" = "my.charBuffer" /\
  makePrim "java.lang.Byte" = "char" /\ unboxed_name "java.lang.Byte" = "char".
Proof. repeat split; try (vm_compute; reflexivity); cbn; tauto. Qed.

Example C07_ex : makePrim "java.util.Map<java.lang.Integer, java.util.List<net.corda.Party>>"
               = "java.util.Map<int, java.util.List<net.corda.Party>>".
Proof. vm_compute. reflexivity. Qed.
Example C07_ex_unrelated : unrelated "net.corda.Party".
Proof. exact unrelated_party. Qed.

(** C08 *)
Theorem C08_array_recognised : forall s,
  (isArray s = Undef /\ (s = "" \/ s = "]" \/ s = "p]")) \/
  (isArray s = Ret true /\ (finishes_with "[]" s \/ finishes_with "[p]" s)) \/
  (isArray s = Ret false /\ ~ finishes_with "[]" s /\ ~ finishes_with "[p]" s /\
   s <> "" /\ s <> "]" /\ s <> "p]").
Proof. exact isArray_spec. Qed.
Print Assumptions C08_array_recognised.

Theorem C08_element_partial : forall e, ~ has "[" e ->
  arrayType (e ++ "[]") = Ret e /\ arrayType (e ++ "[p]") = Ret e.
Proof. exact arrayType_spec. Qed.
Print Assumptions C08_element_partial.

(** The recogniser reads out of range on short names; the element type of a
    nested array is wrong. *)
Theorem C08_safe_refuted : exists s, isArray s = Undef.
Proof. exists "". reflexivity. Qed.
Print Assumptions C08_safe_refuted.

Theorem C08_element_refuted : exists e, isArray e = Ret true /\ arrayType (e ++ "[]") <> Ret e.
Proof. exists "int[]". split; [reflexivity|discriminate]. Qed.
Print Assumptions C08_element_refuted.

(** Exactly: the element type is taken to be what is before the first bracket, so it
    is right if and only if there is no bracket in it. *)
Theorem C08_element_exactly : forall e,
  (forall l r, ~ has "[" l -> arrayType (l ++ "[" ++ r) = Ret l) /\
  (~ has "[" e -> arrayType e = Ret e) /\
  (arrayType (e ++ "[]") = Ret e <-> ~ has "[" e) /\ (arrayType (e ++ "[p]") = Ret e <-> ~ has "[" e).
Proof. exact arrayType_exactly. Qed.
Print Assumptions C08_element_exactly.

Example C08_ex : ~ has "[" "java.util.List<double>".
Proof. unfold has; simpl; intuition discriminate. Qed.

(** C09 *)
Theorem C09_java_names : forall t, identifiers t ->
  javaTypeName (demangled t) = print "" (java_type t).
Proof. exact javaTypeName_spec. Qed.
Print Assumptions C09_java_names.

Theorem C09_parse_back : forall t, identifiers t -> Forall plain (names (java_type t)) ->
  nestedGenericTypes (javaTypeName (demangled t))
  = Ret (print "" (java_type t)
         :: map (fun c => print "" (unbox_if_name c)) (tl (components (java_type t)))).
Proof. exact javaTypeName_parse. Qed.
Print Assumptions C09_parse_back.

Example C09_ex :
  javaTypeName (demangled (XMap (XClass [] "int") (XVector (XClass [None; Some "a"] "B"))))
  = "java.util.Map<int,java.util.List<a.B>>".
Proof. reflexivity. Qed.
Example C09_ex_ids : identifiers (XVector (XClass [None; Some "a"] "B")).
Proof.
  simpl. repeat constructor; unfold has; simpl; intuition discriminate.
Qed.
