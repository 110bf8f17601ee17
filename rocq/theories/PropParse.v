(** Property theorems C92: what parsing a schema section does, for every tree.
    Specification: SpecParse.v. *)
From Coq Require Import Lia.
From Verif Require Import Base Proton ProtonProofs TypeNames Schema Descriptors SpecDescriptors DescriptorsProofs SpecAccept SpecReadScript SpecParse ParseProofs
  PropDescriptors.
Import List ListNotations.
Open Scope string_scope.

(** C92: the element, the exception or the undefined behaviour is a function of the
    tree alone, wherever in a blob it is, and the cursor is left on it. *)
Theorem C92_exactly : forall fuel l t r u, height t < fuel ->
  dispatchDescribed fuel (Data (At l t r) u) =
    match parsed t with
    | Got e => Ok e (Data (At l t r) u)
    | Thrown x => Throw x (Data (At l t r) u)
    | Undefined => UB
    end.
Proof. exact parsed_exactly. Qed.
Print Assumptions C92_exactly.

(** Only two exceptions are thrown. *)
Theorem C92_exceptions : forall fuel l t r u x d, height t < fuel ->
  dispatchDescribed fuel (Data (At l t r) u) = Throw x d -> x = RuntimeError \/ x = OutOfRange.
Proof.
  intros fuel l t r u x d H E. rewrite C92_exactly in E by exact H. apply (parse_tame (S (height t)) t). unfold parsed in E.
  destruct (parse (S (height t)) t); congruence.
Qed.
Print Assumptions C92_exceptions.

(** Where every element is of a known kind, in its place, and names are clear,
    parsing returns or throws, whatever else is wrong. *)
Theorem C92_safe : forall fuel l t r u, height t < fuel -> everywhere placed t = true ->
  (exists e, dispatchDescribed fuel (Data (At l t r) u) = Ok e (Data (At l t r) u)) \/
  (exists x, dispatchDescribed fuel (Data (At l t r) u) = Throw x (Data (At l t r) u)).
Proof.
  intros fuel l t r u H S. rewrite C92_exactly by exact H. pose proof (parse_safe (Datatypes.S (height t)) t ltac:(lia) S) as K. unfold parsed.
  destruct (parse (Datatypes.S (height t)) t); [eauto|eauto|destruct K].
Qed.
Print Assumptions C92_safe.

(** What is returned is of the kind the code says. *)
Theorem C92_kind : forall fuel l t r u e d, height t < fuel -> everywhere placed t = true ->
  dispatchDescribed fuel (Data (At l t r) u) = Ok e d -> exists v, described_by t = Some v /\
  match e with
  | EEnvelope _ => v = vendor 1 | ESchema _ => v = vendor 2 | EDescriptor _ => v = vendor 3 | EField _ => v = vendor 4
  | EType _ => v = vendor 5 \/ v = vendor 6 | EChoice _ => v = vendor 7 | ENull => exists n, In n [8; 9; 10; 11]%N /\ v = vendor n
  end.
Proof.
  intros fuel l t r u e d H S E. rewrite C92_exactly in E by exact H. pose proof (parse_safe (Datatypes.S (height t)) t ltac:(lia) S) as K. unfold parsed in E.
  destruct (parse (Datatypes.S (height t)) t) as [e'|x|]; try discriminate. injection E as <- _. destruct K as [K _]. exact K.
Qed.
Print Assumptions C92_kind.

(** An envelope with a class, a list and an enum: it is safe, and so it is if the name
    of the class is a number, which throws. *)
Definition ex_envelope (name : tree) : tree :=
  described 1 (list_of [Node ADescribed [leaf (ASymbol "fp"); list_of []];
    described 2 (list_of [list_of
      [ described 5 (list_of [name; leaf ANull; list_of []; fingerprint_tree "fp" []; list_of [field_tree ex_field; field_tree ex_field]]);
        container_tree {| wr_name := "java.util.List<net.corda.Party>"; wr_label := None; wr_provides := []; wr_source := "list"; wr_fingerprint := "f"; wr_choices := [] |};
        container_tree {| wr_name := "net.E"; wr_label := None; wr_provides := []; wr_source := "list"; wr_fingerprint := "g"; wr_choices := ["A"; "B"] |} ]])]).
Example C92_ex : everywhere placed (ex_envelope (str "net.corda.Party")) = true /\ everywhere placed (ex_envelope (leaf (AInt 1))) = true /\
  (exists e, parsed (ex_envelope (str "net.corda.Party")) = Got (EEnvelope e) /\ length (List.concat (s_types (e_schema e))) = 3) /\
  parsed (ex_envelope (leaf (AInt 1))) = Thrown RuntimeError.
Proof.
  split; [vm_compute; reflexivity|]. split; [vm_compute; reflexivity|]. split; [|vm_compute; reflexivity].
  eexists. split; [vm_compute; reflexivity|reflexivity].
Qed.

(** The name of a map without a comma is out of range, and that is thrown. *)
Example C92_ex_range : parsed (container_tree {| wr_name := "java.util.Map<int>"; wr_label := None; wr_provides := []; wr_source := "map";
  wr_fingerprint := "f"; wr_choices := [] |}) = Thrown OutOfRange.
Proof. vm_compute. reflexivity. Qed.

(** Breaking any one of the conditions can make the behaviour undefined: *)
Definition a_class (fingerprint : tree) (fields : list tree) : tree :=
  described 5 (list_of [str "net.A"; leaf ANull; list_of []; fingerprint; list_of fields]).
Definition a_field (type : string) (requires : list tree) : tree :=
  described 4 (list_of [str "x"; str type; list_of requires; leaf ANull; leaf ANull; leaf (ABool true); leaf (ABool false)]).
Definition ex_fp : tree := fingerprint_tree "f" [].
Definition a_schema_of (ts : list tree) : tree := described 2 (list_of [list_of ts]).
Theorem C92_conditions_needed : Forall (fun t => everywhere placed t = false /\ forall fuel l r u, height t < fuel -> dispatchDescribed fuel (Data (At l t r) u) = UB)
  [ (* a code that is not known *) described 12 (list_of []);
    (* a property in place of a fingerprint *) a_class (a_field "int" []) [];
    (* a fingerprint in place of a property *) a_class ex_fp [ex_fp];
    (* a property in place of a type *) a_schema_of [a_field "int" []];
    (* a class in place of a schema *) described 1 (list_of [Node ADescribed [leaf (ASymbol "f"); list_of []]; a_class ex_fp []]);
    (* a property in place of an enum's constant *)
    described 6 (list_of [str "net.E"; leaf ANull; list_of []; str "list"; ex_fp; list_of [a_field "int" []]]);
    (* types and names that are not clear *) a_field "" []; a_field "]" []; a_field "*" [str "p]"];
    described 6 (list_of [str ""; leaf ANull; list_of []; str "list"; ex_fp; list_of []]);
    (* a property of any type that requires none, in the second of two classes *) a_schema_of [a_class ex_fp []; a_class ex_fp [a_field "*" []]] ].
Proof.
  repeat constructor; try (vm_compute; reflexivity).
  all: intros fuel l r u H; rewrite C92_exactly by exact H; vm_compute; reflexivity.
Qed.
Print Assumptions C92_conditions_needed.
