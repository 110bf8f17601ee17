(** Property theorems C83: when processing a schema succeeds, throws or is
    undefined.  Specification: SpecSupply.v, SpecFactory.v.  [kf] is the
    unspecified order of evaluation of two function arguments (Factory.v). *)
From Verif Require Import SpecTypes Base TypeNames Ordering SpecOrdering Schema SpecSchema SchemaProofs Factory SpecFactory FactoryProofs SpecSupply SupplyProofs.
Import List ListNotations.
Open Scope string_scope.

(** C83.  Whatever the factory was asked to do before, it can process a schema
    exactly if each type it describes comes after those it names (or these are
    known already), and none is one that a failed schema lacked. *)
Theorem C83_processed : forall kf f s, reachable kf f ->
  Forall proper (List.concat (s_types s)) -> Forall resolvable (List.concat (s_types s)) ->
  (exists f', process kf s f = Ok tt f') <->
  supplied f (List.concat (s_types s)) /\ unspoiled f (List.concat (s_types s)).
Proof. exact process_ok. Qed.
Print Assumptions C83_processed.

(** It throws exactly if, in order, a type that lacks another comes before any
    that a failed schema lacked; *)
Theorem C83_thrown : forall kf f s, reachable kf f ->
  Forall proper (List.concat (s_types s)) -> Forall resolvable (List.concat (s_types s)) ->
  (exists e f', process kf s f = Throw e f') <->
  exists before t behind k, List.concat (s_types s) = (before ++ t :: behind)%list /\
    lacks kf f before t k /\ unspoiled f (before ++ [t])%list.
Proof. exact process_throws. Qed.
Print Assumptions C83_thrown.

(** and otherwise it is undefined. *)
Theorem C83_undefined : forall kf f s, reachable kf f ->
  Forall proper (List.concat (s_types s)) -> Forall resolvable (List.concat (s_types s)) ->
  process kf s f = UB <->
  exists before t behind, List.concat (s_types s) = (before ++ t :: behind)%list /\
    supplied f before /\ unspoiled f before /\ spoiled f (n_name t).
Proof. exact process_ub. Qed.
Print Assumptions C83_undefined.

(** What a failed schema leaves behind: the types described before the one at
    fault have readers, and the one type it lacked first is spoiled (unless it is
    a primitive one). *)
Theorem C83_left_behind : forall kf f s, reachable kf f ->
  Forall proper (List.concat (s_types s)) -> Forall resolvable (List.concat (s_types s)) ->
  forall e f', process kf s f = Throw e f' -> e = RuntimeError /\ exists before t behind k,
    List.concat (s_types s) = (before ++ t :: behind)%list /\ lacks kf f before t k /\ unspoiled f (before ++ [t])%list /\
    (forall q, SpecTypes.primitive_name q = false -> (byType f' q <> None <-> byType f q <> None \/ exists u, In u before /\ n_name u = q)) /\
    (forall q, spoiled f' q <-> spoiled f q \/ q = k /\ SpecTypes.primitive_name k = false).
Proof. exact process_left. Qed.
Print Assumptions C83_left_behind.

(** The spoiled types are those that some failed schema lacked first, for as long
    as no serialiser is installed for them. *)
Theorem C83_spoiled : forall kf h f, run kf h new_factory f -> (forall t, In t (entries_of h) -> resolvable t) ->
  forall k, spoiled f k <->
  exists h1 s h2 f1 f2 before t behind, h = (h1 ++ Process s :: h2)%list /\
    run kf h1 new_factory f1 /\ process kf s f1 = Throw RuntimeError f2 /\
    List.concat (s_types s) = (before ++ t :: behind)%list /\ lacks kf f1 before t k /\ unspoiled f1 (before ++ [t])%list /\
    SpecTypes.primitive_name k = false /\ forall r, In (Install r) h2 -> reader_type r <> k.
Proof. exact spoiled_exactly. Qed.
Print Assumptions C83_spoiled.

(** A schema that is supplied in one order and not in the other; what the wrong
    order lacks; and the factory after it. *)
Example C83_ex_order : Forall proper (b_alone ++ a_with_b)%list /\ Forall resolvable (b_alone ++ a_with_b)%list /\
  supplied new_factory (b_alone ++ a_with_b)%list /\ unspoiled new_factory (b_alone ++ a_with_b)%list /\
  ~ supplied new_factory (a_with_b ++ b_alone)%list.
Proof.
  split; [apply Forall_app; split; [apply b_alone_proper|apply a_with_b_proper]|].
  split; [apply Forall_app; split; constructor; try constructor; cbn; intros fd [<- |[]]; discriminate|].
  split; [|split].
  - intros before t behind E. destruct before as [|u before]; cbn in E; injection E as E1 E; subst.
    + right. intros k (fd & [<- |[]] & H). injection H as <-. right. left. now exists PInt.
    + destruct before as [|v before]; cbn in E; injection E as E1 E; [subst|destruct before; discriminate].
      right. intros k (fd & [<- |[]] & H). injection H as <-. right. right. right. eexists. split; [now left|reflexivity].
  - intros t _ H. apply H. apply new_unpoisoned.
  - intros H. destruct (H [] (class_of "net.A" [field_of "b" "net.B" []]) b_alone eq_refl) as [[(p & E)|[E|(u & [] & _)]]|N].
    + destruct p; discriminate.
    + now apply E.
    + destruct (N "net.B") as [[_ E]|[(p & E)|[E|(u & [] & _)]]]; [eexists; split; [now left|reflexivity]|discriminate|destruct p; discriminate|now apply E].
Qed.
Example C83_ex_spoiled : exists f, run true [Process (schema_of [a_with_b])] new_factory f /\
  (forall t, In t (entries_of [Process (schema_of [a_with_b])]) -> resolvable t) /\ spoiled f "net.B" /\ ~ spoiled f "net.A" /\
  process true (schema_of [b_alone]) f = UB /\
  exists f', run true [Install (RCustom "net.B" 0)] f f' /\ ~ spoiled f' "net.B".
Proof.
  eexists. split; [eapply run_cons; [exact a_with_b_proper|right; eexists; vm_compute; reflexivity|apply run_nil]|].
  split; [intros t [<- |[]]; cbn; intros fd [<- |[]]; discriminate|].
  split; [intros H; now apply H|]. split; [intros H; apply H; discriminate|]. split; [vm_compute; reflexivity|].
  eexists. split; [eapply run_cons; [split; [exact I|reflexivity]|left; reflexivity|apply run_nil]|]. intros H. apply H. discriminate.
Qed.
(** A map whose key and value types are both missing: which one is spoiled is up
    to the compiler. *)
Definition lone_map : notation :=
  TRestricted {| r_kind := map_t; r_name := "java.util.Map<net.K, net.V>"; r_label := ""; r_provides := []; r_descriptor := "f:m"; r_source := "map";
                 r_of := ["net.K"; "net.V"]; r_choices := [] |}.
Example C83_ex_map : forall kf, lacks kf new_factory [] lone_map (if kf then "net.K" else "net.V").
Proof.
  intros kf. split; [apply supplied_nil|].
  assert (N : forall k, In k ["java.util.Map<net.K, net.V>"; "net.K"; "net.V"] -> ~ available new_factory [] k).
  { intros k Hk [(p & E)|[E|(u & [] & _)]]; [|now apply E]. destruct Hk as [<- |[<- |[<- |[]]]]; destruct p; discriminate. }
  split; [apply N; now left|]. exists [], [if kf then "net.V" else "net.K"]. split; [destruct kf; reflexivity|].
  split; [intros q []|]. split; [intros [H _]; now apply H|]. apply N. destruct kf; cbn; auto.
Qed.
