(** Property theorems C74: reading and writing single values through the
    serialisers of a factory (f.byType (type)->read and so on).
    Specification: SpecSerialisers.v.  [fmt] is the C++ library's text for a
    double; [cr], [cs] and [cw] are what serialisers installed by the user do;
    [kf] is the unspecified order of evaluation (Factory.v). *)
From Verif Require Import Base Proton Schema SpecSchema SpecOrdering SchemaProofs Descriptors SpecAccept SpecDescriptors SpecDisplay Factory SpecFactory FactoryProofs
  Writer Readers Serialisers SpecSerialisers SerialisersProofs.
Import List ListNotations.
Open Scope string_scope.

(** C74 for int, long, double, boolean and string.  The full statement is for
    every type the factory has a serialiser for. *)
Theorem C74_primitives_partial : forall fmt cr cs float kf h f v d t, run kf h new_factory f ->
  In (type_of v) [CInt; CLong; CDouble; CBool; CString] ->
  ours h (m_type (type_of v)) -> byType f (m_type (type_of v)) <> None ->
  view d = Some t -> stored v t ->
  through f (m_type (type_of v)) (reader_read cr) d = Ok (any_of v) (pn_next d) /\
  through f (m_type (type_of v)) (reader_readString fmt cs) d = Ok (text_of fmt float v) (pn_next d).
Proof. exact primitives_read. Qed.
Print Assumptions C74_primitives_partial.

(** C74: where a string is expected and there is neither a string nor a symbol,
    an exception is thrown. *)
Theorem C74_strings_checked_partial : forall fmt cr cs kf h f d, run kf h new_factory f -> ours h "string" -> byType f "string" <> None ->
  (forall t s, view d = Some t -> ~ calls s t) ->
  through f "string" (reader_read cr) d = Throw RuntimeError (pn_next d) /\
  through f "string" (reader_readString fmt cs) d = Throw RuntimeError (pn_next d).
Proof. exact string_checked. Qed.
Print Assumptions C74_strings_checked_partial.

(** C74 fails: where a number is expected and something else is there, zero is
    read and nothing is thrown; *)
Theorem C74_wrong_type_refuted : forall cr kf h f ty d, run kf h new_factory f -> In ty [CInt; CLong; CDouble; CBool] ->
  ours h (m_type ty) -> byType f (m_type ty) <> None -> none_stored ty (view d) ->
  through f (m_type ty) (reader_read cr) d = Ok (zero ty) (pn_next d).
Proof. exact wrong_type_read. Qed.
Print Assumptions C74_wrong_type_refuted.

(** no float can be read; *)
Theorem C74_float_refuted : forall fmt cr cs kf h f d, run kf h new_factory f -> ours h "float" -> byType f "float" <> None ->
  through f "float" (reader_read cr) d = Throw RuntimeError d /\
  through f "float" (reader_readString fmt cs) d = Throw RuntimeError d.
Proof. exact float_read. Qed.
Print Assumptions C74_float_refuted.

(** every binary value is read as the boolean false, and has no text; *)
Theorem C74_binary_refuted : forall fmt cr cs kf h f d t s, run kf h new_factory f -> ours h "binary" -> byType f "binary" <> None ->
  view d = Some t -> tree_atom t = ABinary s ->
  through f "binary" (reader_read cr) d = Ok (AnyBool false) (pn_next d) /\
  through f "binary" (reader_readString fmt cs) d = Throw RuntimeError d.
Proof. exact binary_read. Qed.
Print Assumptions C74_binary_refuted.

(** every object, list, array, map and constant is read as the number 1 without
    looking, and stays unread; *)
Theorem C74_types_refuted : forall cr kf h f ty d, run kf h new_factory f -> ours h ty -> (forall p, ty <> prim_name p) -> byType f ty <> None ->
  through f ty (reader_read cr) d = Ok (AnyInt 1) d.
Proof. exact types_read. Qed.
Print Assumptions C74_types_refuted.

(** and its text is always the same. *)
Theorem C74_types_text_refuted : forall fmt cs kf h f ty d t, run kf h new_factory f -> ours h ty -> (forall p, ty <> prim_name p) ->
  byType f ty <> None -> view d = Some t ->
  through f ty (reader_readString fmt cs) d = Ok "Composite" (pn_next d) \/ through f ty (reader_readString fmt cs) d = Ok "hello" d.
Proof. exact types_text. Qed.
Print Assumptions C74_types_text_refuted.

(** Writing through a serialiser writes nothing. *)
Theorem C74_write_refuted : forall cw kf h f ty v d, run kf h new_factory f -> ours h ty -> byType f ty <> None ->
  through f ty (fun r => reader_write cw r v) d = Ok tt d.
Proof. exact nothing_written. Qed.
Print Assumptions C74_write_refuted.

(** Using a type the factory was never told about is undefined, whatever is
    asked of it: there is no serialiser, and no exception either. *)
Theorem C74_unknown_refuted : forall A (m : reader -> PM A) kf h f ty d, run kf h new_factory f -> ours h ty ->
  (forall t, In t (entries_of h) -> n_name t <> ty) -> (forall p, ty <> prim_name p) ->
  through f ty m d = UB.
Proof. exact unknown_undefined. Qed.
Print Assumptions C74_unknown_refuted.

(** A factory with serialisers for all of these, and one the user installed. *)
Definition c74_types : list notation :=
  [class_of "net.P" [field_of "a" "int" []; field_of "b" "string" []; field_of "c" "float" []; field_of "d" "binary" [];
                     field_of "e" "long" []; field_of "f" "double" []; field_of "g" "boolean" []]].
Definition c74_history : list op := [Install RPublicKey; Process (schema_of [c74_types])].
Example C74_ex_unknown : ours c74_history "net.Q" /\ (forall t, In t (entries_of c74_history) -> n_name t <> "net.Q") /\
  forall p, "net.Q" <> prim_name p.
Proof.
  split; [intros r [E|[E|[]]]; [injection E as <-; discriminate|discriminate]|].
  split; [intros t [<- |[]]; discriminate|intros []; discriminate].
Qed.
Example C74_ex : exists f, run true c74_history new_factory f /\
  Forall (fun ty => ours c74_history ty /\ byType f ty <> None) ["int"; "string"; "float"; "binary"; "long"; "double"; "boolean"; "net.P"] /\
  (forall p, "net.P" <> prim_name p) /\
  let d := Data (At [] (leaf (AInt 7)) [leaf (ABinary "x")]) [] in
  view d = Some (leaf (AInt 7)) /\ stored (OfInt 7) (leaf (AInt 7)) /\ none_stored CLong (view d) /\
  view (pn_next d) = Some (leaf (ABinary "x")) /\ (forall t s, view d = Some t -> ~ calls s t).
Proof.
  eexists. split; [|split; [|split; [|split; [|split; [|split; [|split]]]]]].
  - eapply run_cons; [split; [exact I|reflexivity]|left; vm_compute; reflexivity|].
    eapply run_cons; [|left; vm_compute; reflexivity|apply run_nil].
    change (Forall proper c74_types). unfold c74_types. entries_proper.
  - repeat constructor; try discriminate;
      (intros r [E|[E|[]]]; [injection E as <-; discriminate|discriminate]).
  - intros []; discriminate.
  - reflexivity.
  - reflexivity.
  - intros t v E Hv. injection E as <-. destruct v; cbn; auto; discriminate.
  - reflexivity.
  - intros t s E. injection E as <-. intros [H|H]; discriminate.
Qed.
