(** Properties of serialising. *)
From Coq Require Import Sorting.Sorted Permutation Lia.
From Verif Require Import Base Proton SpecDescriptors Writer SpecWriter WriterProofs.
Import List ListNotations.
Open Scope string_scope.

(** C38.  The objects are written one after the other with one writer; what has
    been written is exactly the objects, and no value is left open. *)
Theorem C38_payload_exact : forall roots,
  Forall (fun r => well_formed r /\ is_pointer r = false) roots ->
  (forall k s, In (k, Class) (flat_map occurrences roots) -> In (k, Container s) (flat_map occurrences roots) -> False) ->
  exists w, serialise_each roots new_writer = Ok tt w /\ forest (m_payload w) = map wire roots /\ ups (m_payload w) = [].
Proof. exact payload_exact. Qed.
Print Assumptions C38_payload_exact.

(** C38, C39.  The blob for one object. *)
Theorem C39_schema_exact : forall root,
  well_formed root -> is_pointer root = false -> no_clash root ->
  exists w ts, serialise_blob root new_writer = Ok (decoded (envelope_tree (wire root) [ts] [leaf ANull])) w /\
    schema_for root ts.
Proof. exact serialise_correct. Qed.
Print Assumptions C39_schema_exact.

(** C39: one entry for each class and container, and for nothing else. *)
Theorem C39_once : forall root ts k, schema_for root ts ->
  (In k (map fst (occurrences root)) <-> exists t, In t ts /\ type_key t = k) /\
  (forall t u, In t ts -> In u ts -> type_key t = k -> type_key u = k -> t = u) /\ NoDup ts.
Proof. exact schema_once. Qed.
Print Assumptions C39_once.

(** C39: the properties of a class all of whose instances write the same ones. *)
Theorem C39_properties : forall root ts c props, schema_for root ts -> In (WClass c) ts ->
  uniform root (wc_name c, wc_fingerprint c) props -> Permutation (wc_fields c) props.
Proof. exact uniform_fields. Qed.
Print Assumptions C39_properties.

Example C39_ex : well_formed outer /\ is_pointer outer = false /\ no_clash outer /\
  exists w, serialise_blob outer new_writer = Ok (decoded (envelope_tree (wire outer) [[
    wlist "java.util.List<net.In>" "f:list";
    WContainer {| wr_name := "java.util.Map<int,net.In>"; wr_label := Some ""; wr_provides := []; wr_source := "map";
                  wr_fingerprint := "f:map"; wr_choices := [] |};
    wclass "net.In" "f:in" [wfield "n" "int" [] false];
    wclass "net.Out" "f:out" [wfield "a" "string" [] false; wfield "b" "net.In" [] false;
      wfield "c" "*" ["java.util.List<net.In>"] false; wfield "d" "*" ["java.util.Map<int,net.In>"] false;
      wfield "e" "int" [] true]]] [leaf ANull])) w.
Proof. destruct outer_ok as (? & ? & ? & _). do 3 (split; [assumption|]). eexists. vm_compute. reflexivity. Qed.
Example C39_ex_uniform : uniform outer ("net.In", "f:in") [wfield "n" "int" [] false].
Proof. split; [vm_compute; repeat constructor|repeat constructor; intros []]. Qed.

(** C40 fails: the values are in the order in which they were written, the
    schema is in alphabetical order. *)
Theorem C40_order_refuted : exists root ts c w,
  well_formed root /\ is_target root = true /\ no_clash root /\
  serialise_blob root new_writer = Ok (decoded (envelope_tree (wire root) [ts] [leaf ANull])) w /\ In (WClass c) ts /\
  map w_name (wc_fields c) = ["a"; "b"] /\ map w_type (wc_fields c) = ["string"; "int"] /\
  wire root = payload_tree (wc_fingerprint c) [list_of [leaf (AInt 1); str "x"]].
Proof. exact order_wrong. Qed.
Print Assumptions C40_order_refuted.

(** C40 holds exactly for the classes that write their properties in
    alphabetical order.  Missing: all others. *)
Theorem C40_order_partial : forall root ts c props, schema_for root ts -> In (WClass c) ts ->
  uniform root (wc_name c, wc_fingerprint c) props ->
  (wc_fields c = props <-> StronglySorted before (map w_name props)).
Proof. exact order_exact. Qed.
Print Assumptions C40_order_partial.

(** C41.  [earlier] has been written and the blob made: making it again gives
    the same, and going on writing gives what it would have given without. *)
Theorem C41_blob_repeatable : forall earlier later w d w',
  (serialise_each earlier ;; toBlob) w = Ok d w' ->
  toBlob w' = Ok d w' /\
  (serialise_each later ;; toBlob) w' = (serialise_each (earlier ++ later) ;; toBlob) w.
Proof. exact blob_repeatable. Qed.
Print Assumptions C41_blob_repeatable.

Example C41_ex : exists d w, (serialise_each [outer; inner 5] ;; toBlob) new_writer = Ok d w.
Proof. eexists _, _. vm_compute. reflexivity. Qed.

(** C42 fails for null pointers ... *)
Theorem C42_null_pointer_refuted : exists root ts w,
  well_formed root /\ is_target root = true /\ no_clash root /\
  serialise_blob root new_writer = Ok (decoded (envelope_tree (wire root) [ts] [leaf ANull])) w /\ ~ self_contained ts.
Proof. exact null_pointer_dangles. Qed.
Print Assumptions C42_null_pointer_refuted.
(** ... and for empty containers. *)
Theorem C42_empty_vector_refuted : exists root ts w,
  well_formed root /\ is_target root = true /\ no_clash root /\
  serialise_blob root new_writer = Ok (decoded (envelope_tree (wire root) [ts] [leaf ANull])) w /\ ~ self_contained ts.
Proof. exact empty_vector_dangles. Qed.
Print Assumptions C42_empty_vector_refuted.

(** C42 without them.  Missing: objects with null pointers or empty containers. *)
Theorem C42_self_contained_partial : forall root ts, schema_for root ts -> filled root -> self_contained ts.
Proof. exact filled_self_contained. Qed.
Print Assumptions C42_self_contained_partial.

Example C42_ex : filled outer.
Proof. apply outer_ok. Qed.

(** C50 fails: an int is not mandatory and a pointer to an int is. *)
Theorem C50_mandatory_refuted : exists root ts c w,
  well_formed root /\ is_target root = true /\ no_clash root /\
  serialise_blob root new_writer = Ok (decoded (envelope_tree (wire root) [ts] [leaf ANull])) w /\ In (WClass c) ts /\
  root = IObject (wc_name c) (wc_fingerprint c) [("i", ("int", IPrim (OfInt 1))); ("p", ("int", IPrimPtr CInt None))] /\
  map (fun f => (w_name f, w_mandatory f)) (wc_fields c) = [("i", false); ("p", true)].
Proof. exact flags_wrong. Qed.
Print Assumptions C50_mandatory_refuted.

(** What holds of every property: it is flagged mandatory exactly when it is a
    pointer to a primitive.  Missing: the converse, which is what is wanted. *)
Theorem C50_mandatory_partial : forall root ts c f, schema_for root ts -> In (WClass c) ts -> In f (wc_fields c) ->
  exists ty v, In (w_name f, (ty, v)) (properties_of (wc_name c, wc_fingerprint c) root) /\
    (w_mandatory f = true <-> exists t p, v = IPrimPtr t p).
Proof. exact flags_exact. Qed.
Print Assumptions C50_mandatory_partial.

(** C73 fails: an object with a pointer to a char anywhere in it makes
    serialising undefined (unless the char is zero), because debug output takes
    it for a C string.  ([typed]: what C++ types guarantee.) *)
Theorem C73_char_pointer_refuted : forall root, typed root -> is_pointer root = false -> no_clash root -> unsafe root ->
  serialise_blob root new_writer = UB.
Proof. exact unsafe_undefined. Qed.
Print Assumptions C73_char_pointer_refuted.
(** Nothing else can go wrong.  Missing: objects with such pointers. *)
Theorem C73_serialises_partial : forall root, typed root -> is_pointer root = false -> no_clash root ->
  match serialise_blob root new_writer with
  | Ok _ _ => ~ unsafe root
  | UB => unsafe root
  | _ => False
  end.
Proof. exact unsafe_exactly. Qed.
Print Assumptions C73_serialises_partial.

Definition initials (middle : option prim_value) : item :=
  IVector "java.util.List<net.I>" "f:is" [inner 1; IObject "net.I" "f:i" [("a", ("char", IPrim (OfChar 65))); ("m", ("char", IPrimPtr CChar middle))]].
Example C73_ex : forall middle, middle = None \/ middle = Some (OfChar 66) ->
  typed (initials middle) /\ is_pointer (initials middle) = false /\ no_clash (initials middle) /\ unsafe (initials middle).
Proof.
  intros middle H. split; [destruct H; subst; cbn; intuition (try lia)|]. split; [reflexivity|]. split.
  { intros k s H1 H2. cbn in H1, H2. repeat match goal with H : _ \/ _ |- _ => destruct H end; try contradiction; congruence. }
  eapply unsafe_element; [right; now left|]. eapply unsafe_property; [right; now left|]. apply unsafe_pointer.
  unfold printable. cbn. intros P. specialize (P eq_refl). destruct H; subst; discriminate.
Qed.
Example C73_ex_safe : typed outer /\ is_pointer outer = false /\ no_clash outer /\ ~ unsafe outer.
Proof.
  destruct outer_ok as (W & P & C & _). split; [cbn; intuition (try lia; discriminate)|]. split; [exact P|]. split; [exact C|].
  intros N. destruct (serialise_correct outer W P C) as (w & ts & E & _).
  rewrite (C73_char_pointer_refuted outer) in E; auto; [discriminate|]. cbn; intuition (try lia; discriminate).
Qed.
