(** Parsing and writing schemas: libs/amqp/src/schema/descriptors and
    .../corda-descriptors.  The builders work on the cursor of Proton.v. *)
From Verif Require Import Base Proton TypeNames Ordering Schema.
Open Scope string_scope.

(** ** Descriptor codes *)

(** Descriptors.h:19 *)
Definition DESCRIPTOR_TOP_32BITS : N := N.shiftl 50530 48.

(** libs/amqp/src/schema/Descriptors.cxx:7-17, 25-35 *)
Definition ENVELOPE : N := 1.
Definition SCHEMA : N := 2.
Definition OBJECT : N := 3.
Definition FIELD : N := 4.
Definition COMPOSITE_TYPE : N := 5.
Definition RESTRICTED_TYPE : N := 6.
Definition CHOICE : N := 7.
Definition REFERENCED_OBJECT : N := 8.
Definition TRANSFORM_SCHEMA : N := 9.
Definition TRANSFORM_ELEMENT : N := 10.
Definition TRANSFORM_ELEMENT_KEY : N := 11.

Definition corda_code (n : N) : N := N.lor n DESCRIPTOR_TOP_32BITS.

(** AMQPDescriptorRegistory.cxx:100-103; UINT_MAX is 2^32 - 1. *)
Definition stripCorda (id : N) : N := N.land id (N.ones 32).

(** AMQPDescriptorRegistory.cxx:107-123: the switch on 64 bit values. *)
Definition describedToString (val_ : N) : string :=
  let is n := N.eqb val_ (N.lor n DESCRIPTOR_TOP_32BITS) in
  if is 1%N then "ENVELOPE" else if is 2%N then "SCHEMA"
  else if is 3%N then "OBJECT_DESCRIPTOR" else if is 4%N then "FIELD"
  else if is 5%N then "COMPOSITE_TYPE" else if is 6%N then "RESTRICTED_TYPE"
  else if is 7%N then "CHOICE" else if is 8%N then "REFERENCED_OBJECT"
  else if is 9%N then "TRANSFORM_SCHEMA" else if is 10%N then "TRANSFORM_ELEMENT"
  else if is 11%N then "TRANSFORM_ELEMENT_KEY" else "UNKNOWN".

(** AMQPDescriptorRegistory.cxx:127-130 *)
Definition describedToString32 (val_ : N) : string :=
  describedToString (N.lor val_ DESCRIPTOR_TOP_32BITS).

(** The subclasses of AMQPDescriptor, AMQPDescriptorRegistory.cxx:23-95. *)
Inductive descriptor_kind : Type :=
| KDescribed | KEnvelope | KSchema | KObject | KField | KComposite | KRestricted
| KChoice | KReferencedObject | KTransformSchema | KTransformElement
| KTransformElementKey.

(** A registered descriptor: its class, m_symbol and m_val ([None] for -1). *)
Record descriptor : Type := { d_kind : descriptor_kind; d_symbol : string; d_val : option N }.

(** AMQPDescriptorRegistory.cxx:23-95 *)
Definition registry : list (N * descriptor) :=
  let mk k s v := {| d_kind := k; d_symbol := s; d_val := v |} in
  [ (22%N, mk KDescribed "DESCRIBED" None);
    (corda_code ENVELOPE, mk KEnvelope "ENVELOPE" (Some ENVELOPE));
    (corda_code SCHEMA, mk KSchema "SCHEMA" (Some SCHEMA));
    (corda_code OBJECT, mk KObject "OBJECT_DESCRIPTOR" (Some OBJECT));
    (corda_code FIELD, mk KField "FIELD" (Some FIELD));
    (corda_code COMPOSITE_TYPE, mk KComposite "COMPOSITE_TYPE" (Some COMPOSITE_TYPE));
    (corda_code RESTRICTED_TYPE, mk KRestricted "RESTRICTED_TYPE" (Some RESTRICTED_TYPE));
    (corda_code CHOICE, mk KChoice "CHOICE" (Some CHOICE));
    (corda_code REFERENCED_OBJECT, mk KReferencedObject "REFERENCED_OBJECT" (Some REFERENCED_OBJECT));
    (corda_code TRANSFORM_SCHEMA, mk KTransformSchema "TRANSFORM_SCHEMA" (Some TRANSFORM_SCHEMA));
    (corda_code TRANSFORM_ELEMENT, mk KTransformElement "TRANSFORM_ELEMENT" (Some TRANSFORM_ELEMENT));
    (corda_code TRANSFORM_ELEMENT_KEY, mk KTransformElementKey "TRANSFORM_ELEMENT_KEY" (Some TRANSFORM_ELEMENT_KEY)) ].

(** [AMQPDescriptorRegistory[id]], AMQPDescriptors.h:44: std::map::operator[]
    yields a null pointer for an id that is not there (and stores it, which no
    later lookup can tell from absence). *)
Fixpoint lookup {A} (k : N) (l : list (N * A)) : option A :=
  match l with
  | [] => None
  | (k', a) :: l' => if N.eqb k k' then Some a else lookup k l'
  end.
Definition registered (id : N) : option descriptor := lookup id registry.

(** ** Building *)

(** described-types/Envelope.h:18-19 *)
Record envelope : Type := { e_schema : schema; e_descriptor : string }.

(** What build() returns: an ISchemaElement of some subclass (Envelope.h:13,
    Schema.h:32, Descriptor.h:14, Field.h:28, AMQPTypeNotation.h:32, Choice.h:11),
    or null. *)
Inductive element : Type :=
| EEnvelope (e : envelope)
| ESchema (s : schema)
| EDescriptor (name : string)
| EField (f : field)
| EType (t : notation)
| EChoice (c : string)
| ENull.

(** The static_casts of dispatchDescribed<T>, AMQPDescriptors.h:42-44.  A cast
    to the wrong class is undefined; a null result is dereferenced by every
    caller later on, which is counted as undefined here already
    (simplification). *)
Definition as_schema (e : element) : PM schema :=
  match e with ESchema s => ret s | _ => ub end.
Definition as_descriptor (e : element) : PM string :=
  match e with EDescriptor s => ret s | _ => ub end.
Definition as_field (e : element) : PM field :=
  match e with EField f => ret f | _ => ub end.
Definition as_type (e : element) : PM notation :=
  match e with EType t => ret t | _ => ub end.
Definition as_choice (e : element) : PM string :=
  match e with EChoice c => ret c | _ => ub end.

(** AMQPDescriptors.cxx:17-31 *)
Definition validateAndNext (val : option N) : PM unit :=
  fun d =>
    if negb (is_type TULong d) then Throw RuntimeError d
    else match val with
         | None => Throw RuntimeError d
         | Some v => if N.eqb (pn_get_ulong d) (N.lor v DESCRIPTOR_TOP_32BITS)
                     then Ok tt (pn_next d)
                     else Throw RuntimeError d
         end.

(** [pn_data_next (data_);] with the result ignored, e.g.
    CompositeDescriptor.cxx:51. *)
Definition next_ : PM unit := fun d => Ok tt (pn_next d).

(** [while (pn_data_next (data_)) acc = body (acc)]: CompositeDescriptor.cxx:62
    and 79, SchemaDescriptor.cxx:47-50, FieldDescriptor.cxx:57,
    RestrictedDescriptor.cxx:117 and 139.  [n] bounds the number of
    rounds; it is always the number of nodes at the loop's level. *)
Fixpoint while_loop {A} (n : nat) (body : A -> PM A) (acc : A) : PM A :=
  fun d => if pn_next_ok d then
             match n with
             | 0 => Fuel
             | S n' => bind (body acc) (while_loop n' body) (pn_next d)
             end
           else Ok acc d.
Definition while_next {A} (body : A -> PM A) (acc : A) : PM A :=
  fun d => while_loop (List.length (siblings (here d))) body acc d.

(** [push_back (get_string (data_))]: CompositeDescriptor.cxx:63,
    FieldDescriptor.cxx:58, RestrictedDescriptor.cxx:118. *)
Definition push_string (acc : list string) : PM (list string) :=
  let! s := get_string false in ret (acc ++ [s])%list.

Section Build.
  (** dispatchDescribed for the nested elements. *)
  Variable rec : PM element.

  (** FieldDescriptor.cxx:30-85 *)
  Definition build_field (val : option N) : PM element :=
    validateAndNext val ;;
    auto_enter false (
      let! name := get_string false in
      next_ ;;
      let! type := get_string false in
      next_ ;;
      let! requires := auto_list_enter false (fun _ => while_next push_string []) in
      next_ ;;
      let! def := get_string true in
      next_ ;;
      let! label := get_string true in
      next_ ;;
      let! mandatory := get_boolean in
      next_ ;;
      let! multiple := get_boolean in
      let! f := lift (Field_make name type requires def label mandatory multiple) in
      ret (EField f)).

  (** ObjectDescriptor.cxx:29-41 *)
  Definition build_object (val : option N) : PM element :=
    validateAndNext val ;;
    auto_enter false (let! symbol := get_symbol in ret (EDescriptor symbol)).

  (** ChoiceDescriptor.cxx:19-28 *)
  Definition build_choice (val : option N) : PM element :=
    validateAndNext val ;;
    auto_enter false (let! name := get_string false in ret (EChoice name)).

  (** CompositeDescriptor.cxx:39-91 *)
  Definition build_composite (val : option N) : PM element :=
    validateAndNext val ;;
    auto_enter false (
      let! name := get_string false in
      next_ ;;
      let! label := get_string true in
      next_ ;;
      let! provides := auto_list_enter false (fun _ => while_next push_string []) in
      next_ ;;
      let! e := rec in
      let! descriptor := as_descriptor e in
      next_ ;;
      let! fields := auto_list_enter false (fun _ => while_next (fun acc =>
          let! e := rec in
          let! f := as_field e in
          ret (acc ++ [f])%list) []) in
      ret (EType (TComposite {| c_name := name; c_label := label; c_provides := provides;
                                c_descriptor := descriptor; c_fields := fields |}))).

  (** RestrictedDescriptor.cxx:101-156 *)
  Definition build_restricted (val : option N) : PM element :=
    validateAndNext val ;;
    auto_enter false (
      let! name := readAndNext_string false in
      let name := makePrim name in
      let! label := readAndNext_string true in
      let! provides := auto_list_enter false (fun _ => while_next push_string []) in
      next_ ;;
      let! source := readAndNext_string false in
      let! e := rec in
      let! descriptor := as_descriptor e in
      next_ ;;
      let! choices := auto_list_enter false (fun _ => while_next (fun acc =>
          let! e := rec in
          let! c := as_choice e in
          ret (acc ++ [c])%list) []) in
      let! r := lift (Restricted_make descriptor name label provides source choices) in
      ret (EType (TRestricted r))).

  (** SchemaDescriptor.cxx:32-61 *)
  Definition build_schema (val : option N) : PM element :=
    validateAndNext val ;;
    let! schemas := auto_list_enter false (fun _ =>
      while_next (fun acc =>
        auto_list_enter false (fun _ =>
          while_next (fun acc =>
            let! e := rec in
            let! t := as_type e in
            lift (insert notation dependsOn t acc)) acc)) []) in
    ret (ESchema (schema_of schemas)).

  (** EnvelopeDescriptor.cxx:17-22 *)
  Definition consumeBlob : PM string :=
    attest_is_described ;;
    auto_enter false get_symbol.

  (** EnvelopeDescriptor.cxx:103-141 *)
  Definition build_envelope (val : option N) : PM element :=
    validateAndNext val ;;
    let! (s, outerType) := auto_enter false (
      let! outerType := consumeBlob in
      next_ ;;
      let! e := rec in
      let! s := as_schema e in
      next_ ;;
      ret (s, outerType)) in
    ret (EEnvelope {| e_schema := s; e_descriptor := outerType |}).

  (** AMQPDescriptors.cxx:35-79 *)
  Definition build_ignored (val : option N) : PM element :=
    validateAndNext val ;; ret ENull.

  (** The virtual call [..->build (data_)]; AMQPDescriptor.cxx:34-38 is the base
      class. *)
  Definition build (desc : descriptor) : PM element :=
    match d_kind desc with
    | KDescribed => throw RuntimeError
    | KEnvelope => build_envelope (d_val desc)
    | KSchema => build_schema (d_val desc)
    | KObject => build_object (d_val desc)
    | KField => build_field (d_val desc)
    | KComposite => build_composite (d_val desc)
    | KRestricted => build_restricted (d_val desc)
    | KChoice => build_choice (d_val desc)
    | _ => build_ignored (d_val desc)
    end.

  (** [AMQPDescriptorRegistory[id]->build (data_)] *)
  Definition build_id (id : N) : PM element :=
    match registered id with
    | Some desc => build desc
    | None => ub
    end.
End Build.

(** AMQPDescriptors.h:33-45.  [fuel] bounds the nesting of described elements;
    the height of the tree suffices (proved). *)
Fixpoint dispatchDescribed (fuel : nat) : PM element :=
  match fuel with
  | 0 => fun _ => Fuel
  | S fuel' =>
      attest_is_described ;;
      auto_enter false (
        is_ulong ;;
        fun d => build_id (dispatchDescribed fuel') (pn_get_ulong d) d)
  end.

(** ** Writing *)

(** A scope of writes inside the node just put: [{ auto_enter ae (rtn); .. }],
    e.g. EnvelopeDescriptor.cxx:154-167. *)
Definition inside (f : data -> data) (d : data) : data := pn_exit (f (w_enter d)).

Definition put_strings (l : list string) (d : data) : data :=
  fold_left (fun d s => pn_put (AString s) d) l d.
Definition append_all (l : list data) (d : data) : data :=
  fold_left (fun d s => pn_append s d) l d.

(** FieldDescriptor.cxx:273-317 *)
Definition field_makeProton (name type : string) (requires : list string) (default label : string)
           (mandatory multiple : bool) : data :=
  inside (fun d =>
    inside (fun d =>
      let d := pn_put (AString name) d in
      let d := pn_put (AString type) d in
      let d := inside (put_strings requires) (pn_put AList d) in
      let d := pn_put (AString default) d in
      let d := pn_put (AString label) d in
      let d := pn_put (ABool mandatory) d in
      pn_put (ABool multiple) d)
    (pn_put AList (pn_put (AULong (corda_code FIELD)) d)))
  (pn_put ADescribed pn_data).

(** CompositeDescriptor.cxx:267-277, RestrictedDescriptor.cxx:262-272 *)
Definition put_descriptor (fingerprint : string) (d : data) : data :=
  inside (fun d =>
    inside (fun d => pn_put ANull (pn_put (ASymbol fingerprint) d))
    (pn_put AList (pn_put (AULong (corda_code OBJECT)) d)))
  (pn_put ADescribed d).

(** CompositeDescriptor.cxx:230-290; [fields] are the values of the std::map in
    the order of its keys. *)
Definition composite_makeProton (name : string) (provides : list string) (fingerprint : string)
           (fields : list data) (label : string) : data :=
  inside (fun d =>
    inside (fun d =>
      let d := pn_put (AString name) d in
      let d := pn_put (AString label) d in
      let d := inside (put_strings provides) (pn_put AList d) in
      let d := put_descriptor fingerprint d in
      inside (append_all fields) (pn_put AList d))
    (pn_put AList (pn_put (AULong (corda_code COMPOSITE_TYPE)) d)))
  (pn_put ADescribed pn_data).

(** RestrictedDescriptor.cxx:223-283 *)
Definition restricted_makeProton (name source fingerprint : string) : data :=
  inside (fun d =>
    inside (fun d =>
      let d := pn_put (AString name) d in
      let d := pn_put (AString "") d in
      let d := inside (fun d => d) (pn_put AList d) in
      let d := pn_put (AString source) d in
      let d := put_descriptor fingerprint d in
      inside (fun d => d) (pn_put AList d))
    (pn_put AList (pn_put (AULong (corda_code RESTRICTED_TYPE)) d)))
  (pn_put ADescribed pn_data).

(** SchemaDescriptor.cxx:150-175 *)
Definition schema_makeProton (elements : list data) : data :=
  inside (fun d =>
    inside (fun d => inside (append_all elements) (pn_put AList d))
    (pn_put AList (pn_put (AULong (corda_code SCHEMA)) d)))
  (pn_put ADescribed pn_data).

(** EnvelopeDescriptor.cxx:145-170 *)
Definition envelope_makeProton (payload schema_ : data) : data :=
  inside (fun d =>
    inside (fun d => pn_put ANull (pn_append schema_ (pn_append payload d)))
    (pn_put AList (pn_put (AULong (corda_code ENVELOPE)) d)))
  (pn_put ADescribed pn_data).
