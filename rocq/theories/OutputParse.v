(** What reading the envelope of a blob writes to standard output on the way: the builders of
    Descriptors.v, read_envelope and dumpContents (Blob.v), once more with the debug lines
    of the library. *)
From Verif Require Import Base OutputWriter Proton TypeNames Ordering Schema Descriptors Factory Readers Blob Output OutputReader OutputSchema OutputShow Print.
Import List ListNotations.
Open Scope string_scope.

(** What some functions write that read nothing from the blob but are given what has been
    read: Field::make (Field.cxx:30-150, ArrayField.cxx:35, CompositeField.cxx:34,
    RestrictedField.cxx:32), Restricted::make (Restricted.cxx:93-130),
    OrderedTypeNotations::insert (OrderedTypeNotations.h:138-212, with dependsOn: Composite.cxx
    90-160, Restricted.cxx:185-205, List.cxx:72, Map.cxx:83-98, Array.cxx:66), and making the
    readers (CompositeFactoryInternal.cxx).  The text itself is not modelled and may be
    anything, also if they fail. *)
Record tellings : Type := {
  field_text : string -> string -> list string -> string -> string -> bool -> bool -> string;
  container_text : string -> string -> string -> list string -> string -> list string -> string;
  insert_text : notation -> list (list notation) -> string;
  process_text : schema -> factory -> string }.

Section Said.
(** The platform, and what the types of values are called (OutputReader.v). *)
Context (env : platform) (type_name : pn_type -> string) (type_number : pn_type -> Z) (also_told : tellings).
Definition num (n : nat) : string := dec (Z.of_nat n).
(** [DBG (before << data_ << std::endl)]: proton_wrapper.cxx:64-113. *)
Definition trace_node (source : string) (number : Z) (before : string) : OM unit :=
  fun s => trace env source number (before ++ node_text type_name type_number (fst s)) s.

Section Build.
(** dispatchDescribed for the nested elements. *)
Variable rec : OM element.

(** FieldDescriptor.cxx:30-85 *)
Definition build_field_said (val : option N) : OM element :=
  trace env "FieldDescriptor.cxx" 33 "FIELD" ;;
  silently (validateAndNext val) ;;
  auto_enter_said false (
    let! name := silently (get_string false) in
    trace env "FieldDescriptor.cxx" 42 ("FIELD::name: """ ++ name ++ """") ;;
    silently next_ ;;
    let! type := silently (get_string false) in
    trace env "FieldDescriptor.cxx" 49 ("FIELD::type: """ ++ type ++ """") ;;
    silently next_ ;;
    let! requires := silently (auto_list_enter false (fun _ => while_next push_string [])) in
    silently next_ ;;
    let! def := silently (get_string true) in
    silently next_ ;;
    let! label := silently (get_string true) in
    silently next_ ;;
    let! mandatory := silently get_boolean in
    silently next_ ;;
    let! multiple := silently get_boolean in
    cout (field_text also_told name type requires def label mandatory multiple) ;;
    let! f := silently (lift (Field_make name type requires def label mandatory multiple)) in
    ret (EField f)).

(** ObjectDescriptor.cxx:29-41 *)
Definition build_object_said (val : option N) : OM element :=
  trace env "ObjectDescriptor.cxx" 32 "DESCRIPTOR" ;;
  silently (build_object val).

(** ChoiceDescriptor.cxx:19-28 writes nothing. *)
Definition build_choice_said (val : option N) : OM element := silently (build_choice val).

(** CompositeDescriptor.cxx:39-91 *)
Definition build_composite_said (val : option N) : OM element :=
  trace env "CompositeDescriptor.cxx" 42 "COMPOSITE" ;;
  silently (validateAndNext val) ;;
  auto_enter_said false (
    let! name := silently (get_string false) in
    silently next_ ;;
    let! label := silently (get_string true) in
    silently next_ ;;
    let! provides := silently (auto_list_enter false (fun _ => while_next push_string [])) in
    silently next_ ;;
    let! e := rec in
    let! descriptor := silently (as_descriptor e) in
    silently next_ ;;
    let! fields := auto_list_enter_said false (fun _ => while_next_said (fun acc =>
        let! e := rec in
        let! f := silently (as_field e) in
        ret (acc ++ [f])%list) []) in
    ret (EType (TComposite {| c_name := name; c_label := label; c_provides := provides;
                              c_descriptor := descriptor; c_fields := fields |}))).

(** RestrictedDescriptor.cxx:101-156 *)
Definition build_restricted_said (val : option N) : OM element :=
  trace env "RestrictedDescriptor.cxx" 104 "RESTRICTED" ;;
  silently (validateAndNext val) ;;
  auto_enter_said false (
    let! name := readAndNext_string_said false in
    let name := makePrim name in
    let! label := readAndNext_string_said true in
    trace env "RestrictedDescriptor.cxx" 112 ("  name: " ++ name ++ ", label: """ ++ label ++ """") ;;
    let! provides := auto_list_enter_said false (fun _ => while_next_said (fun acc =>
        let! s := silently (get_string false) in
        trace env "RestrictedDescriptor.cxx" 120 ("  provides: " ++ s) ;;
        ret (acc ++ [s])%list) []) in
    silently next_ ;;
    let! source := readAndNext_string_said false in
    trace env "RestrictedDescriptor.cxx" 128 ("source: " ++ source) ;;
    let! e := rec in
    let! descriptor := silently (as_descriptor e) in
    silently next_ ;;
    trace_node "RestrictedDescriptor.cxx" 134 "choices: " ;;
    let! choices := auto_list_enter_said false (fun _ => while_next_said (fun acc =>
        let! e := rec in
        let! c := silently (as_choice e) in
        trace env "RestrictedDescriptor.cxx" 143 (" choice: " ++ c) ;;
        ret (acc ++ [c])%list) []) in
    trace_node "RestrictedDescriptor.cxx" 147 "" ;;
    cout (container_text also_told descriptor name label provides source choices) ;;
    let! r := silently (lift (Restricted_make descriptor name label provides source choices)) in
    ret (EType (TRestricted r))).

(** The loops of Schema.cxx:45-51. *)
Fixpoint for_each {A} (f : A -> OM unit) (l : list A) : OM unit :=
  match l with
  | [] => ret tt
  | a :: l' => f a ;; for_each f l'
  end.
(** Schema.cxx:41-52 *)
Definition Schema_said (types_ : list (list notation)) : OM schema :=
  for_each (for_each (fun j => trace env "Schema.cxx" 47 ("Schema: " ++ n_descriptor j ++ " " ++ n_name j))) types_ ;;
  ret (schema_of types_).

(** SchemaDescriptor.cxx:32-61; the lists are written by OrderedTypeNotations.h:83-98. *)
Definition build_schema_said (val : option N) : OM element :=
  trace env "SchemaDescriptor.cxx" 35 "SCHEMA" ;;
  silently (validateAndNext val) ;;
  let! (_, schemas) := auto_list_enter_said false (fun n =>
    while_next_said (fun '(i, acc) =>
      trace env "SchemaDescriptor.cxx" 48 ("  " ++ num i ++ "/" ++ num n) ;;
      let! acc := auto_list_enter_said false (fun _ =>
        while_next_said (fun acc =>
          let! e := rec in
          let! t := silently (as_type e) in
          cout (insert_text also_told t acc) ;;
          let! acc := silently (lift (insert notation dependsOn t acc)) in
          trace env "SchemaDescriptor.cxx" 55 ("=======" ++ endl ++ print_levels n_name acc ++ "======") ;;
          ret acc) acc) in
      ret (S i, acc)) (1, [])) in
  let! s := Schema_said schemas in
  ret (ESchema s).

(** EnvelopeDescriptor.cxx:103-141 *)
Definition build_envelope_said (val : option N) : OM element :=
  trace env "EnvelopeDescriptor.cxx" 106 "ENVELOPE" ;;
  silently (validateAndNext val) ;;
  let! (s, outerType) := auto_enter_said false (
    let! outerType := silently consumeBlob in
    silently next_ ;;
    let! e := rec in
    let! s := silently (as_schema e) in
    silently next_ ;;
    ret (s, outerType)) in
  ret (EEnvelope {| e_schema := s; e_descriptor := outerType |}).

(** AMQPDescriptors.cxx:35-79 *)
Definition build_ignored_said (line : Z) (words : string) (val : option N) : OM element :=
  silently (validateAndNext val) ;;
  trace_node "AMQPDescriptors.cxx" line words ;;
  ret ENull.

(** The virtual call [..->build (data_)]; AMQPDescriptor.cxx:34-38 is the base class. *)
Definition build_said (desc : descriptor) : OM element :=
  match d_kind desc with
  | KDescribed => throw RuntimeError
  | KEnvelope => build_envelope_said (d_val desc)
  | KSchema => build_schema_said (d_val desc)
  | KObject => build_object_said (d_val desc)
  | KField => build_field_said (d_val desc)
  | KComposite => build_composite_said (d_val desc)
  | KRestricted => build_restricted_said (d_val desc)
  | KChoice => build_choice_said (d_val desc)
  | KReferencedObject => build_ignored_said 40 "REFERENCED OBJECT " (d_val desc)
  | KTransformSchema => build_ignored_said 52 "TRANSFORM SCHEMA " (d_val desc)
  | KTransformElement => build_ignored_said 64 "TRANSFORM ELEMENT " (d_val desc)
  | KTransformElementKey => build_ignored_said 76 "TRANSFORM ELEMENT KEY" (d_val desc)
  end.

(** [AMQPDescriptorRegistory[id]->build (data_)], AMQPDescriptors.h:44 *)
Definition build_id_said (id : N) : OM element :=
  match registered id with
  | Some desc => build_said desc
  | None => ub
  end.
End Build.

(** AMQPDescriptors.h:33-45; [fuel] as in Descriptors.v. *)
Fixpoint dispatchDescribed_said (fuel : nat) : OM element :=
  match fuel with
  | 0 => fun _ => Fuel
  | S fuel' =>
      silently attest_is_described ;;
      auto_enter_said false (
        silently is_ulong ;;
        fun s => build_id_said (dispatchDescribed_said fuel') (pn_get_ulong (fst s)) s)
  end.

(** AMQPBlob.cxx:276-285 *)
Definition read_envelope_said (fuel : nat) : OM envelope :=
  fun s =>
    if is_described (fst s) then
      (let! e := auto_enter_said false (fun s => build_id_said (dispatchDescribed_said fuel) (pn_get_ulong (fst s)) s) in
       match e with EEnvelope x => ret x | _ => ub end) s
    else UB.

Section Contents.
Context (fmt_double : N -> string) (custom : nat -> option string -> OM ivalue) (map_order entry_order : bool).
(** AMQPBlob.cxx:273-314 from beginning to end. *)
Definition dumpContents_aloud (fuel : nat) : CM string := fun '(d, cf, out) =>
  match read_envelope_said fuel (d, out) with
  | Ok e (d', out') =>
      let out' := out' ++ process_text also_told (e_schema e) cf in
      match process map_order (e_schema e) cf with
      | Ok _ cf' =>
          match byDescriptor cf' (e_descriptor e) with
          | None => Abort                                        (* line 291 *)
          | Some i =>
              match reader_at i cf' with
              | None => UB
              | Some r =>
                  match dump_payload_said env fmt_double custom entry_order cf' (e_schema e) fuel r (d', out') with
                  | Ok x (d'', out'') => Ok x (d'', cf', out'')
                  | Throw e (d'', out'') => Throw e (d'', cf', out'')
                  | Abort => Abort | UB => UB | Fuel => Fuel
                  end
              end
          end
      | Throw e cf' => Throw e (d', cf', out')
      | Abort => Abort | UB => UB | Fuel => Fuel
      end
  | Throw e (d', out') => Throw e (d', cf, out')
  | Abort => Abort | UB => UB | Fuel => Fuel
  end.
End Contents.
End Said.
