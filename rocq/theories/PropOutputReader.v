(** Property theorems C102: what deserialising a blob writes to standard output.
    Specification: SpecOutputReader.v.  Model: OutputReader.v. *)
From Verif Require Import Base Proton ProtonProofs SpecDescriptors Writer SpecWriter WriterProofs Deserialise SpecDeserialise DeserialiseProofs SpecReadBack SpecFate SpecOutput Output
  OutputWriter SpecOutputWriter PropOutputWriter OutputReader SpecOutputReader OutputReaderProofs.
Import List ListNotations.
Open Scope string_scope.

(** Writing to standard output changes nothing else: the object, or the exception or whatever
    happens, and the position, are those of Deserialise.v; what was there is kept. *)
Theorem C102_same_result : forall cs env type_name type_number named fuel ty d before,
  same_but_for_text (deserialise_said cs env type_name type_number named fuel ty (d, before)) before (deserialise cs fuel ty d).
Proof. intros. apply erases_deserialise. Qed.
Print Assumptions C102_same_result.

(** What is written, to the letter, and how it ends, for every blob. *)
Theorem C102_exactly : forall cs env type_name type_number named fuel ty t before, height t <= fuel ->
  ends_as before (deserialise_said cs env type_name type_number named fuel ty (decoded t, before))
    (told_blob cs env type_name type_number named fuel ty t).
Proof. intros. now apply blob_goes. Qed.
Print Assumptions C102_exactly.

(** C102 fails whenever an object is returned: something is written, and in it is every
    primitive value in the object, at any depth, in order, also behind pointers. *)
Theorem C102_silent_refuted : forall cs env type_name type_number named fuel ty t before x d, height t <= fuel ->
  deserialise cs fuel ty (decoded t) = Ok x d ->
  exists s, deserialise_said cs env type_name type_number named fuel ty (decoded t, before) = Ok x (d, before ++ s) /\
    s <> "" /\ in_returns env (values_of x) s.
Proof. intros. now apply blob_shown. Qed.
Print Assumptions C102_silent_refuted.

(** But nothing of what comes after the payload is shown: not the schema, and not the transforms.
    (And nothing of it has an effect.) *)
Theorem C102_schema_partial : forall cs env type_name type_number named fuel ty key payload after after' more more' before,
  let t := Node ADescribed (key :: Node AList (payload :: after) :: more) in
  let t' := Node ADescribed (key :: Node AList (payload :: after') :: more') in
  height t <= fuel -> height t' <= fuel ->
  exists h, ends_as before (deserialise_said cs env type_name type_number named fuel ty (decoded t, before)) h /\
            ends_as before (deserialise_said cs env type_name type_number named fuel ty (decoded t', before)) h.
Proof.
  intros until t'. intros H H'. exists (told_blob cs env type_name type_number named fuel ty t). split; [now apply blob_goes|].
  unfold t. rewrite (blob_hides cs env type_name type_number named fuel ty key payload after after' more more'). now apply blob_goes.
Qed.
Print Assumptions C102_schema_partial.

(** An object with another, and a value, behind pointers; the fingerprint is spelt out. *)
Definition pets (c : string) : list ctype :=
  if String.eqb c "Owner" then [RPrim CInt false; RClass "Pet" true; RPrim CBool true] else [RPrim CString false].
Definition owner : tree := envelope_tree
  (wire (IObject "Owner" "f:o" [("age", ("int", IPrim (OfInt 44))); ("pet", ("Pet", IPointer (Some (IObject "Pet" "f:p" [("name", ("string", IPrim (OfString "Rex")))]))));
                                ("tall", ("boolean", IPrimPtr CBool (Some (OfBool true))))])) [] [leaf ANull].
Definition called (t : ctype) : string :=
  match t with RPrim CInt _ => "int" | RPrim CBool _ => "bool" | RPrim CString _ => "std::string" | RPrim _ _ => "?" | RClass c _ => c | RVector _ => "vector" end.
Definition type_called (t : pn_type) : string := match t with TSymbol => "SYMBOL" | _ => "OTHER" end.
Definition type_numbered (t : pn_type) : Z := match t with TSymbol => 21%Z | _ => 1%Z end.
Example C102_ex : forall before, exists x d, height owner <= 20 /\ values_of x = [OfInt 44; OfString "Rex"; OfBool true] /\
  deserialise pets 20 (RClass "Owner" false) (decoded owner) = Ok x d /\
  deserialise_said pets here type_called type_numbered called 20 (RClass "Owner" false) (decoded owner, before) = Ok x (d, before ++ lines
   [ "[SerialiserFactory.h::109] deserialise:-:Owner";
     "[AMQPBlob.cxx::329] readyPayload";
     "[AMQPBlob.cxx::336] KEY == 14222930573189447681";
     "[proton_wrapper.cxx::299] YEP! it's a list";
     "[AMQPBlob.cxx::349] readyPayload::21 SYMBOL 3";
     "   -> f : o  UNKNOWN";
     "[SerialiserFactoryReaders.h::64] read::Composite::Owner";
     "[SerialiserFactoryReaders.h::70] AutoComposite";
     "[AMQPBlob.cxx::358] startComposite";
     "[AMQPBlob.cxx::362] startComposite::UNKNOWN 0";
     "[proton_wrapper.cxx::299] YEP! it's a list";
     "[AMQPBlob.cxx::364] startComposite:: list sz 3";
     "[ReadNonPrimitive.h::36] read<Owner, is_ptr 0>";
     "[SerialiserFactory.h::93] read - int";
     "[SerialiserFactoryReaders.h::50] read::Primitive::int";
     "[SerialiserFactoryReaders.h::40] AutoPrim";
     "[AMQPBlob.cxx::386] startPrim";
     "[PrimToSerializer.h::58] PrimToSerializer<int>::get - return 44";
     "[SerialiserFactoryReaders.h::45] ~AutoPrim";
     "[SerialiserFactory.h::93] read - Pet";
     "[SerialiserFactoryReaders.h::64] read::Composite::Pet";
     "[SerialiserFactoryReaders.h::70] AutoComposite";
     "[AMQPBlob.cxx::358] startComposite";
     "[AMQPBlob.cxx::362] startComposite::UNKNOWN 0";
     "[proton_wrapper.cxx::299] YEP! it's a list";
     "[AMQPBlob.cxx::364] startComposite:: list sz 1";
     "[ReadNonPrimitive.h::55] read<Pet, true>";
     "[SerialiserFactory.h::93] read - std::string";
     "[SerialiserFactoryReaders.h::50] read::Primitive::std::string";
     "[SerialiserFactoryReaders.h::40] AutoPrim";
     "[AMQPBlob.cxx::386] startPrim";
     "[PrimToSerializer.h::77] PrimToSerializer<std::string>::get - return Rex";
     "[SerialiserFactoryReaders.h::45] ~AutoPrim";
     "[SerialiserFactoryReaders.h::75] ~AutoComposite";
     "[AMQPBlob.cxx::375] endComposite";
     "[SerialiserFactory.h::93] read - bool";
     "[SerialiserFactoryReaders.h::50] read::Primitive::bool";
     "[SerialiserFactoryReaders.h::40] AutoPrim";
     "[AMQPBlob.cxx::386] startPrim";
     "[PrimToSerializer.h::96] PrimToSerializer<bool>::get - return 1";
     "[SerialiserFactoryReaders.h::45] ~AutoPrim";
     "[SerialiserFactoryReaders.h::75] ~AutoComposite";
     "[AMQPBlob.cxx::375] endComposite" ]).
Proof.
  intros before.
  pose proof (blob_goes pets here type_called type_numbered called 20 (RClass "Owner" false) owner before ltac:(vm_compute; repeat constructor)) as G.
  unfold ends_as in G.
  let h := constr:(told_blob pets here type_called type_numbered called 20 (RClass "Owner" false) owner) in let v := eval vm_compute in h in change h with v in G.
  cbn [fst snd] in G. destruct G as (d & G).
  pose proof (C102_same_result pets here type_called type_numbered called 20 (RClass "Owner" false) (decoded owner) before) as S. rewrite G in S.
  eexists _, d. split; [vm_compute; repeat constructor|]. split; [|split; [|rewrite G; reflexivity]]; [reflexivity|].
  unfold same_but_for_text in S. destruct (deserialise _ _ _ _); try contradiction. now destruct S as (<- & <- & _).
Qed.
