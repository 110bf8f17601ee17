(** Property theorems C108: what making the readers for a schema, and installing a
    serialiser, writes to standard output.  Specification: SpecOutputProcess.v.  Model:
    OutputProcess.v. *)
From Verif Require Import Base TypeNames Schema Factory OutputWriter SpecOutputWriter PropOutputWriter SpecOutput OutputReader SpecOutputReader SpecFate OutputProcess SpecOutputProcess OutputProcessProofs
  SpecCursor Proton SpecFactory Blob SpecDisplay OutputShow SpecOutputShow OutputParse SpecOutputParse PropOutputParse OutputMake FateBlobProofs OutputProcessBlobProofs.
Import List ListNotations.
Open Scope string_scope.

(** Writing changes nothing else: the readers are made as in Factory.v, with the same
    outcome, and what has been written before stays. *)
Theorem C108_same_result : forall env called map_order s f before,
  alike (process_said env called map_order s (f, before)) (process map_order s f) before.
Proof. intros. apply erases_process. Qed.
Print Assumptions C108_same_result.

(** What making the readers writes, to the letter, if it ends and if an exception leaves
    it; and when it does which. *)
Theorem C108_making : forall env called map_order s f b before, keeps_book called f b ->
  made_aloud called before (process_said env called map_order s (f, before)) (making_aloud env map_order b s).
Proof. intros. now apply process_follows. Qed.
Print Assumptions C108_making.

(** Installing a serialiser writes one line, with the name and the type of the serialiser,
    and the serialiser is the one for that type from then on; at first there is none. *)
Theorem C108_install : forall env called r f b before, keeps_book called f b ->
  exists f',
    installCustomSerialiser_said env called r (f, before) =
      Ok tt (f', before ++ fst (says env 364 ("installCustomSerialiser::" ++ reader_name called r ++ "::" ++ reader_type r))) /\
    installCustomSerialiser r f = Ok tt f' /\ keeps_book called f' ((reader_type r, reader_name called r) :: b).
Proof. intros. now apply install_follows. Qed.
Print Assumptions C108_install.
Theorem C108_new : forall called, keeps_book called new_factory [].
Proof. intros called type. reflexivity. Qed.
Print Assumptions C108_new.

(** So all that inspecting a blob writes is known (C106): what making the readers writes
    follows from the schema and from the serialisers that have been installed.  A case that
    meets the hypotheses: C106_ex_conditions. *)
Theorem C108_inspect : forall env type_name type_number moved called double custom answers map_order entry_order rs cf t fuel before,
  answers_aloud rs custom answers -> run map_order (map Install rs) new_factory cf -> own_names rs t = true -> height t < fuel ->
  turns_out_aloud t before
    (dumpContents_aloud env type_name type_number (told_by_code env moved (process_written env called map_order)) double custom map_order entry_order fuel (decoded t, cf, before))
    (inspected_all_aloud env type_name type_number (told_by_code env moved (fun s _ => fst (making_aloud env map_order (installed_book called rs) s))) double answers map_order entry_order rs cf t).
Proof.
  intros env tn tnum moved called double custom answers mo kf rs cf t fuel before Ha R Ho Hf.
  pose proof (C106_exactly_given env tn tnum (told_by_code env moved (process_written env called mo)) double custom answers mo kf rs cf t fuel before Ha R Ho Hf) as H.
  apply own_names_spec in Ho as [H1 H2]. eapply filled_in; eauto.
Qed.
Print Assumptions C108_inspect.

(** Two schemas whose types have the same names, in the same order, and the same contents
    but for fingerprints, labels, provided types, sources, constants of enumerations, and
    the defaults, labels and flags of properties, make the library write the same, and
    succeed or fail alike. *)
Theorem C108_hidden : forall env called map_order s s' f b before, keeps_book called f b ->
  map outline (List.concat (s_types s)) = map outline (List.concat (s_types s')) ->
  match process_said env called map_order s (f, before), process_said env called map_order s' (f, before) with
  | Ok _ (_, text), Ok _ (_, text') => text = text'
  | Throw e (_, text), Throw e' (_, text') => e = e' /\ text = text'
  | UB, UB => True
  | _, _ => False
  end.
Proof.
  intros env called mo s s' f b before K E. pose proof (C108_making env called mo s f b before K) as H. pose proof (C108_making env called mo s' f b before K) as H'.
  rewrite <- (outline_making env mo b s s' E) in H'. unfold made_aloud in *. destruct (snd (making_aloud env mo b s)).
  - destruct H as (? & -> & _), H' as (? & -> & _). reflexivity.
  - destruct H as (? & ->), H' as (? & ->). now split.
  - contradiction.
  - now rewrite H, H'.
Qed.
Print Assumptions C108_hidden.

(** ** Cases that meet the hypotheses *)
Section Examples.
Let property name type kind : field :=
  {| f_kind := kind; f_name := name; f_type := type; f_requires := []; f_default := ""; f_label := ""; f_mandatory := true; f_multiple := false; f_subTypes := [] |}.
Let class name fingerprint fields : notation := TComposite {| c_name := name; c_label := ""; c_provides := []; c_descriptor := fingerprint; c_fields := fields |}.
Let ints : notation := TRestricted
  {| r_kind := list_t; r_name := "java.util.List<int>"; r_label := ""; r_provides := []; r_descriptor := "net.corda:2"; r_source := "list"; r_of := ["int"]; r_choices := [] |}.
Let s fingerprint : schema := {| s_types := [[class "net.A" fingerprint [property "n" "int" PrimitiveField]]; [ints]] |}.
Let missing : schema := {| s_types := [[class "net.B" "net.corda:3" [property "a" "net.A" CompositeField]]] |}.
Let called (_ : nat) : string := "custom".
Example C108_ex : exists f, process_said PropOutputWriter.here called true (s "net.corda:1") (new_factory, "") = Ok tt (f, PropOutputWriter.lines
  [ "[CompositeFactoryInternal.cxx::91] process schema";
    "[CompositeFactoryInternal.cxx::108] process::net.A";
    "[CompositeFactoryInternal.cxx::50] ComputeIfAbsent ""net.A"" - missing";
    "[CompositeFactoryInternal.cxx::132] processComposite - net.A";
    "[CompositeFactoryInternal.cxx::148]   Field: n: ""int"" {i} primitive";
    "[CompositeFactoryInternal.cxx::154]     Field n[int] is primitive";
    "[CompositeFactoryInternal.cxx::50] ComputeIfAbsent ""int"" - missing";
    "[CompositeFactoryInternal.cxx::53]                 ""int"" - RTN: Integer Serialiser : int";
    "[CompositeFactoryInternal.cxx::56] int =?= int";
    "[CompositeFactoryInternal.cxx::53]                 ""net.A"" - RTN: Composite Serialiser : net.A";
    "[CompositeFactoryInternal.cxx::56] net.A =?= net.A";
    "[CompositeFactoryInternal.cxx::108] process::java.util.List<int>";
    "[CompositeFactoryInternal.cxx::50] ComputeIfAbsent ""java.util.List<int>"" - missing";
    "[CompositeFactoryInternal.cxx::309] processRestricted - java.util.List<int>";
    "[CompositeFactoryInternal.cxx::277] Processing List - int";
    "[CompositeFactoryInternal.cxx::223] fetchReaderForRestricted - int";
    "[Field.cxx::141] typeIsPrimitive - int";
    "[CompositeFactoryInternal.cxx::226] It's primitive";
    "[CompositeFactoryInternal.cxx::61] ComputeIfAbsent ""int"" - found it";
    "[CompositeFactoryInternal.cxx::62]                 ""int"" - RTN: Integer Serialiser";
    "[CompositeFactoryInternal.cxx::53]                 ""java.util.List<int>"" - RTN: Restricted Serialiser : java.util.List<int>";
    "[CompositeFactoryInternal.cxx::56] java.util.List<int> =?= java.util.List<int>" ]).
Proof.
  pose proof (C108_making PropOutputWriter.here called true (s "net.corda:1") new_factory [] "" (C108_new called)) as H. unfold made_aloud in H.
  assert (G : exists b, snd (making_aloud PropOutputWriter.here true [] (s "net.corda:1")) = Gives b) by (eexists; vm_compute; reflexivity). destruct G as [b G]. rewrite G in H. destruct H as (f & -> & _).
  exists f. f_equal. 
Qed.
(** A class with a property of a class that is not there: an exception. *)
Example C108_ex_missing : snd (making_aloud PropOutputWriter.here true [] missing) = Raises RuntimeError /\
  exists f, process_said PropOutputWriter.here called true missing (new_factory, "") = Throw RuntimeError (f, fst (making_aloud PropOutputWriter.here true [] missing)).
Proof. split; [reflexivity|]. exact (C108_making PropOutputWriter.here called true missing new_factory [] "" (C108_new called)). Qed.
(** Installed first, the serialiser of keys is the one for its type. *)
Example C108_ex_install : exists f, installCustomSerialiser RPublicKey new_factory = Ok tt f /\ keeps_book called f [("java.security.PublicKey", "Public Key serialiser")].
Proof. destruct (C108_install PropOutputWriter.here called RPublicKey new_factory [] "" (C108_new called)) as (f & _ & H & K). eauto. Qed.
(** The fingerprint does not show. *)
Example C108_ex_hidden : s "net.corda:1" <> s "net.corda:9" /\ map outline (List.concat (s_types (s "net.corda:1"))) = map outline (List.concat (s_types (s "net.corda:9"))).
Proof. split; [discriminate|reflexivity]. Qed.
End Examples.
