(** Property theorems C81, C82: what the programs in bin/reader-tests do with any
    file, and with objects with any values.
    Specification: SpecReaderTests.v, SpecReadBack.v, SpecFile.v, SpecTools.v and
    SpecFrame.v.  [decode] and [encode] are proton's.  [fuel] bounds the nesting
    that is explored. *)
From Coq Require Import Lia.
From Verif Require Import Base Proton ProtonProofs CordaFile SpecFile Readers Writer SpecWriter Deserialise Tools SpecTools
  SpecAccept SpecReadBack WriterTests SpecWriterTests SpecFrame FrameObjects ReaderTests SpecReaderTests ReaderTestsProofs.
Import List ListNotations.
Open Scope string_scope.

(** C81.  The program that reads a file.  A Corda stream, whatever its encoding
    byte says (the other tools look at it): if the value in it does not decode an
    assertion fails; if the payload has two integers they are printed, with the
    fingerprint that the program knows, not the one in the blob; otherwise an
    exception escapes.  Nothing is undefined. *)
Theorem C81_streams : forall decode fuel fs prog name bytes e body,
  fs name = File bytes -> fits bytes -> corda_stream bytes e body ->
  (decode body = None -> reader_test1 decode fuel fs [prog; name] = Aborted) /\
  (forall t, decode body = Some t -> height t <= fuel ->
   (forall a b, integers t a b ->
      reader_test1 decode fuel fs [prog; name] = Exit 0 (lines [dec a ++ ", " ++ dec b; "Fingerprint = DSM123"]) false) /\
   ((forall a b, ~ integers t a b) -> reader_test1 decode fuel fs [prog; name] = Terminated)).
Proof. exact first_stream. Qed.
Print Assumptions C81_streams.
(** No file, another file, the wrong number of arguments. *)
Theorem C81_others : forall decode fuel fs prog name,
  (fs name = NoFile -> reader_test1 decode fuel fs [prog; name] = Terminated) /\
  (forall bytes, fs name = File bytes -> fits bytes -> 8 <= String.length bytes -> (forall e body, ~ corda_stream bytes e body) ->
     reader_test1 decode fuel fs [prog; name] = Terminated) /\
  (forall argv, length argv <> 2 -> reader_test1 decode fuel fs argv = Exit 1 "" true).
Proof.
  intros. split; [apply first_missing|]. split; [intros; eapply first_other; eauto|]. apply first_arguments.
Qed.
Print Assumptions C81_others.
(** The file that writer-test-01 makes, and one made from an object of the reader's own class. *)
Theorem C81_objects : forall val,
  read_from_file (object1 val) (lines [dec val ++ ", " ++ dec (val + 50); "Fingerprint = DSM123"]) /\
  read_from_file (reader_object1 val) (lines [dec val ++ ", " ++ dec val; "Fingerprint = DSM123"]).
Proof. split; [apply writers_file|apply own_file]. Qed.
Print Assumptions C81_objects.

(** A file with the object of writer-test-01; the letter T stands for what proton
    would write.  The same value with another encoding byte; an object with one
    property, which is taken for both; one with a string. *)
Example C81_ex : exists blob w t, serialise_blob (object1 100) new_writer = Ok blob w /\ forest blob = [t] /\
  decodes (fun _ => Some t) (fun _ => "T") blob /\ fits (magic ++ String "000" "T") /\ heights (forest blob) <= 20 /\
  corda_stream (magic ++ String "000" "T") DATA_AND_STOP "T" /\ integers t 100 150 /\
  reader_test1 (fun _ => Some t) 20 (fun _ => saved (fun _ => "T") blob) ["rt"; "file"] =
    Exit 0 (lines ["100, 150"; "Fingerprint = DSM123"]) false /\
  reader_test1 (fun _ => Some t) 20 (fun _ => File (magic ++ String "001" "T")) ["rt"; "file"] =
    Exit 0 (lines ["100, 150"; "Fingerprint = DSM123"]) false.
Proof.
  do 3 eexists. split; [vm_compute; reflexivity|]. split; [reflexivity|]. split; [eexists; split; reflexivity|].
  split; [cbn; repeat constructor|]. split; [vm_compute; repeat constructor|]. split; [reflexivity|].
  split; [do 2 eexists; repeat split; try (eexists; repeat split); vm_compute; reflexivity|]. split; vm_compute; reflexivity.
Qed.
Definition blob_with (x : tree) : tree :=
  Node ADescribed [Node (AULong 1) []; Node AList [Node ADescribed [Node (ASymbol "fp") []; Node AList [x]]]].
Example C81_ex_lenient : integers (blob_with (Node (AInt 7) [])) 7 7 /\ (forall a b, ~ integers (blob_with (Node (AString "7") [])) a b) /\
  reader_test1 (fun _ => Some (blob_with (Node (AInt 7) []))) 20 (fun _ => File (magic ++ String "000" "T")) ["rt"; "file"] =
    Exit 0 (lines ["7, 7"; "Fingerprint = DSM123"]) false /\
  reader_test1 (fun _ => Some (blob_with (Node (AString "7") []))) 20 (fun _ => File (magic ++ String "000" "T")) ["rt"; "file"] = Terminated.
Proof.
  split; [do 2 eexists; repeat split; try (eexists; repeat split); vm_compute; reflexivity|].
  split; [|split; vm_compute; reflexivity].
  intros a b (p & body & (_ & b0 & H1 & _ & H2 & _) & H3 & _ & (x & H4 & H5) & _).
  vm_compute in H1. injection H1 as <-. vm_compute in H2. injection H2 as <-. vm_compute in H3. injection H3 as <-. vm_compute in H4. injection H4 as <-. discriminate.
Qed.

(** C82.  The programs that serialise an object, save it and deserialise the blob:
    the file is what saving the blob gives, and the values that were written are
    printed, for all values; strings up to the first zero byte.  (The lines with
    a number come from the classes' own functions.) *)
Theorem C82_printed : forall encode fuel prog, 20 <= fuel ->
  (forall val, exists blob w, serialise_blob (reader_object2 val) new_writer = Ok blob w /\
     reader_test2 encode fuel [prog] val =
       (Some (saved encode blob), Exit 0 (lines ["Inner::deserialiseImple:1"; "Outer:: " ++ dec val]) false)) /\
  (forall a b c d, exists blob w, serialise_blob (reader_object3 a b c d) new_writer = Ok blob w /\
     reader_test3 encode fuel [prog] a b c d =
       (Some (saved encode blob),
        Exit 0 (lines ["Inner::deserialiseImpl:2"; "Inner::deserialiseImpl:2"; dec a ++ " " ++ dec b ++ " " ++ dec c ++ " " ++ dec d]) false)) /\
  (forall a b c d e f, exists blob w, serialise_blob (reader_object4 a b c d e f) new_writer = Ok blob w /\
     reader_test4 encode fuel [prog] a b c d e f =
       (Some (saved encode blob),
        Exit 0 (lines ["Inner::deserialiseImpl:6"; "Outer:: "; "  " ++ dec a; "  " ++ dec b; "  " ++ dec c; "  " ++ dec d; "  " ++ dec e; "  " ++ dec f]) false)) /\
  (forall cout_double cout_float a b c d e f, exists blob w, serialise_blob (reader_object5 a b c d e f) new_writer = Ok blob w /\
     reader_test5 encode fuel cout_double cout_float [prog] a b c d e f =
       (Some (saved encode blob),
        Exit 0 (lines ["Inner::deserialiseImpl:6"; "Outer:: "; "  " ++ dec a; "  " ++ up_to_nul b; "  " ++ cout_double c; "  " ++ dec d;
                       "  " ++ (if e then "1" else "0"); "  " ++ cout_float f]) false)).
Proof.
  intros encode fuel prog H. split; [intros; now apply text2|]. split; [intros; now apply text3|]. split; [intros; now apply text4|]. intros; now apply text5.
Qed.
Print Assumptions C82_printed.
(** The list is saved, too, but cannot be read: an exception escapes, always. *)
Theorem C82_list_refuted : forall encode fuel prog l, 20 <= fuel -> exists blob w, serialise_blob (reader_object6 l) new_writer = Ok blob w /\
  reader_test6 encode fuel [prog] l = (Some (saved encode blob), Terminated).
Proof. exact text6. Qed.
Print Assumptions C82_list_refuted.
(** With arguments, they do nothing. *)
Theorem C82_arguments : forall encode fuel cout_double cout_float argv, length argv <> 1 ->
  (forall val, reader_test2 encode fuel argv val = (None, Exit 1 "" false)) /\
  (forall a b c d, reader_test3 encode fuel argv a b c d = (None, Exit 1 "" false)) /\
  (forall a b c d e f, reader_test4 encode fuel argv a b c d e f = (None, Exit 1 "" false)) /\
  (forall a b c d e f, reader_test5 encode fuel cout_double cout_float argv a b c d e f = (None, Exit 1 "" false)) /\
  (forall l, reader_test6 encode fuel argv l = (None, Exit 1 "" false)).
Proof. intros. repeat split; intros; now apply arguments. Qed.
Print Assumptions C82_arguments.
(** What the blob-inspector shows of their files; the float ends it. *)
Theorem C82_inspected : forall fmt custom,
  (forall v, file_inspection fmt custom (reader_object1 v) (inl ("{ Parsed : { m_val : " ++ dec v ++ ", m_val2 : " ++ dec v ++ " } }"))) /\
  (forall v, file_inspection fmt custom (reader_object2 v) (inl ("{ Parsed : { m_a : { m_val : " ++ dec v ++ " } } }"))) /\
  (forall a b c d, file_inspection fmt custom (reader_object3 a b c d)
     (inl ("{ Parsed : { m_a : { m_val1 : " ++ dec a ++ ", m_val2 : " ++ dec b ++ " }, m_b : { m_val1 : " ++ dec c ++ ", m_val2 : " ++ dec d ++ " } } }"))) /\
  (forall a b c d e f, file_inspection fmt custom (reader_object4 a b c d e f)
     (inl ("{ Parsed : { m_a : { m_val1 : " ++ dec a ++ ", m_val2 : " ++ dec b ++ ", m_val3 : " ++ dec c ++
           ", m_val4 : " ++ dec d ++ ", m_val5 : " ++ dec e ++ ", m_val6 : " ++ dec f ++ " } } }"))) /\
  (forall l, file_inspection fmt custom (reader_object6 l) (inl ("{ Parsed : { m_val : [ " ++ String.concat ", " (map dec l) ++ " ] } }"))).
Proof.
  intros fmt custom. repeat split; intros; apply placed_file;
    auto using placed1, placed2, placed3, placed4, placed6, inspect1, inspect2, inspect3, inspect4, inspect6.
Qed.
Print Assumptions C82_inspected.
Theorem C82_inspected_refuted : forall fmt custom a b c d e f, file_inspection fmt custom (reader_object5 a b c d e f) (inr RuntimeError).
Proof. intros. apply placed_file; [apply placed5|apply inspect5]. Qed.
Print Assumptions C82_inspected_refuted.

(** The values in the programs. *)
Example C82_ex : let enc := fun _ => "T" in let file := File (magic ++ String "000" "T") in
  reader_test2 enc 20 ["rt"] 100 = (Some file, Exit 0 (lines ["Inner::deserialiseImple:1"; "Outer:: 100"]) false) /\
  reader_test3 enc 20 ["rt"] 1 2 3 4 = (Some file, Exit 0 (lines ["Inner::deserialiseImpl:2"; "Inner::deserialiseImpl:2"; "1 2 3 4"]) false) /\
  reader_test5 enc 20 (fun _ => "300") (fun _ => "69.96") ["rt"] 100 "Hello World" 0 4000000000 true 0 =
    (Some file, Exit 0 (lines ["Inner::deserialiseImpl:6"; "Outer:: "; "  100"; "  Hello World"; "  300"; "  4000000000"; "  1"; "  69.96"]) false) /\
  reader_test6 enc 20 ["rt"] [1; 2; 3; 4]%Z = (Some file, Terminated).
Proof. repeat split; vm_compute; reflexivity. Qed.
