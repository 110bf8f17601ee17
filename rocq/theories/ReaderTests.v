(** The programs in bin/reader-tests.  The first reads an object from a file; the
    others serialise an object, save it, and deserialise the blob.  [main]s use
    fixed values for the objects; here they are parameters. *)
From Verif Require Import Base Proton TypeNames SpecTypes CordaFile Writer Deserialise Readers Tools Programs WriterTests.
Import List ListNotations.
Open Scope string_scope.

Definition endl : string := String "010" "".

(** ** The classes *)

(** reader-test-01/DeSerialiseMe.cxx:41-52: what deserialiseImpl reads.  The
    constructor from these (lines 28-37) casts each to the type that was read, so
    that the casts do not fail; the same is true of the other programs.  Also:
    reader-test-01/DeSerialiseMe.h:10-44 and DeSerialiseMe.cxx:9, 17-24; here the
    constructor does not add anything to the value (DeSerialiseMe.h:24-28). *)
Definition reader_program1 : program := program_of [("DeSerialiseMe", ("DSM123", [("m_val", Prim CInt); ("m_val2", PrimPtr CInt)]))] [].
Definition reader_object1 (val : Z) : item := WriterTests.object reader_program1 "DeSerialiseMe" [int val; IPrimPtr CInt (Some (OfInt val))].
Definition reader_classes1 : classes := fun _ => [RPrim CInt false; RPrim CInt true].

(** reader-test-02-nested-composite/DeSerialiseMe.h:23-85, DeSerialiseMe.cxx:9-89 *)
Definition reader_program2 : program :=
  program_of [("Inner", ("Inner123", [("m_val", Prim CInt)])); ("Outer", ("Outer123", [("m_a", class "Inner")]))] [].
Definition reader_object2 (val : Z) : item :=
  WriterTests.object reader_program2 "Outer" [WriterTests.object reader_program2 "Inner" [int val]].
Definition reader_classes2 : classes := fun c => if String.eqb c "Inner" then [RPrim CInt false] else [RClass "Inner" false].

(** reader-test-03-composite-ptr/DeSerialiseMe.h:15-80, DeSerialiseMe.cxx:9-91 *)
Definition reader_program3 : program :=
  program_of [("Inner", ("Inner123", [("m_val1", Prim CInt); ("m_val2", Prim CInt)]));
              ("Outer", ("Outer123", [("m_a", class "Inner"); ("m_b", Pointer (class "Inner"))]))] [].
Definition reader_object3 (a b c d : Z) : item :=
  WriterTests.object reader_program3 "Outer"
    [WriterTests.object reader_program3 "Inner" [int a; int b];
     IPointer (Some (WriterTests.object reader_program3 "Inner" [int c; int d]))].
Definition reader_classes3 : classes :=
  fun c => if String.eqb c "Inner" then [RPrim CInt false; RPrim CInt false] else [RClass "Inner" false; RClass "Inner" true].

(** reader-test-04-many-prims/DeSerialiseMe.h:15-82, DeSerialiseMe.cxx:3-92 *)
Definition reader_program4 : program :=
  program_of [("Inner", ("Inner123", [("m_val1", Prim CInt); ("m_val2", Prim CInt); ("m_val3", Prim CInt);
                                      ("m_val4", Prim CInt); ("m_val5", Prim CInt); ("m_val6", Prim CInt)]));
              ("Outer", ("Outer123", [("m_a", class "Inner")]))] [].
Definition reader_object4 (a b c d e f : Z) : item :=
  WriterTests.object reader_program4 "Outer"
    [WriterTests.object reader_program4 "Inner" [int a; int b; int c; int d; int e; int f]].
Definition reader_classes4 : classes :=
  fun c => if String.eqb c "Inner" then repeat (RPrim CInt false) 6 else [RClass "Inner" false].

(** reader-test-05-many-diff-prims/DeSerialiseMe.h:10-77, DeSerialiseMe.cxx:9-100;
    doubles and floats are their bits. *)
Definition reader_program5 : program :=
  program_of [("Inner", ("Inner123", [("m_val1", Prim CInt); ("m_val2", Prim CString); ("m_val3", Prim CDouble);
                                      ("m_val4", Prim CLong); ("m_val5", Prim CBool); ("m_val6", Prim CFloat)]));
              ("Outer", ("Outer123", [("m_a", class "Inner")]))] [].
Definition reader_object5 (a : Z) (b : string) (c : N) (d : Z) (e : bool) (f : N) : item :=
  WriterTests.object reader_program5 "Outer"
    [WriterTests.object reader_program5 "Inner"
       [int a; str b; WriterTests.double c; IPrim (OfLong d); IPrim (OfBool e); IPrim (OfFloat f)]].
Definition reader_classes5 : classes :=
  fun c => if String.eqb c "Inner"
           then [RPrim CInt false; RPrim Writer.CString false; RPrim CDouble false; RPrim CLong false; RPrim CBool false; RPrim CFloat false]
           else [RClass "Inner" false].

(** reader-test-06-int-list/DeSerialiseMe.h:11-38, DeSerialiseMe.cxx:6-50 *)
Definition reader_program6 : program :=
  program_of [("DeSerialiseMe", ("DSMe-123", [("m_val", Vector (Prim CInt))]))] [(Vector (Prim CInt), "IntVector")].
Definition reader_object6 (l : list Z) : item :=
  WriterTests.object reader_program6 "DeSerialiseMe" [vector reader_program6 (Prim CInt) (map int l)].
Definition reader_classes6 : classes := fun _ => [RVector false].

(** ** The programs *)

Section ReaderTests.
Context (decode : string -> option tree) (encode : list tree -> string) (fuel : nat).
(** How std::cout shows a double and a float. *)
Context (cout_double cout_float : N -> string).

(** What [main] does with the object that has been read.  The text is what it
    and the deserialiseImpl functions write to standard output.  An object of
    another shape cannot be returned for the classes above. *)
Definition goodbye (out : string) : result := Exit EXIT_SUCCESS out false.

(** reader-test-01/main.cxx:12-30.  Nothing is caught.  The encoding is not
    looked at. *)
Definition reader_test1 (fs : string -> file) (argv : list string) : result :=
  match argv with
  | [_; name] =>
      match open_ (fs name) default_config with
      | Ret cb =>
          match AMQPBlob_ decode cb with
          | Ret d =>
              match deserialise reader_classes1 fuel (RClass "DeSerialiseMe" false) d with
              | Ok (OClass _ [OPrim (OfInt val); OPrimPtr (OfInt val2)]) _ =>
                  goodbye (dec val ++ ", " ++ dec val2 ++ endl ++
                           "Fingerprint = " ++ fingerprint reader_program1 (class "DeSerialiseMe") ++ endl)
              | Ok _ _ | Throw _ _ => Terminated
              | Abort => Aborted
              | UB => Undefined
              | Fuel => Unended
              end
          | Exc _ => Terminated
          | Abrt => Aborted
          | Undef => Undefined
          | NoFuel => Unended
          end
      | Exc _ => Terminated
      | Abrt => Aborted
      | Undef => Undefined
      | NoFuel => Unended
      end
  | _ => Exit EXIT_FAILURE "" true
  end.

(** reader-test-0[2-6]/main.cxx: the object is serialised, saved as
    "serialized.bin" and read from the blob it was serialised to, which encoding
    it does not change.  The first component is what is saved, if anything is. *)
Definition there_and_back (argv : list string) (cs : classes) (c : string) (root : item) (use : Deserialise.object -> result) : option file * result :=
  match argv with
  | [_] =>
      match serialise_blob root new_writer with
      | Ok blob _ =>
          let saved := toFile (of_blob (encode (forest blob))) in
          (Some saved,
           match deserialise cs fuel (RClass c false) blob with
           | Ok o _ => use o
           | Throw _ _ => Terminated
           | Abort => Aborted
           | UB => Undefined
           | Fuel => Unended
           end)
      | Throw _ _ => (None, Terminated)
      | Abort => (None, Aborted)
      | UB => (None, Undefined)
      | Fuel => (None, Unended)
      end
  | _ => (None, Exit EXIT_FAILURE "" false)
  end.

(** reader-test-02-nested-composite/main.cxx:12-31; DeSerialiseMe.cxx:52.  The name
    is the Java name of the class. *)
Definition reader_test2 (argv : list string) (val : Z) : option file * result :=
  there_and_back argv reader_classes2 "Outer" (reader_object2 val) (fun o =>
    match o with
    | OClass _ [OClass _ [OPrim (OfInt v)]] =>
        goodbye ("Inner::deserialiseImple:1" ++ endl ++ java_of (class "Outer") ++ ":: " ++ dec v ++ endl)
    | _ => Terminated
    end).

(** reader-test-03-composite-ptr/main.cxx:12-34; DeSerialiseMe.cxx:49, once for each
    of the two. *)
Definition reader_test3 (argv : list string) (a b c d : Z) : option file * result :=
  there_and_back argv reader_classes3 "Outer" (reader_object3 a b c d) (fun o =>
    match o with
    | OClass _ [OClass _ [OPrim (OfInt v1); OPrim (OfInt v2)]; OClassPtr _ [OPrim (OfInt w1); OPrim (OfInt w2)]] =>
        goodbye ("Inner::deserialiseImpl:2" ++ endl ++ "Inner::deserialiseImpl:2" ++ endl ++
                 dec v1 ++ " " ++ dec v2 ++ " " ++ dec w1 ++ " " ++ dec w2 ++ endl)
    | _ => Terminated
    end).

(** One of the lines printed by tests 4 and 5. *)
Definition indented (s : string) : string := "  " ++ s ++ endl.

(** reader-test-04-many-prims/main.cxx:12-41; DeSerialiseMe.cxx:55 *)
Definition reader_test4 (argv : list string) (a b c d e f : Z) : option file * result :=
  there_and_back argv reader_classes4 "Outer" (reader_object4 a b c d e f) (fun o =>
    match o with
    | OClass _ [OClass _ [OPrim (OfInt v1); OPrim (OfInt v2); OPrim (OfInt v3); OPrim (OfInt v4); OPrim (OfInt v5); OPrim (OfInt v6)]] =>
        goodbye ("Inner::deserialiseImpl:6" ++ endl ++ java_of (class "Outer") ++ ":: " ++ endl ++
                 indented (dec v1) ++ indented (dec v2) ++ indented (dec v3) ++
                 indented (dec v4) ++ indented (dec v5) ++ indented (dec v6))
    | _ => Terminated
    end).

(** reader-test-05-many-diff-prims/main.cxx:12-40; DeSerialiseMe.cxx:63.  A bool is
    shown as a number. *)
Definition reader_test5 (argv : list string) (a : Z) (b : string) (c : N) (d : Z) (e : bool) (f : N) : option file * result :=
  there_and_back argv reader_classes5 "Outer" (reader_object5 a b c d e f) (fun o =>
    match o with
    | OClass _ [OClass _ [OPrim (OfInt v1); OPrim (OfString v2); OPrim (OfDouble v3); OPrim (OfLong v4); OPrim (OfBool v5); OPrim (OfFloat v6)]] =>
        goodbye ("Inner::deserialiseImpl:6" ++ endl ++ java_of (class "Outer") ++ ":: " ++ endl ++
                 indented (dec v1) ++ indented v2 ++ indented (cout_double v3) ++
                 indented (dec v4) ++ indented (if v5 then "1" else "0") ++ indented (cout_float v6))
    | _ => Terminated
    end).

(** reader-test-06-int-list/main.cxx:12-27 *)
Definition reader_test6 (argv : list string) (l : list Z) : option file * result :=
  there_and_back argv reader_classes6 "DeSerialiseMe" (reader_object6 l) (fun _ => goodbye "").
End ReaderTests.
