(** The model run on the data that come with the code: the tests of /repo with the
    results they expect, and files written by the programs in /repo.  These are
    tests of the model, not properties. *)
From Verif Require Import Base Proton TypeNames CordaFile Schema Ordering Print Factory Readers Blob Amqp Tools Writer Programs WriterTests ReaderTests Numbers TestFiles.
Import List ListNotations.
Open Scope string_scope.

(** ** bin/blob-inspector/test/blob-inspector-test.cxx *)

(** The files were written by Corda.  The tests call BlobInspector::dump with a
    configuration that ignores the header, as [main] does; the model goes from the
    bytes of the file to the text.  [mo] is the order of evaluation of arguments
    that the language leaves open. *)
Definition inspect (custom : nat -> option string -> PM ivalue) (mo : bool) (bytes : string) : result :=
  blob_inspector amqp_decode double_text custom mo true 60 (fun _ => File bytes) ["blob-inspector"; "file"].
Definition prints (s : string) : result := Exit 0 (s ++ String "010" "") false.

Example test_i_ : forall custom mo, inspect custom mo file_i_ = prints "{ Parsed : { a : 69 } }".
Proof. intros custom []; vm_compute; reflexivity. Qed.
Example test_ii_ : forall custom mo, inspect custom mo file_ii_ = prints "{ Parsed : { a : 1, b : 2 } }".
Proof. intros custom []; vm_compute; reflexivity. Qed.
(** ... where the test is switched off: it "fails because we're not mapping the
    stored property order onto the construction order" (lines 44-57). *)
Example test_iii_ : forall custom mo, inspect custom mo file_iii_ = prints "{ Parsed : { a : 10, b : 30, c : 20 } }".
Proof. intros custom []; vm_compute; reflexivity. Qed.
Example test__i__i__ : forall custom mo, inspect custom mo file__i__i__ = prints "{ Parsed : { a : { a : 1000 }, b : { a : 200 } } }".
Proof. intros custom []; vm_compute; reflexivity. Qed.
Example test_l_ : forall custom mo, inspect custom mo file_l_ = prints "{ Parsed : { x : 100000000000 } }".
Proof. intros custom []; vm_compute; reflexivity. Qed.
Example test_Oi_ : forall custom mo, inspect custom mo file_Oi_ = prints "{ Parsed : { a : 1 } }".
Proof. intros custom []; vm_compute; reflexivity. Qed.
Example test_Ai_ : forall custom mo, inspect custom mo file_Ai_ = prints "{ Parsed : { z : [ 1, 2, 3, 4, 5, 6 ] } }".
Proof. intros custom []; vm_compute; reflexivity. Qed.
Example test_Li_ : forall custom mo, inspect custom mo file_Li_ = prints "{ Parsed : { a : [ 1, 2, 3, 4, 5, 6 ] } }".
Proof. intros custom []; vm_compute; reflexivity. Qed.
Example test_L_i__ : forall custom mo, inspect custom mo file_L_i__ = prints "{ Parsed : { listy : [ { a : 1 }, { a : 2 }, { a : 3 } ] } }".
Proof. intros custom []; vm_compute; reflexivity. Qed.
Example test_Le_ : forall custom mo, inspect custom mo file_Le_ = prints "{ Parsed : { listy : [ A, B, C ] } }".
Proof. intros custom []; vm_compute; reflexivity. Qed.
(** ... which expects a std::runtime_error for this file; main does not catch it. *)
Example test_Le_2 : forall custom mo, inspect custom mo file_Le_2 = Terminated.
Proof. intros custom []; vm_compute; reflexivity. Qed.
Example test_Mis_ : forall custom mo, inspect custom mo file_Mis_ = prints "{ Parsed : { a : { 1 : ""two"", 3 : ""four"", 5 : ""six"" } } }".
Proof. intros custom []; vm_compute; reflexivity. Qed.
Example test_MiLs_ : forall custom mo, inspect custom mo file_MiLs_ = prints "{ Parsed : { a : { 1 : [ ""two"", ""three"", ""four"" ], 5 : [ ""six"" ], 7 : [  ] } } }".
Proof. intros custom []; vm_compute; reflexivity. Qed.
Example test_Mi_is__ : forall custom mo, inspect custom mo file_Mi_is__ = prints "{ Parsed : { a : { 1 : { a : 2, b : ""three"" }, 4 : { a : 5, b : ""six"" }, 7 : { a : 8, b : ""nine"" } } } }".
Proof. intros custom []; vm_compute; reflexivity. Qed.
Example test_Pls_ : forall custom mo, inspect custom mo file_Pls_ = prints "{ Parsed : { a : { first : 1, second : ""two"" } } }".
Proof. intros custom []; vm_compute; reflexivity. Qed.
Example test_e_ : forall custom mo, inspect custom mo file_e_ = prints "{ Parsed : { e : A } }".
Proof. intros custom []; vm_compute; reflexivity. Qed.
Example test_i_is__ : forall custom mo, inspect custom mo file_i_is__ = prints "{ Parsed : { a : 1, b : { a : 2, b : ""three"" } } }".
Proof. intros custom []; vm_compute; reflexivity. Qed.
Example test_Ci_ : forall custom mo, inspect custom mo file_Ci_ = prints "{ Parsed : { z : [ 1, 2, 3 ] } }".
Proof. intros custom []; vm_compute; reflexivity. Qed.
Example test__i_LMis_l__ : forall custom mo, inspect custom mo file__i_LMis_l__ = prints "{ Parsed : { x : [ { 1 : ""two"", 3 : ""four"", 5 : ""six"" }, { 7 : ""eight"", 9 : ""ten"" } ], y : { x : 1000000 }, z : { a : 666 } } }".
Proof. intros custom []; vm_compute; reflexivity. Qed.
Example test_ALd_ : forall custom mo, inspect custom mo file_ALd_ = prints "{ Parsed : { a : [ [ 10.100000, 11.200000, 12.300000 ], [  ], [ 13.400000 ] ] } }".
Proof. intros custom []; vm_compute; reflexivity. Qed.
Example test_p_i___null : forall custom mo, inspect custom mo file_p_i___null = prints "{ Parsed : { a : <<NULL>> } }".
Proof. intros custom []; vm_compute; reflexivity. Qed.
Example test_p_i___notnull : forall custom mo, inspect custom mo file_p_i___notnull = prints "{ Parsed : { a : { a : 100 } } }".
Proof. intros custom []; vm_compute; reflexivity. Qed.
Example test_Ls_ : forall custom mo, inspect custom mo file_Ls_ = prints "{ Parsed : { a : [ ""Goodbye"", ""cruel"", ""world"" ] } }".
Proof. intros custom []; vm_compute; reflexivity. Qed.
Example test_i__dp : forall custom mo, inspect custom mo file_i__dp = prints "{ Parsed : { a : 69 } }".
Proof. intros custom []; vm_compute; reflexivity. Qed.
Example test_isR_ : forall custom mo, inspect custom mo file_isR_ = prints "{ Parsed : { m_a : 5, m_b : ""six"", m_c : { m_a : 3, m_b : ""four"", m_c : { m_a : 1, m_b : ""two"", m_c : <<NULL>> } } } }".
Proof. intros custom []; vm_compute; reflexivity. Qed.
(** ** Files written by the library *)

(** The bytes in the file that [toFile] writes for an object. *)
Definition bytes_written (o : item) : string :=
  match serialise_blob o new_writer with
  | Ok b _ => match toFile (of_blob (amqp_encode (forest b))) with File s => s | _ => "" end
  | _ => ""
  end.

(** bin/reader-tests/reader-test-01/writer-test-1-op, by an older writer-test-01
    (another fingerprint, and 100 where there now is 150). *)
Example written_by_test_1 :
  bytes_written (IObject "DeSerialiseMe" "fingerprint123"
    [("m_val", ("int", IPrim (OfInt 100))); ("m_val2", ("int", IPrimPtr CInt (Some (OfInt 100))))]) = written_1.
Proof. vm_compute. reflexivity. Qed.
(** bin/reader-tests/reader-test-03-composite-ptr/serialized.bin; the values are
    those of DeSerialiseMe.h:60-62. *)
Example written_by_test_3 : bytes_written (reader_object3 1 2 3 4) = written_3.
Proof. vm_compute. reflexivity. Qed.
(** bin/reader-tests/reader-test-04-many-prims/serialized.bin *)
Example written_by_test_4 : bytes_written (reader_object4 100 200 300 400 500 600) = written_4.
Proof. vm_compute. reflexivity. Qed.

(** ** libs/amqp/src/test/OrderedTypeNotationTest.cxx *)

Section OTN.
(** Lines 30-53; scores are 0, 1 and 2. *)
Definition otn_dep (x y : string * list string) : res nat :=
  Ret (if existsb (String.eqb (fst y)) (snd x) then 1 else if existsb (String.eqb (fst x)) (snd y) then 2 else 0).
Definition otn (l : list (string * list string)) : res string :=
  match inserts (string * list string) otn_dep l [] with
  | Ret levels => Ret (String.concat " " (map fst (List.concat levels)))
  | Exc e => Exc e | Abrt => Abrt | Undef => Undef | NoFuel => NoFuel
  end.
Example otn_singleInsert : otn [("A", [])] = Ret "A". Proof. reflexivity. Qed.
Example otn_twoInserts : otn [("A", []); ("B", [])] = Ret "B A". Proof. reflexivity. Qed.
Example otn_A_depends_on_B : otn [("A", ["B"]); ("B", [])] = Ret "A B". Proof. reflexivity. Qed.
Example otn_B_depends_on_A : otn [("A", []); ("B", ["A"])] = Ret "B A". Proof. reflexivity. Qed.
Example otn_three_1 : otn [("A", []); ("B", ["A"]); ("C", ["A"])] = Ret "B C A". Proof. reflexivity. Qed.
Example otn_three_2 : otn [("A", ["B"]); ("B", ["C"]); ("C", [])] = Ret "A B C". Proof. reflexivity. Qed.
Example otn_three_3 : otn [("C", []); ("A", ["B"]); ("B", ["C"])] = Ret "A B C". Proof. reflexivity. Qed.
Example otn_three_4 : otn [("C", []); ("B", ["C"]); ("A", ["B"])] = Ret "A B C". Proof. reflexivity. Qed.
Example otn_three_5 : otn [("B", ["C"]); ("C", []); ("A", ["B"])] = Ret "A B C". Proof. reflexivity. Qed.
End OTN.

(** ** libs/amqp/src/test/Map.cxx and List.cxx *)

(** TestUtils.cxx: a list, a map and an enum; fingerprints are random there. *)
Definition test_type (source name : string) (choices : list string) : notation :=
  match Restricted_make ("net.corda:" ++ name) name "label" [] source choices with
  | Ret r => TRestricted r
  | _ => TComposite {| c_name := ""; c_label := ""; c_provides := []; c_descriptor := ""; c_fields := [] |}
  end.
Definition test_list (of_ : string) : notation := test_type "list" ("java.util.List<" ++ of_ ++ ">") [].
Definition test_map (of_ to_ : string) : notation := test_type "map" ("java.util.Map<" ++ of_ ++ ", " ++ to_ ++ ">") [].
Definition test_enum (e : string) : notation := test_type "list" ("net.corda." ++ e) ["a"; "b"].
Definition levels_text (l : list notation) : res string :=
  match inserts notation dependsOn l [] with
  | Ret levels => Ret (print_levels n_name levels)
  | Exc e => Exc e | Abrt => Abrt | Undef => Undef | NoFuel => NoFuel
  end.
Definition lines (l : list string) : string := texts (map (fun s => s ++ eol) l).

Definition l_string := test_list "string".
Definition m_list := test_map "int" (n_name l_string).
Definition result1 : string :=
  lines ["level 1"; "    * java.util.List<string>"; ""; "level 2"; "    * java.util.Map<int, java.util.List<string>>"; ""].
Example map_dependsOn1 : Forall (fun l => levels_text l = Ret result1) [[l_string; m_list]; [m_list; l_string]].
Proof. repeat constructor; vm_compute; reflexivity. Qed.

Definition e_eee := test_enum "eee".
Definition l_eee := test_list (n_name e_eee).
Definition m_eee := test_map "int" (n_name l_eee).
Definition result2 : string :=
  lines ["level 1"; "    * net.corda.eee"; ""; "level 2"; "    * java.util.List<net.corda.eee>"; "";
         "level 3"; "    * java.util.Map<int, java.util.List<net.corda.eee>>"; ""].
Example map_dependsOn2 : Forall (fun l => levels_text l = Ret result2)
  [[l_eee; m_eee; e_eee]; [l_eee; e_eee; m_eee]; [m_eee; l_eee; e_eee]; [m_eee; e_eee; l_eee]; [e_eee; l_eee; m_eee]; [e_eee; m_eee; l_eee]].
Proof. repeat constructor; vm_compute; reflexivity. Qed.

Example list_dependsOn1 : let list1 := test_list "string" in let list2 := test_list (n_name list1) in
  dependsOn list1 list2 = Ret 1 /\ dependsOn list2 list1 = Ret 2.
Proof. split; vm_compute; reflexivity. Qed.

Example map_name1 : mapType "java.util.Map<int, string>" = Ret ("java.util.Map", "int", "string").
Proof. reflexivity. Qed.
Example map_name2 : mapType "java.util.Map<int, java.util.List<string>>" = Ret ("java.util.Map", "int", "java.util.List<string>").
Proof. reflexivity. Qed.
Example map_name3 : mapType "java.util.Map<java.util.Pair<int, int>, java.util.List<string>>"
  = Ret ("java.util.Map", "java.util.Pair<int, int>", "java.util.List<string>").
Proof. reflexivity. Qed.
Example list_name : listType "java.util.list<int>" = Ret ("java.util.list", "int"). Proof. reflexivity. Qed.

(** ** libs/amqp/src/test/SchemaUtils.cxx and RestrictedDescriptor.cxx *)
Example schema_utils_1 : listType "a<b>" = Ret ("a", "b"). Proof. reflexivity. Qed.
Example schema_utils_2 : listType "a<b<c>>" = Ret ("a", "b<c>"). Proof. reflexivity. Qed.
Example schema_utils_3 : listType "a" = Ret ("a", ""). Proof. reflexivity. Qed.
Example schema_utils_4 : exists v, nestedGenericTypes "java.util.List<java.util.Map<c, d>>" = Ret v /\ List.length v = 4 /\
  incl ["c"; "d"; "java.util.Map<c, d>"; "java.util.List<java.util.Map<c, d>>"] v.
Proof. eexists. split; [vm_compute; reflexivity|]. split; [reflexivity|]. intros x H. cbn in *. intuition. Qed.
Example makePrims : map makePrim ["int"; "int[]"; "java.lang.Integer"; "java.lang.Integer[]"; "java.lang.Integer[], java.lang.Integer"]
  = ["int"; "int[]"; "int"; "int[]"; "int[], int"].
Proof. vm_compute. reflexivity. Qed.

(** ** libs/amqp/src/test/Single.cxx and Pair.cxx *)
Example single_string : show (IText None "Hello") = "Hello". Proof. reflexivity. Qed.
Example single_list : show (IBrackets None (map (fun z => IText None (dec z)) [1; 2; 3; 4; 5]%Z)) = "[ 1, 2, 3, 4, 5 ]". Proof. reflexivity. Qed.
Example pair_string : show (IText (Some "Left") "Hello") = "Left : Hello". Proof. reflexivity. Qed.
Example pair_int : show (IText (Some "Left") (dec 101)) = "Left : 101". Proof. reflexivity. Qed.
(** 10.0 is 0x4024000000000000. *)
Example pair_UP1 : show (IText (Some "property") (double_text 0x4024000000000000)) = "property : 10.000000". Proof. vm_compute. reflexivity. Qed.
Example pair_UP2 : show (IBraces (Some "Vector") [IText (Some "first") (dec 1); IText (Some "second") (dec 2)]) = "Vector : { first : 1, second : 2 }".
Proof. reflexivity. Qed.

(** ** libs/corda-utils/test/TypeTests.cxx: javaTypeName *)
Example java_names : map javaTypeName
    [CNamed "A"; CNamed "net::B"; CNamed "a::b::C"; CVector (CNamed "int"); CVector (CNamed "a::b::C");
     CMap (CNamed "int") (CNamed "int"); CMap (CNamed "int") (CVector TypeNames.CString);
     CNamed "(anonymous namespace)::Anon"; CNamed "(anonymous namespace)::Anon::Anon2"]
  = ["A"; "net.B"; "a.b.C"; "java.util.List<int>"; "java.util.List<a.b.C>";
     "java.util.Map<int,int>"; "java.util.Map<int,java.util.List<string>>"; "Anon"; "Anon.Anon2"].
Proof. vm_compute. reflexivity. Qed.
