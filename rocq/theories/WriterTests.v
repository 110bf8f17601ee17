(** The programs in bin/writer-tests, which serialise an object of a few classes
    and write it to a file. *)
From Verif Require Import Base TypeNames SpecTypes Writer SpecWriter Programs.
Import List ListNotations.
Open Scope string_scope.

(** ** Putting programs and their objects together *)

(** A class of these programs (e.g. bin/writer-tests/writer-test-02/SerialiseMe.h:14-47)
    is not in a namespace.  It has a fingerprint and
    properties; each vector and map type has a fingerprint as well. *)
Definition class (n : string) : cpp := Obj ([], n).
Definition found {A} (n : string) (l : list (string * A)) : option A :=
  option_map snd (find (fun p => String.eqb (fst p) n) l).
Definition program_of (classes : list (string * (string * list (string * cpp)))) (containers : list (cpp * string)) : program :=
  {| types_of := (map (fun c => class (fst c)) classes ++ map fst containers)%list;
     declared := fun c => match found (snd c) classes with Some (_, ps) => ps | None => [] end;
     fingerprint := fun t =>
       match t with
       | Obj c => match found (snd c) classes with Some (fp, _) => fp | None => "" end
       | _ => match found (java_of t) (map (fun c => (java_of (fst c), snd c)) containers) with Some fp => fp | None => "" end
       end |}.

(** An object of a class, with the values of its properties in order, e.g.
    bin/writer-tests/writer-test-02/SerialiseMe.cxx:9-17. *)
Definition object (P : program) (n : string) (vs : list item) : item :=
  IObject (java_of (class n)) (fingerprint P (class n))
    (map (fun p => (fst (fst p), (java_of (snd (fst p)), snd p))) (combine (declared P ([], n)) vs)).
Definition vector (P : program) (e : cpp) (vs : list item) : item :=
  IVector (java_of (Vector e)) (fingerprint P (Vector e)) vs.
(** A map with its entries in the order of their keys, SerializableMap.h:37-51. *)
Definition map_of (P : program) (k v : cpp) (kvs : list (item * item)) : item :=
  IMap (java_of (Map k v)) (fingerprint P (Map k v)) kvs.
Definition int (z : Z) : item := IPrim (OfInt z).
Definition str (s : string) : item := IPrim (OfString s).
Definition double (b : N) : item := IPrim (OfDouble b).

(** ** The programs *)

(** bin/writer-tests/writer-test-01/DeSerialiseMe.h:10-33, SerialiseMe.cxx:5-12,
    DeSerialiserMe.cxx:5.  The constructor adds 50 (DeSerialiseMe.h:27). *)
Definition program1 : program :=
  program_of [("DeSerialiseMe", ("DSM123", [("m_val", Prim CInt); ("m_val2", PrimPtr CInt)]))] [].
Definition object1 (val : Z) : item := object program1 "DeSerialiseMe" [int val; IPrimPtr CInt (Some (OfInt (val + 50)))].

(** writer-test-02/SerialiseMe.h:14-47, SerialiseMe.cxx:5-17 *)
Definition program2 : program :=
  program_of [("DeSerialiseMe", ("DSM123", [("m_a", Prim CInt); ("m_b", Prim CInt); ("m_c", Prim CInt)]))] [].
Definition object2 (a b c : Z) : item := object program2 "DeSerialiseMe" [int a; int b; int c].

(** writer-test-03/SerialiseMe.h:14-41, SerialiseMe.cxx:5-16 *)
Definition program3 : program :=
  program_of [("DeSerialiseMe", ("DSM123", [("m_a", Prim CString); ("m_b", Prim CString)]))] [].
Definition object3 (a b : string) : item := object program3 "DeSerialiseMe" [str a; str b].

(** writer-test-04/SerialiseMe.h:15-61, SerialiseMe.cxx:9-38 *)
Definition program4 : program :=
  program_of
    [("Inner", ("Inner-123", [("m_a", Prim CInt); ("m_b", Prim CString); ("m_c", Prim CBool); ("m_d", Prim CDouble); ("m_e", Prim CFloat)]));
     ("Outer", ("Outer-123", [("m_a", class "Inner")]))] [].
Definition object4 (a : Z) (b : string) (c : bool) (d e : N) : item :=
  object program4 "Outer" [object program4 "Inner" [int a; str b; IPrim (OfBool c); double d; IPrim (OfFloat e)]].

(** writer-test-05/SerialiseMe.h:10-31, SerialiseMe.cxx:7-22.  Given the a_ and b_ of
    an object and of the objects that its pointer leads to; main.cxx:18-20 has
    three. *)
Definition program5 : program :=
  program_of [("Recursive", ("Outer-123", [("m_a", Prim CInt); ("m_b", Prim CString); ("m_c", Pointer (class "Recursive"))]))] [].
Fixpoint object5 (a : Z) (b : string) (rest : list (Z * string)) : item :=
  object program5 "Recursive"
    [int a; str b; IPointer (match rest with [] => None | (a', b') :: rest' => Some (object5 a' b' rest') end)].

(** writer-test-06-lists/SerialiseMe.h:15-33, SerialiseMe.cxx:8-24 *)
Definition program6 : program :=
  program_of [("ContainsList", ("Contains-List-123", [("m_list", Vector (Prim CString))]))] [(Vector (Prim CString), "vector-of-string")].
Definition object6 (list_ : list string) : item := object program6 "ContainsList" [vector program6 (Prim CString) (map str list_)].

(** writer-test-07-int-list/SerialiseMe.h:11-29, SerialiseMe.cxx:7-23 *)
Definition program7 : program :=
  program_of [("ContainsList", ("ContainsList-123", [("m_list", Vector (Prim CInt))]))] [(Vector (Prim CInt), "int-vector")].
Definition object7 (list_ : list Z) : item := object program7 "ContainsList" [vector program7 (Prim CInt) (map int list_)].

(** writer-test-08-composite-list/SerialiseMe.h:13-55, SerialiseMe.cxx:7-32 *)
Definition program8 : program :=
  program_of
    [("Composite", ("Composite123", [("m_a", Prim CString); ("m_b", Prim CDouble)]));
     ("CompositeList", ("CompositeList123", [("m_list", Vector (class "Composite"))]))]
    [(Vector (class "Composite"), "Composite123Vector")].
Definition object8 (list_ : list (string * N)) : item :=
  object program8 "CompositeList"
    [vector program8 (class "Composite") (map (fun c => object program8 "Composite" [str (fst c); double (snd c)]) list_)].

(** writer-test-09-list-lists/SerialiseMe.h:15-37, SerialiseMe.cxx:7-27.  (The vector
    of vectors is a std::vector<SerializableVector<int>>, which has the last of
    the fingerprints.) *)
Definition program9 : program :=
  program_of [("ListOfLists", ("LOL123", [("m_list", Vector (Vector (Prim CInt)))]))]
    [(Vector (Prim CInt), "intList"); (Vector (Vector (Prim CInt)), "ListIntList2")].
Definition object9 (list_ : list (list Z)) : item :=
  object program9 "ListOfLists" [vector program9 (Vector (Prim CInt)) (map (fun l => vector program9 (Prim CInt) (map int l)) list_)].

(** writer-test-10-map-int-int/SerialiseMe.h:14-35, SerialiseMe.cxx:9-30 *)
Definition program10 : program :=
  program_of [("MapIntInt", ("MapIntInt", [("m_map", Map (Prim CInt) (Prim CInt))]))] [(Map (Prim CInt) (Prim CInt), "MAP2-int-int")].
Definition object10 (map_ : list (Z * Z)) : item :=
  object program10 "MapIntInt" [map_of program10 (Prim CInt) (Prim CInt) (map (fun kv => (int (fst kv), int (snd kv))) map_)].

(** writer-test-11-map-int-composite/SerialiseMe.h:16-60, SerialiseMe.cxx:5-32.  Its
    constructor makes one map (50-57); here it is an argument. *)
Definition program11 : program :=
  program_of
    [("Inner", ("FP-Inner", [("m_a", Prim CString)])); ("DeSerialiseMe", ("FP-DSM", [("m_map", Map (Prim CInt) (class "Inner"))]))]
    [(Map (Prim CInt) (class "Inner"), "FP-MapItoInner")].
Definition object11 (m_map : list (Z * string)) : item :=
  object program11 "DeSerialiseMe"
    [map_of program11 (Prim CInt) (class "Inner") (map (fun kv => (int (fst kv), object program11 "Inner" [str (snd kv)])) m_map)].

(** writer-test-12-map-int-list-composite/SerialiseMe.h:16-66, SerialiseMe.cxx:5-42.
    Again the map is an argument. *)
Definition program12 : program :=
  program_of
    [("Inner", ("FP-Inner", [("m_a", Prim CString); ("m_b", Vector (Prim CInt))]));
     ("DeSerialiseMe", ("FP-DSM", [("m_map", Map (Prim CInt) (Vector (class "Inner")))]))]
    [(Vector (Prim CInt), "FP-IntVector"); (Vector (class "Inner"), "FP-InnerVector");
     (Map (Prim CInt) (Vector (class "Inner")), "FP-PANTS")].
Definition inner12 (i : string * list Z) : item := object program12 "Inner" [str (fst i); vector program12 (Prim CInt) (map int (snd i))].
Definition object12 (m_map : list (Z * list (string * list Z))) : item :=
  object program12 "DeSerialiseMe"
    [map_of program12 (Prim CInt) (Vector (class "Inner"))
       (map (fun kv => (int (fst kv), vector program12 (class "Inner") (map inner12 (snd kv)))) m_map)].
