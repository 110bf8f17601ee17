(** The rest of a serialiser's interface (libs/amqp/include/serialiser/
    ISerialiser.h:19-54): read, readString and write.  Readers.v has dump. *)
From Verif Require Import Base Proton TypeNames Schema Descriptors Factory Readers.
Open Scope string_scope.

(** What is in the std::any that comes back from ISerialiser.h:38.  (No reader
    returns a float or a char: see [readAndNext_generic].) *)
Inductive any : Type :=
| AnyInt (z : Z) | AnyLong (z : Z) | AnyDouble (bits : N) | AnyBool (b : bool) | AnyString (s : string)
| AnyFloat (bits : N) | AnyChar (z : Z)
| AnyNullptr.

Section Serialisers.
(** std::to_string of a double, and what serialisers installed by the user do. *)
Context (fmt_double : N -> string).
Context (custom_read : nat -> PM any) (custom_string : nat -> PM string) (custom_write : nat -> any -> PM unit).

(** property-readers: {Int:14-18,Long:11-15,Double:11-15,Bool:11-15,
    String:13-17,Float:11-15,Binary:13-17}PropertyReader.cxx; CompositeReader.cxx:
    21-25; RestrictedReader.h:28-30; PublicKeySerialiser.cxx:41-45.  The reader of
    binary values reads a bool. *)
Definition reader_read (r : reader) : PM any :=
  match r with
  | RProperty PInt => let! z := readAndNext_int in ret (AnyInt z)
  | RProperty PLong => let! z := readAndNext_long in ret (AnyLong z)
  | RProperty PDouble => let! b := readAndNext_double in ret (AnyDouble b)
  | RProperty PBoolean => let! b := readAndNext_bool in ret (AnyBool b)
  | RProperty PString => let! s := readAndNext_string false in ret (AnyString s)
  | RProperty PFloat => readAndNext_generic
  | RProperty PBinary => let! b := readAndNext_bool in ret (AnyBool b)
  | RComposite _ _ | REnum _ _ | RList _ _ | RArray _ _ | RMap _ _ _ => ret (AnyInt 1)
  | RPublicKey => ret AnyNullptr
  | RCustom _ which => custom_read which
  end.

(** The functions that follow those, and CompositeReader.cxx:29-36,
    RestrictedReader.h:35-37, PublicKeySerialiser.cxx:49-53.  The reader of binary
    values reads a char here. *)
Definition reader_readString (r : reader) : PM string :=
  match r with
  | RProperty PInt => let! z := readAndNext_int in ret (dec z)
  | RProperty PLong => let! z := readAndNext_long in ret (dec z)
  | RProperty PDouble => let! b := readAndNext_double in ret (fmt_double b)
  | RProperty PBoolean => let! b := readAndNext_bool in ret (bit b)
  | RProperty PString => readAndNext_string false
  | RProperty PFloat => readAndNext_generic
  | RProperty PBinary => readAndNext_generic
  | RComposite _ _ => next_ ;; auto_enter false (ret "Composite")
  | REnum _ _ | RList _ _ | RArray _ _ | RMap _ _ _ => ret "hello"
  | RPublicKey => ret ""
  | RCustom _ which => custom_string which
  end.

(** Writer.cxx:6-10 for all the library's own serialisers;
    PublicKeySerialiser.cxx:100-104. *)
Definition reader_write (r : reader) (v : any) : PM unit :=
  match r with
  | RPublicKey => throw RuntimeError
  | RCustom _ which => custom_write which v
  | _ => ret tt
  end.

(** [f.byType (ty)->m (..)], CompositeFactoryInternal.cxx:339-345. *)
Definition through {A} (f : factory) (ty : string) (m : reader -> PM A) : PM A :=
  match byType f ty with
  | Some i => match lock f i with Some r => m r | None => ub end
  | None => ub
  end.
End Serialisers.
