(** Deserialising into C++ objects: SerialiserFactory::deserialise and read,
    libs/amqp/include/assembler/{SerialiserFactory.h, SerialiserFactoryReaders.h,
    ReadPrimitive.h, ReadNonPrimitive.h}, PrimToSerialiser<T>::get and
    AMQPBlob::{readyPayload, startComposite, endComposite, endPrim}. *)
From Verif Require Import Base Proton Writer.
Open Scope string_scope.

(** ** C++ types and objects *)

(** The type T of a call [sf_.read<T> (blob_)], SerialiserFactory.h:88-95: a
    primitive, a class or a SerializableVector, or a pointer to one.
    (SerializableMap has no deserialiseImpl and does not compile.) *)
Inductive ctype : Type :=
| RPrim (t : prim_type) (pointer : bool)
| RClass (name : string) (pointer : bool)
| RVector (pointer : bool).

(** A class is what its deserialiseImpl reads, in order; see for example
    libs/amqp/src/test/RoundTripTests.cxx:124-138.  Its constructor from
    std::vector<std::any> keeps what was read. *)
Definition classes : Type := string -> list ctype.

(** What a read gives back: ReadPrimitive.h:22-54, ReadNonPrimitive.h:28-61. *)
Inductive object : Type :=
| OPrim (v : prim_value)
| OPrimPtr (v : prim_value)
| OClass (name : string) (properties : list object)
| OClassPtr (name : string) (properties : list object).

(** ** Primitives *)

(** Conversion of proton's character to char, PrimToSerializer.h:171. *)
Definition to_char (n : N) : Z := ((Z.of_N n + 128) mod 256 - 128)%Z.

(** PrimToSerialiser<T>::get, libs/amqp/src/serialiser/PrimToSerializer.h:55-59,
    74-78, 93-97, 112-116, 131-135, 150-154, 169-173.  The string one makes a
    std::string from a C string, which is undefined for a null pointer. *)
Definition prim_get (t : prim_type) : PM prim_value :=
  match t with
  | CInt => attest_is_int ;; fun d => Ok (OfInt (pn_get_int d)) d
  | CLong => attest_is_long ;; fun d => Ok (OfLong (pn_get_long d)) d
  | CDouble => attest_is_double ;; fun d => Ok (OfDouble (pn_get_double d)) d
  | CBool => attest_is_bool ;; fun d => Ok (OfBool (pn_get_bool d)) d
  | CFloat => attest_is_float ;; fun d => Ok (OfFloat (pn_get_float d)) d
  | CChar => attest_is_char ;; fun d => Ok (OfChar (to_char (pn_get_char d))) d
  | CString => attest_is_string false ;;
               fun d => match pn_get_string d with Some s => Ok (OfString (c_str s)) d | None => UB end
  end.

(** PropertyReader<T, false>, SerialiserFactoryReaders.h:30-54, with
    ReadPrimitive, ReadPrimitive.h:22-54; the scope ends with endPrim,
    AMQPBlob.cxx:391-395. *)
Definition read_prim (t : prim_type) (pointer : bool) : PM object :=
  finally (let! v := prim_get t in ret (if pointer then OPrimPtr v else OPrim v)) pn_next.

(** ** Composites *)

(** AMQPBlob.cxx:355-368 *)
Definition read_startComposite : PM unit :=
  attest_is_described ;;
  (fun d => Ok tt (w_enter d)) ;;
  readAndNext_ulong ;;
  attest_is_list ;;
  (fun d => Ok tt (w_enter d)).

(** AMQPBlob.cxx:372-379 *)
Definition endComposite (d : data) : data := pn_next (pn_exit (pn_exit d)).

(** SerializableVector::deserialiseImpl, SerializableVector.h:115-136: flows off
    the end of a function that returns a value.  It is reached through
    ReadNonPrimitive.h:72-83, which makes the same check first, and for pointers
    through ReadNonPrimitive.h:46-61 (the specialisation at 63-68 is for a type
    that is not a pointer and is never chosen). *)
Definition vector_deserialiseImpl : PM object := attest_is_list ;; ub.

(** PropertyReader<T, true>, SerialiserFactoryReaders.h:58-84: the scope is
    entered only if startComposite returns. *)
Section Read.
Context (cs : classes).
Fixpoint read (fuel : nat) (t : ctype) : PM object :=
  match fuel with
  | 0 => fun _ => Fuel
  | S fuel' =>
      match t with
      | RPrim p ptr => read_prim p ptr
      | RClass c ptr =>
          read_startComposite ;;
          finally
            (let! vs := (fix properties (ts : list ctype) : PM (list object) :=
                 match ts with
                 | [] => ret []
                 | t :: ts' => let! v := read fuel' t in let! vs := properties ts' in ret (v :: vs)
                 end) (cs c) in
             ret (if ptr then OClassPtr c vs else OClass c vs)) endComposite
      | RVector _ => read_startComposite ;; finally vector_deserialiseImpl endComposite
      end
  end.

(** AMQPBlob.cxx:326-351.  The key is compared with the envelope's only for
    debug output. *)
Definition readyPayload : PM unit :=
  attest_is_described ;;
  (fun d => Ok tt (w_enter d)) ;;
  readAndNext_ulong ;;
  attest_is_list ;;
  (fun d => Ok tt (w_enter d)) ;;
  attest_is_described ;;
  auto_enter false (ret tt).

(** SerialiserFactory.h:106-113 *)
Definition deserialise (fuel : nat) (t : ctype) : PM object := readyPayload ;; read fuel t.
End Read.
