(** Deserialising with classes whose deserialiseImpl decides what to read by what it
    has read, throws, or catches exceptions.  The functions are those of
    Deserialise.v, with programs in place of lists of types. *)
From Verif Require Import Base Proton Writer Deserialise.
Open Scope string_scope.

(** What the deserialiseImpl and then the constructor of a class do with
    [sf_.read<T> (blob_)] (libs/amqp/include/assembler/SerialiserFactory.h:88-95); see
    libs/amqp/src/test/RoundTripTests.cxx:124-138.  [Make xs]: an object with these
    properties is made; [Fail e]: an exception is thrown, by either of the two (for
    example std::bad_any_cast, which is a std::bad_cast); [Get t k]: a [t] is read,
    and [k] says what is done with it; [Attempt t k h]: a [t] is read in a try block,
    and [h] is what is done when that throws. *)
Inductive program : Type :=
| Make (properties : list object)
| Fail (e : exn)
| Get (t : ctype) (k : object -> program)
| Attempt (t : ctype) (k : object -> program) (h : exn -> program).

(** The classes, by name. *)
Definition programs : Type := string -> program.

Section Read.
Context (cs : programs).

Section Follow.
Context (rd : ctype -> PM object).
(** Each [sf_.read<T> (blob_)] is run when it is reached (SerialiserFactory.h:88-95). *)
Fixpoint follow (p : program) : PM (list object) :=
  match p with
  | Make xs => ret xs
  | Fail e => throw e
  | Get t k => let! x := rd t in follow (k x)
  | Attempt t k h => fun d =>
      match rd t d with
      | Ok x d' => follow (k x) d'
      | Throw e d' => follow (h e) d'
      | Abort => Abort
      | UB => UB
      | Fuel => Fuel
      end
  end.
End Follow.

(** PropertyReader<T>::read, SerialiserFactoryReaders.h:30-84, with ReadNonPrim,
    ReadNonPrimitive.h:28-61 and 72-83; AutoComposite closes the object on every
    path once startComposite has returned. *)
Fixpoint read_with (fuel : nat) (t : ctype) : PM object :=
  match fuel with
  | 0 => fun _ => Fuel
  | S fuel' =>
      match t with
      | RPrim p ptr => read_prim p ptr
      | RClass c ptr =>
          read_startComposite ;;
          finally (let! xs := follow (read_with fuel') (cs c) in
                   ret (if ptr then OClassPtr c xs else OClass c xs)) endComposite
      | RVector _ => read_startComposite ;; finally vector_deserialiseImpl endComposite
      end
  end.

(** SerialiserFactory.h:106-113 *)
Definition deserialise_with (fuel : nat) (t : ctype) : PM object := readyPayload ;; read_with fuel t.
End Read.

(** A class that reads its properties one after the other, as in
    bin/reader-tests/reader-test-01/DeSerialiseMe.cxx:41-52. *)
Fixpoint straight (read_so_far : list object) (ts : list ctype) : program :=
  match ts with
  | [] => Make (rev read_so_far)
  | t :: ts' => Get t (fun x => straight (x :: read_so_far) ts')
  end.
