(** What deserialising writes to standard output on the way: the functions of
    Deserialise.v once more with the debug lines of the library.  Simplified: the
    program's own code (deserialiseImpl, constructors) writes nothing itself. *)
From Verif Require Readers.
From Verif Require Import Base Proton Descriptors Writer Deserialise Output OutputWriter.
Import List ListNotations.
Open Scope string_scope.

Section Said.
(** The classes (Deserialise.v), and the platform (OutputWriter.v), of which what std::cout
    makes of pointers and of the names of types is not used here. *)
Context (cs : classes) (env : platform).
(** pn_type_name, and the numbers of the enumerators of pn_type_t. *)
Context (type_name : pn_type -> string) (type_number : pn_type -> Z).
(** typeName<T> (), types.h:52-64: the demangled name of T, or of what it points to.  (A
    vector is not told by the type of its elements here, Deserialise.v; but no more than
    one is ever read.) *)
Context (named : ctype -> string).

(** debug.h:18 in the given source file. *)
Definition trace (source : string) (number : Z) (text : string) : OM unit := Output.DBG (file env source) number text.

(** [operator << (std::ostream &, pn_data_t * )], proton_wrapper.cxx:64-113. *)
Definition wide (s : string) : string := if Nat.ltb (String.length s) 2 then " " ++ s else s.
Fixpoint spelt (s : string) : string := match s with EmptyString => "" | String c s' => String c (" " ++ spelt s') end.
Definition node_text (d : data) : string :=
  let type := pn_dtype d in
  wide (dec (type_number type)) ++ " " ++ type_name type ++
  match type with
  | TULong => " " ++ dec (Z.of_N (pn_get_ulong d))
  | TList => " #entries: " ++ dec (Z.of_nat (pn_get_list d))
  | TString => " " ++ match pn_get_string d with Some s => s | None => "" end
  | TInt => " " ++ dec (pn_get_int d)
  | TBool => " " ++ (if pn_get_bool d then "true" else "false")
  | TSymbol =>
      let v := match pn_get_symbol d with Some s => s | None => "" end in
      " " ++ dec (Z.of_nat (String.length v)) ++ endl ++ "   -> " ++ spelt v
  | _ => ""
  end.

(** proton_wrapper.cxx:289-301 *)
Definition list_attested : OM unit := attest_is_list_said (file env "proton_wrapper.cxx").
(** proton::pn_data_enter, proton_wrapper.cxx:123-126. *)
Definition enter_said : OM unit := fun '(d, out) => Ok tt (w_enter d, out).

(** The debug lines at PrimToSerializer.h:58, 77, 96, 115, 134, 153 and 172; the one of
    floats says bool. *)
Definition get_line (t : prim_type) : Z * string :=
  match t with
  | CInt => (58%Z, "int")
  | CString => (77%Z, "std::string")
  | CBool => (96%Z, "bool")
  | CFloat => (115%Z, "bool")
  | CDouble => (134%Z, "double")
  | CLong => (153%Z, "long")
  | CChar => (172%Z, "char")
  end.
(** PrimToSerialiser<T>::get, PrimToSerializer.h:55-59, 74-78, 93-97, 112-116, 131-135,
    150-154, 169-173. *)
Definition prim_get_said (t : prim_type) : OM prim_value :=
  let! v := silently (prim_get t) in
  trace "PrimToSerializer.h" (fst (get_line t)) ("PrimToSerializer<" ++ snd (get_line t) ++ ">::get - return " ++ prim_text env v) ;;
  ret v.

(** A destructor that writes a line first, as in SerialiserFactoryReaders.h:44-47. *)
Definition leaving (source : string) (number : Z) (text : string) (f : data -> data) : data * string -> data * string :=
  fun '(d, out) => (f d, out ++ "[" ++ file env source ++ "::" ++ dec number ++ "] " ++ text ++ endl).

(** PropertyReader<T, false>::read, SerialiserFactoryReaders.h:30-54, with
    ReadPrimitive.h:22-54, and startPrim and endPrim, AMQPBlob.cxx:383-395. *)
Definition read_prim_said (t : prim_type) (pointer : bool) : OM object :=
  trace "SerialiserFactoryReaders.h" 50 ("read::Primitive::" ++ named (RPrim t pointer)) ;;
  trace "SerialiserFactoryReaders.h" 40 "AutoPrim" ;;
  trace "AMQPBlob.cxx" 386 "startPrim" ;;
  finally (let! v := prim_get_said t in ret (if pointer then OPrimPtr v else OPrim v))
    (leaving "SerialiserFactoryReaders.h" 45 "~AutoPrim" pn_next).

(** AMQPBlob.cxx:355-368 *)
Definition startComposite_said : OM unit :=
  trace "AMQPBlob.cxx" 358 "startComposite" ;;
  silently attest_is_described ;;
  enter_said ;;
  let! key := silently readAndNext_ulong in
  trace "AMQPBlob.cxx" 362 ("startComposite::" ++ describedToString key ++ " " ++ dec (Z.of_N key)) ;;
  list_attested ;;
  (fun s => trace "AMQPBlob.cxx" 364 ("startComposite:: list sz " ++ dec (Z.of_nat (pn_get_list (fst s)))) s) ;;
  enter_said.
(** AMQPBlob.cxx:372-379, called by ~AutoComposite, SerialiserFactoryReaders.h:74-77. *)
Definition endComposite_said (s : data * string) : data * string :=
  leaving "AMQPBlob.cxx" 375 "endComposite" endComposite
    (leaving "SerialiserFactoryReaders.h" 75 "~AutoComposite" (fun d => d) s).

(** The first line of ReadNonPrim<T>::read: ReadNonPrimitive.h:35-36 (std::is_pointer_v<T>
    is shown as a number), 55 and, for a vector that is no pointer, 77. *)
Definition read_line (t : ctype) : OM unit :=
  match t with
  | RClass _ false => trace "ReadNonPrimitive.h" (span env 35 36) ("read<" ++ named t ++ ", is_ptr 0>")
  | RVector false => trace "ReadNonPrimitive.h" 77 "read"
  | _ => trace "ReadNonPrimitive.h" 55 ("read<" ++ named t ++ ", true>")
  end.
(** SerializableVector::deserialiseImpl, SerializableVector.h:115-136, after the check in
    ReadNonPrimitive.h:78 if it is no pointer; as in Deserialise.v it has no defined end. *)
Definition vector_read_said (pointer : bool) : OM object :=
  (if pointer then ret tt else list_attested) ;; list_attested ;; trace "SerializableVector.h" 122 "ARSE" ;; ub.

(** PropertyReader<T>::read, SerialiserFactoryReaders.h:58-84 for anything but a primitive;
    each property is read with sf_.read<T>, SerialiserFactory.h:88-95. *)
Fixpoint read_said (fuel : nat) (t : ctype) : OM object :=
  match fuel with
  | 0 => fun _ => Fuel
  | S fuel' =>
      match t with
      | RPrim p ptr => read_prim_said p ptr
      | _ =>
          trace "SerialiserFactoryReaders.h" 64 ("read::Composite::" ++ named t) ;;
          trace "SerialiserFactoryReaders.h" 70 "AutoComposite" ;;
          startComposite_said ;;
          finally
            (read_line t ;;
             match t with
             | RClass c ptr =>
                 let! vs := (fix properties (ts : list ctype) : OM (list object) :=
                   match ts with
                   | [] => ret []
                   | t :: ts' =>
                       trace "SerialiserFactory.h" 93 ("read - " ++ named t) ;;
                       let! v := read_said fuel' t in let! vs := properties ts' in ret (v :: vs)
                   end) (cs c) in
                 ret (if ptr then OClassPtr c vs else OClass c vs)
             | RVector ptr => vector_read_said ptr
             | _ => ub
             end) endComposite_said
      end
  end.

(** AMQPBlob.cxx:326-351 *)
Definition readyPayload_said : OM unit :=
  trace "AMQPBlob.cxx" 329 "readyPayload" ;;
  silently attest_is_described ;;
  enter_said ;;
  let! key := silently readAndNext_ulong in
  trace "AMQPBlob.cxx" 336 ("KEY == " ++ dec (Z.of_N key)) ;;
  (if N.eqb (stripCorda key) ENVELOPE then ret tt
   else trace "AMQPBlob.cxx" 340 ("Strip Key " ++ dec (Z.of_N (stripCorda key)) ++ " != " ++ dec (Z.of_N ENVELOPE))) ;;
  list_attested ;;
  enter_said ;;
  silently attest_is_described ;;
  auto_enter_said false (fun s =>
    trace "AMQPBlob.cxx" (span env 348 349)
      ("readyPayload::" ++ node_text (fst s) ++ " " ++ describedToString (pn_get_ulong (fst s))) s).

(** SerialiserFactory.h:106-113 *)
Definition deserialise_said (fuel : nat) (t : ctype) : OM object :=
  trace "SerialiserFactory.h" 109 ("deserialise:-:" ++ named t) ;;
  readyPayload_said ;;
  read_said fuel t.
End Said.
