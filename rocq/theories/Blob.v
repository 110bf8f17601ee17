(** Inspecting a blob: libs/amqp/src/AMQPBlob.cxx, dumpContents and dumpData. *)
From Verif Require Import Base Proton TypeNames Schema Descriptors Factory Readers.
Open Scope string_scope.

(** ** dumpContents *)

(** A blob's m_data (AMQPBlob.h:37) and the factory passed to
    AMQPBlob.cxx:273-275. *)
Definition BM (A : Type) : Type := data * factory -> outcome (data * factory) A.
Definition on_data {A} (m : PM A) : BM A :=
  fun '(d, cf) => match m d with
                  | Ok a d' => Ok a (d', cf)
                  | Throw e d' => Throw e (d', cf)
                  | Abort => Abort | UB => UB | Fuel => Fuel
                  end.
Definition on_factory {A} (m : FM A) : BM A :=
  fun '(d, cf) => match m cf with
                  | Ok a cf' => Ok a (d, cf')
                  | Throw e cf' => Throw e (d, cf')
                  | Abort => Abort | UB => UB | Fuel => Fuel
                  end.

(** AMQPBlob.cxx:276-285: anything that is not an Envelope ends up as a null
    pointer, which line 288 dereferences. *)
Definition read_envelope (fuel : nat) : PM envelope :=
  fun d =>
    if is_described d then
      (let! e := auto_enter false (fun d => build_id (dispatchDescribed fuel) (pn_get_ulong d) d) in
       match e with EEnvelope x => ret x | _ => ub end) d
    else UB.

(** The reader pointed to by a shared_ptr of the factory: AMQPBlob.cxx:290,
    CompositeFactoryInternal.cxx:349-355. *)
Definition reader_at (i : nat) (cf : factory) : option reader := nth_error (heap cf) i.

Section DumpContents.
Context (fmt_double : N -> string) (custom : nat -> option string -> PM ivalue).
(** The compiler's orders of evaluation, Factory.v and Readers.v. *)
Context (map_order entry_order : bool).

(** AMQPBlob.cxx:293-313 *)
Definition dump_payload (fuel : nat) (cf : factory) (s : schema) (r : reader) : PM string :=
  auto_enter true (
    attest_is_list ;;
    (fun d => if Nat.eqb (pn_get_list d) 3 then Ok tt d else Abort) ;;
    auto_enter false (
      let! v := dump fmt_double custom entry_order cf s fuel r (Some "{ Parsed") in
      ret (show v ++ " }"))).

(** AMQPBlob.cxx:273-314 *)
Definition dumpContents (fuel : nat) : BM string :=
  let! e := on_data (read_envelope fuel) in
  on_factory (process map_order (e_schema e)) ;;
  fun st =>
    let cf := snd st in
    match byDescriptor cf (e_descriptor e) with
    | None => Abort                                              (* line 291 *)
    | Some i =>
        match reader_at i cf with
        | Some r => on_data (dump_payload fuel cf (e_schema e) r) st
        | None => UB
        end
    end.
End DumpContents.

(** ** dumpData *)

(** proton_wrapper.cxx:25-59 *)
Definition typeToString (t : pn_type) : string :=
  match t with
  | TNull => "null" | TBool => "bool" | TUByte => "unsigned byte" | TByte => "byte"
  | TUShort => "unsigned short" | TShort => "short" | TUInt => "unsigned int" | TInt => "int"
  | TChar => "char" | TULong => "unsigned long" | TLong => "long" | TTimestamp => "timestamp"
  | TFloat => "float" | TDouble => "double" | TDecimal32 => "decimal-32" | TDecimal64 => "decimal-64"
  | TDecimal128 => "decimal-128" | TUuid => "uuid" | TBinary => "binary" | TString => "string"
  | TSymbol => "symbol" | TDescribed => "described" | TArray => "array" | TList => "list"
  | TMap => "map" | TInvalid => "invalid"
  end.

Section DumpData.
Context (fmt_double fmt_float : N -> string).

(** AMQPBlob.cxx:89-113 *)
Definition dumpPrimitive : PM ivalue :=
  fun d =>
    match pn_dtype d with
    | TLong => Ok (IText None (dec (pn_get_long d))) d
    | TULong => Ok (IText None (dec (Z.of_N (pn_get_ulong d)))) d
    | TString => (let! s := get_string false in ret (IText None s)) d
    | TInt => Ok (IText None (dec (pn_get_int d))) d
    | TUInt => Ok (IText None (dec (Z.of_N (pn_get_uint d)))) d
    | TFloat => Ok (IText None (fmt_float (pn_get_float d))) d
    | TDouble => Ok (IText None (fmt_double (pn_get_double d))) d
    | TBool => Ok (IText None (if pn_get_bool d then "true" else "false")) d
    | TSymbol => Ok (IText None "<<SYMBOL>>") d
    | t => Ok (IText None (typeToString t)) d
    end.

Section Raw.
(** The mutually recursive calls: dumpList, dumpMap and dumpDescribed. *)
Context (rec_list rec_map : PM (list ivalue)) (rec_described : PM ivalue).

(** The choice made at AMQPBlob.cxx:136-146, 180-185 and 189-194. *)
Definition dump_by_type (t : pn_type) : PM ivalue :=
  match t with
  | TList => let! l := rec_list in ret (IBrackets None l)
  | TMap => let! l := rec_map in ret (IBrackets None l)
  | TDescribed => rec_described
  | _ => dumpPrimitive
  end.

(** The do-while loop at AMQPBlob.cxx:135-147; [n] bounds the number of rounds
    and is the number of nodes at the loop's level. *)
Fixpoint list_loop (n : nat) : PM (list ivalue) :=
  fun d =>
    match n with
    | 0 => Fuel
    | S n' =>
        (let! v := dump_by_type (pn_dtype d) in
         fun d => if pn_next_ok d
                  then (let! vs := list_loop n' in ret (v :: vs)) (pn_next d)
                  else Ok [v] d) d
    end.

(** AMQPBlob.cxx:115-150 *)
Definition dumpList_ : PM (list ivalue) :=
  attest_is_list ;;
  auto_list_enter true (fun _ d =>
    if is_type TInvalid d then Ok [IText None "<<<Empty List>>>"] d
    else list_loop (List.length (siblings (here d))) d).

(** [pn_data_type ((pn_data_t * )proton::auto_next (data_))], AMQPBlob.cxx:178 and
    187: the type of the current node; the temporary then moves the cursor on. *)
Definition type_and_next : PM pn_type := fun d => Ok (pn_dtype d) (pn_next d).

(** One round of the loop at AMQPBlob.cxx:175-203. *)
Definition dump_raw_entry : PM ivalue :=
  let! t := type_and_next in
  let! k := dump_by_type t in
  let! t' := type_and_next in
  let! v := dump_by_type t' in
  next_ ;;
  ret (IEntry k v).
Fixpoint map_loop (n : nat) : PM (list ivalue) :=
  match n with
  | 0 => ret []
  | S n' =>
      let! e := dump_raw_entry in
      let! es := map_loop (pred n') in
      ret (e :: es)
  end.

(** AMQPBlob.cxx:153-207 *)
Definition dumpMap_ : PM (list ivalue) :=
  is_map ;;
  auto_map_enter true (fun n d =>
    if is_type TInvalid d then Ok [IText None "<<<Empty Map>>>"] d
    else map_loop n d).

(** AMQPBlob.cxx:210-229 *)
Definition dumpDescribed_ : PM ivalue :=
  auto_enter false (
    let! fp := readAndNext_string false in
    fun d => match pn_dtype d with
             | TList => (let! l := rec_list in ret (IBrackets (Some fp) l)) d
             | TMap => (let! l := rec_map in ret (IBrackets (Some fp) l)) d
             | _ => Throw RuntimeError d
             end).
End Raw.

(** The three functions, AMQPBlob.cxx:115-229; [fuel] bounds the nesting. *)
Fixpoint dumpList (fuel : nat) : PM (list ivalue) :=
  match fuel with
  | 0 => fun _ => Fuel
  | S n => dumpList_ (dumpList n) (dumpMap n) (dumpDescribed n)
  end
with dumpMap (fuel : nat) : PM (list ivalue) :=
  match fuel with
  | 0 => fun _ => Fuel
  | S n => dumpMap_ (dumpList n) (dumpMap n) (dumpDescribed n)
  end
with dumpDescribed (fuel : nat) : PM ivalue :=
  match fuel with
  | 0 => fun _ => Fuel
  | S n => dumpDescribed_ (dumpList n) (dumpMap n)
  end.

(** AMQPBlob.cxx:239-265 *)
Definition dumpData (fuel : nat) : PM string :=
  fun d =>
    if is_described d then
      (attest_is_described ;;
       let! key := auto_enter false readAndNext_ulong in
       (fun d => if N.eqb (stripCorda key) ENVELOPE then Ok tt d else Abort) ;;
       auto_enter true (
         attest_is_list ;;
         auto_list_enter true (fun _ =>
           attest_is_described ;;
           let! v := dumpDescribed fuel in
           ret (show v)))) d
    else UB.
End DumpData.
