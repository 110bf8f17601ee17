(** What is written to standard output on the way: dumping the data of a blob, and
    bin/data-dumper, with the debug lines of the library.  Each function here is the
    one of the same name without [_said] (Blob.v, Proton.v), with its output. *)
From Verif Require Import Base Proton CordaFile Descriptors Factory Readers Blob SchemaDump Tools.
Import List ListNotations.
Open Scope string_scope.

(** A blob's m_data (AMQPBlob.h:37) and what has been written to std::cout so far. *)
Definition OM (A : Type) : Type := data * string -> outcome (data * string) A.
(** Code that writes nothing. *)
Definition silently {A} (m : PM A) : OM A :=
  fun '(d, out) => match m d with
                   | Ok a d' => Ok a (d', out)
                   | Throw e d' => Throw e (d', out)
                   | Abort => Abort | UB => UB | Fuel => Fuel
                   end.
(** [std::cout << text], as in debug.h:18; the stream does not fail. *)
Definition cout (text : string) : OM unit := fun '(d, out) => Ok tt (d, out ++ text).
Definition endl : string := String "010" "".
Definition moving (f : data -> data) : data * string -> data * string := fun '(d, out) => (f d, out).

Section Said.
(** [__FILE__] in libs/amqp/src/AMQPBlob.cxx and in libs/proton-wrapper/src/
    proton_wrapper.cxx: the paths given to the compiler. *)
Context (blob_file wrapper_file : string).
(** pn_type_name, and the numbers of the enumerators of pn_type_t. *)
Context (type_name : pn_type -> string) (type_number : pn_type -> Z).
Context (fmt_double fmt_float : N -> string).

(** libs/corda-utils/include/debug.h:18, with std::endl at the end as at all the sites
    modelled here. *)
Definition DBG (file : string) (line : Z) (text : string) : OM unit :=
  cout ("[" ++ file ++ "::" ++ dec line ++ "] " ++ text ++ endl).

(** proton_wrapper.cxx:289-301 *)
Definition attest_is_list_said : OM unit :=
  silently attest_is_list ;; DBG wrapper_file 299 "YEP! it's a list".
(** proton_wrapper.cxx:571-592 *)
Definition readAndNext_string_said (tolerate : bool) : OM string :=
  cout ("STRING" ++ endl) ;; silently (readAndNext_string tolerate).
(** The scopes of proton_wrapper.cxx:402-501 write nothing. *)
Definition auto_enter_said {A} (next_ : bool) (body : OM A) : OM A :=
  fun '(d, out) => finally body (moving pn_exit) (if next_ then pn_next (w_enter d) else w_enter d, out).
(** auto_list_enter, proton_wrapper.cxx:445-469, and auto_map_enter, 477-501. *)
Definition auto_list_enter_said {A} (next_ : bool) (body : nat -> OM A) : OM A :=
  fun '(d, out) => finally (body (pn_get_list d)) (moving pn_exit) (if next_ then pn_next (pn_enter d) else pn_enter d, out).
Definition auto_map_enter_said {A} (next_ : bool) (body : nat -> OM A) : OM A :=
  fun '(d, out) => finally (body (pn_get_map d)) (moving pn_exit) (if next_ then pn_next (pn_enter d) else pn_enter d, out).

Section Raw.
Context (rec_list rec_map : OM (list ivalue)) (rec_described : OM ivalue).

(** AMQPBlob.cxx:136-146, 180-185 and 189-194 *)
Definition dump_by_type_said (t : pn_type) : OM ivalue :=
  match t with
  | TList => let! l := rec_list in ret (IBrackets None l)
  | TMap => let! l := rec_map in ret (IBrackets None l)
  | TDescribed => rec_described
  | _ => silently (dumpPrimitive fmt_double fmt_float)
  end.
(** AMQPBlob.cxx:135-147 *)
Fixpoint list_loop_said (n : nat) : OM (list ivalue) :=
  fun s =>
    match n with
    | 0 => Fuel
    | S n' =>
        (let! v := dump_by_type_said (pn_dtype (fst s)) in
         fun s => if pn_next_ok (fst s)
                  then (let! vs := list_loop_said n' in ret (v :: vs)) (moving pn_next s)
                  else Ok [v] s) s
    end.
(** AMQPBlob.cxx:115-150 *)
Definition dumpList_said_ : OM (list ivalue) :=
  attest_is_list_said ;;
  auto_list_enter_said true (fun _ s =>
    if is_type TInvalid (fst s) then Ok [IText None "<<<Empty List>>>"] s
    else list_loop_said (List.length (siblings (here (fst s)))) s).

(** AMQPBlob.cxx:178-202; the debug lines are those at 179 and 188. *)
Definition type_said (line : Z) (t : pn_type) : OM unit :=
  DBG blob_file line ("  " ++ type_name t ++ " " ++ dec (type_number t)).
(** One round of the loop, AMQPBlob.cxx:176-202. *)
Definition dump_raw_entry_said : OM ivalue :=
  let! t := silently type_and_next in
  type_said 179 t ;;
  let! k := dump_by_type_said t in
  let! t' := silently type_and_next in
  type_said 188 t' ;;
  let! v := dump_by_type_said t' in
  silently next_ ;;
  ret (IEntry k v).
(** The loop, AMQPBlob.cxx:175-203. *)
Fixpoint map_loop_said (n : nat) : OM (list ivalue) :=
  match n with
  | 0 => ret []
  | S n' =>
      let! e := dump_raw_entry_said in
      let! es := map_loop_said (pred n') in
      ret (e :: es)
  end.
(** AMQPBlob.cxx:153-207 *)
Definition dumpMap_said_ : OM (list ivalue) :=
  silently is_map ;;
  auto_map_enter_said true (fun n s =>
    if is_type TInvalid (fst s) then Ok [IText None "<<<Empty Map>>>"] s
    else (DBG blob_file 170 "MAP IS NOT EMPTY" ;; map_loop_said n) s).

(** AMQPBlob.cxx:210-229 *)
Definition dumpDescribed_said_ : OM ivalue :=
  DBG blob_file 212 "dumpDescribed" ;;
  auto_enter_said false (
    let! fp := readAndNext_string_said false in
    DBG blob_file 217 ("  FINGERPRINT: " ++ fp) ;;
    fun s => match pn_dtype (fst s) with
             | TList => (let! l := rec_list in ret (IBrackets (Some fp) l)) s
             | TMap => (let! l := rec_map in ret (IBrackets (Some fp) l)) s
             | _ => Throw RuntimeError s
             end).
End Raw.

(** The three functions of AMQPBlob.cxx:115-229 call each other; [fuel] bounds the
    nesting, as in Blob.v. *)
Fixpoint dumpList_said (fuel : nat) : OM (list ivalue) :=
  match fuel with
  | 0 => fun _ => Fuel
  | S n => dumpList_said_ (dumpList_said n) (dumpMap_said n) (dumpDescribed_said n)
  end
with dumpMap_said (fuel : nat) : OM (list ivalue) :=
  match fuel with
  | 0 => fun _ => Fuel
  | S n => dumpMap_said_ (dumpList_said n) (dumpMap_said n) (dumpDescribed_said n)
  end
with dumpDescribed_said (fuel : nat) : OM ivalue :=
  match fuel with
  | 0 => fun _ => Fuel
  | S n => dumpDescribed_said_ (dumpList_said n) (dumpMap_said n)
  end.

(** AMQPBlob.cxx:239-265 *)
Definition dumpData_said (fuel : nat) : OM string :=
  fun s =>
    if is_described (fst s) then
      (silently attest_is_described ;;
       let! key := silently (auto_enter false readAndNext_ulong) in
       (fun s => if N.eqb (stripCorda key) ENVELOPE then Ok tt s else Abort) ;;
       auto_enter_said true (
         attest_is_list_said ;;
         auto_list_enter_said true (fun _ =>
           silently attest_is_described ;;
           let! v := dumpDescribed_said fuel in
           ret (show v)))) s
    else UB.

(** ** bin/data-dumper/main.cxx:17-48 *)

(** As [finish] and [caught] in Tools.v (bin/data-dumper/main.cxx:30-47), with
    everything that is on standard output. *)
Definition finish_said (o : outcome (data * string) string) : result :=
  match o with
  | Ok s (_, out) => Exit EXIT_SUCCESS (out ++ s ++ endl) false
  | Throw RuntimeError (_, out) => Exit EXIT_FAILURE out true
  | Throw _ _ => Terminated
  | Abort => Aborted
  | UB => Undefined
  | Fuel => Unended
  end.
(** Opening the file writes nothing (SRC_DEBUG, CordaBytes.cxx:39-43, is not defined). *)
Definition data_dumper_said (decode : string -> option tree) (fuel : nat) (fs : string -> file) (argv : list string) : result :=
  match argv with
  | [_; name] =>
      match fs name with
      | NoFile => Exit EXIT_FAILURE "" false
      | f => with_blob decode caught f default_config (fun d => finish_said (dumpData_said fuel (d, "")))
      end
  | _ => Exit EXIT_FAILURE "" true
  end.
End Said.
