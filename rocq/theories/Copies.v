(** The memory reading asks for with [new] and does not give back: the copies of
    binary values made while a blob is inspected, and the objects made for
    pointers while one is deserialised.  Readers.v, Blob.v and Deserialise.v
    once more, function by function, with the sizes of the copies, or the number
    of the objects, written down next to the data.

    What std::unique_ptr, std::vector, std::string and std::any own is given back
    by their destructors and is not counted.  proton's own memory is Memory.v. *)
From Verif Require Import Base Proton TypeNames Schema Descriptors Factory Readers Blob Writer Deserialise.
Import List ListNotations.
Open Scope string_scope.

(** The data and the sizes of the copies that nothing points to any more, in the
    order in which they were made. *)
Definition CM (A : Type) : Type := data * list nat -> outcome (data * list nat) A.

(** Code that does not ask for memory. *)
Definition plain {L A} (m : PM A) : data * L -> outcome (data * L) A :=
  fun '(d, l) => match m d with
                 | Ok a d' => Ok a (d', l)
                 | Throw e d' => Throw e (d', l)
                 | Abort => Abort | UB => UB | Fuel => Fuel
                 end.
Definition move {L} (g : data -> data) (st : data * L) : data * L := (g (fst st), snd st).

(** The scopes of Proton.v around such code: auto_next, proton_wrapper.cxx:423-437,
    auto_enter, 402-415, auto_list_enter, 445-469, and auto_map_enter, 477-501. *)
Definition next_after {L A} (m : data * L -> outcome (data * L) A) : data * L -> outcome (data * L) A := finally m (move pn_next).
Definition entered {L A} (next_ : bool) (m : data * L -> outcome (data * L) A) : data * L -> outcome (data * L) A :=
  fun st => finally m (move pn_exit) (move (fun d => if next_ then pn_next (w_enter d) else w_enter d) st).
Definition list_entered {L A} (next_ : bool) (m : nat -> data * L -> outcome (data * L) A) : data * L -> outcome (data * L) A :=
  fun st => finally (m (pn_get_list (fst st))) (move pn_exit) (move (fun d => if next_ then pn_next (pn_enter d) else pn_enter d) st).
Definition map_entered {L A} (next_ : bool) (m : nat -> data * L -> outcome (data * L) A) : data * L -> outcome (data * L) A :=
  fun st => finally (m (pn_get_map (fst st))) (move pn_exit) (move (fun d => if next_ then pn_next (pn_enter d) else pn_enter d) st).

(** proton_wrapper.cxx:628-666: [new char[binary.size]].  Both callers,
    BinaryPropertyReader.cxx:36 and 54 and PublicKeySerialiser.cxx:76, let go of
    the pointer without [delete]. *)
Definition copied_binary : CM string :=
  fun '(d, l) => match readAndNext_binary d with
                 | Ok s d' => Ok s (d', l ++ [String.length s])%list
                 | Throw e d' => Throw e (d', l)
                 | Abort => Abort | UB => UB | Fuel => Fuel
                 end.

(** ** Inspecting *)

Section Readers.
Context (fmt_double : N -> string).
(** What serialisers of the user ask for is their business. *)
Context (custom : nat -> option string -> PM ivalue).
Context (key_first : bool) (f : factory) (s : schema).

(** As [Readers.dump_property]; BinaryPropertyReader.cxx:29-61. *)
Definition c_property (p : prim) (name : option string) : CM ivalue :=
  match p with
  | PBinary => let! v := copied_binary in
               ret (IText name ("<<<binary: " ++ dec (Z.of_nat (String.length v)) ++ " bytes>>>"))
  | _ => plain (dump_property fmt_double p name)
  end.

(** As [Readers.dump_public_key]; PublicKeySerialiser.cxx:57-93. *)
Definition c_public_key (name : option string) : CM ivalue :=
  match name with
  | Some _ =>
      next_after (
        plain attest_is_described ;;
        entered false (
          plain next_ ;;
          plain attest_is_binary ;;
          let! _ := copied_binary in
          ret (IText name "<<<Public Key>>>")))
  | None => throw RuntimeError
  end.

Section Nested.
Context (rec : reader -> option string -> CM ivalue).

(** As [Readers.dump_fields]; CompositeReader.cxx:71-82. *)
Fixpoint c_fields_ (fields : list field) (ks : list nat) : CM (list ivalue) :=
  match fields, ks with
  | fd :: fields', k :: ks' =>
      match lock f k with
      | Some r =>
          let! v := rec r (Some (f_name fd)) in
          let! vs := c_fields_ fields' ks' in
          ret (v :: vs)
      | None => throw RuntimeError
      end
  | _, _ => ret []
  end.

(** As [Readers.composite_dump_]; CompositeReader.cxx:40-86. *)
Definition c_composite_ (ks : list nat) : CM (list ivalue) :=
  plain attest_is_described ;;
  entered false (
    let! sym := plain get_symbol in
    let! t := lift (fromDescriptor s sym) in
    match t with
    | TRestricted _ => throw BadCast
    | TComposite c =>
        if Nat.eqb (List.length (Schema.c_fields c)) (List.length ks) then
          plain next_ ;;
          plain attest_is_list ;;
          entered false (c_fields_ (Schema.c_fields c) ks)
        else abort
    end).

(** As [Readers.dump_composite]; CompositeReader.cxx:90-127. *)
Definition c_composite (ks : list nat) (name : option string) : CM ivalue :=
  next_after (fun st =>
    if is_null (fst st) then Ok (INull name) st
    else (let! vs := c_composite_ ks in ret (IBraces name vs)) st).

(** As [Readers.dump_elements]; ListReader.cxx:75-78 and ArrayReader.cxx:75-77. *)
Fixpoint c_elements (n : nat) (r : option reader) : CM (list ivalue) :=
  match n with
  | 0 => ret []
  | S n' =>
      match r with
      | None => ub
      | Some r' =>
          let! v := rec r' None in
          let! vs := c_elements n' r in
          ret (v :: vs)
      end
  end.

(** As [Readers.list_dump_]; ListReader.cxx:52-83 and ArrayReader.cxx:52-82. *)
Definition c_list_ (k : nat) : CM (list ivalue) :=
  plain attest_is_described ;;
  entered false (
    let! fp := plain (readAndNext_string false) in
    let! _ := lift (fromDescriptor s fp) in
    list_entered true (fun n => c_elements n (lock f k))).

(** As [Readers.dump_list]; ListReader.cxx:22-48 and ArrayReader.cxx:22-48. *)
Definition c_list (k : nat) (name : option string) : CM ivalue :=
  next_after (let! vs := c_list_ k in ret (IBrackets name vs)).

(** As [Readers.dump_through]; MapReader.cxx:59-60. *)
Definition c_through (r : option reader) : CM ivalue :=
  match r with Some r' => rec r' None | None => ub end.

(** As [Readers.dump_entry]; MapReader.cxx:56-63. *)
Definition c_entry (k v : option reader) : CM ivalue :=
  if key_first then
    let! a := c_through k in let! b := c_through v in ret (IEntry a b)
  else
    let! b := c_through v in let! a := c_through k in ret (IEntry a b).

(** As [Readers.dump_entries]; MapReader.cxx:56. *)
Fixpoint c_entries (n : nat) (k v : option reader) : CM (list ivalue) :=
  match n with
  | 0 => ret []
  | S n' =>
      let! e := c_entry k v in
      let! es := c_entries (pred n') k v in
      ret (e :: es)
  end.

(** As [Readers.map_dump_]; MapReader.cxx:22-67. *)
Definition c_map_ (k v : nat) : CM (list ivalue) :=
  plain attest_is_described ;;
  entered false (
    let! fp := plain (readAndNext_string false) in
    let! _ := lift (fromDescriptor s fp) in
    map_entered true (fun n => c_entries n (lock f k) (lock f v))).

(** As [Readers.dump_map]; MapReader.cxx:71-100. *)
Definition c_map (k v : nat) (name : option string) : CM ivalue :=
  next_after (let! vs := c_map_ k v in ret (IBraces name vs)).
End Nested.

(** As [Readers.dump]; ISerialiser.h:41-48. *)
Fixpoint c_dump (fuel : nat) (r : reader) (name : option string) : CM ivalue :=
  match fuel with
  | 0 => fun _ => Fuel
  | S fuel' =>
      match r with
      | RProperty p => c_property p name
      | RComposite _ ks => c_composite (c_dump fuel') ks name
      | REnum _ _ => plain (dump_enum name)
      | RList _ k | RArray _ k => c_list (c_dump fuel') k name
      | RMap _ k v => c_map (c_dump fuel') k v name
      | RPublicKey => c_public_key name
      | RCustom _ which => plain (custom which name)
      end
  end.
End Readers.

Section Contents.
Context (fmt_double : N -> string) (custom : nat -> option string -> PM ivalue).
Context (map_order entry_order : bool).

(** As [Blob.dump_payload]; AMQPBlob.cxx:293-313. *)
Definition c_payload (fuel : nat) (cf : factory) (s : schema) (r : reader) : CM string :=
  entered true (
    plain attest_is_list ;;
    (fun st => if Nat.eqb (pn_get_list (fst st)) 3 then Ok tt st else Abort) ;;
    entered false (
      let! v := c_dump fmt_double custom entry_order cf s fuel r (Some "{ Parsed") in
      ret (show v ++ " }"))).

(** The blob's data (AMQPBlob.h:37), the factory passed to AMQPBlob.cxx:273-275, and
    the copies. *)
Definition IM (A : Type) : Type := data * factory * list nat -> outcome (data * factory * list nat) A.
Definition uncopied {A} (m : BM A) : IM A :=
  fun '(st, l) => match m st with
                  | Ok a st' => Ok a (st', l)
                  | Throw e st' => Throw e (st', l)
                  | Abort => Abort | UB => UB | Fuel => Fuel
                  end.
Definition on_data_c {A} (m : CM A) : IM A :=
  fun '(d, cf, l) => match m (d, l) with
                     | Ok a (d', l') => Ok a (d', cf, l')
                     | Throw e (d', l') => Throw e (d', cf, l')
                     | Abort => Abort | UB => UB | Fuel => Fuel
                     end.

(** As [Blob.dumpContents]; AMQPBlob.cxx:273-314. *)
Definition c_dumpContents (fuel : nat) : IM string :=
  let! e := uncopied (on_data (read_envelope fuel)) in
  uncopied (on_factory (process map_order (e_schema e))) ;;
  fun st =>
    let cf := snd (fst st) in
    match byDescriptor cf (e_descriptor e) with
    | None => Abort
    | Some i =>
        match reader_at i cf with
        | Some r => on_data_c (c_payload fuel cf (e_schema e) r) st
        | None => UB
        end
    end.

(** The same blob [n] times with the same factory, as long as nothing goes
    wrong (bin/blob-inspector/BlobInspector.cxx:18-25 does it once). *)
Fixpoint c_again (n fuel : nat) : IM (list string) :=
  match n with
  | 0 => ret []
  | S n' => let! t := c_dumpContents fuel in let! ts := c_again n' fuel in ret (t :: ts)
  end.
End Contents.

(** ** Deserialising *)

(** The data and the number of objects made with [new] so far. *)
Definition DM (A : Type) : Type := data * nat -> outcome (data * nat) A.
(** [new] in ReadPrimitive.h:45-52 and ReadNonPrimitive.h:53-60. *)
Definition new_ : DM unit := fun '(d, n) => Ok tt (d, S n).

(** As [Deserialise.read_prim]; ReadPrimitive.h:45-52: the object is made before
    the value is looked at. *)
Definition c_read_prim (t : prim_type) (pointer : bool) : DM object :=
  finally
    ((if pointer then new_ else ret tt) ;;
     let! v := plain (prim_get t) in
     ret (if pointer then OPrimPtr v else OPrim v)) (move pn_next).

Section Read.
Context (cs : classes).
(** As [Deserialise.read]; ReadNonPrimitive.h:53-60: the object is made when all
    properties have been read. *)
Fixpoint c_read (fuel : nat) (t : ctype) : DM object :=
  match fuel with
  | 0 => fun _ => Fuel
  | S fuel' =>
      match t with
      | RPrim p ptr => c_read_prim p ptr
      | RClass c ptr =>
          plain read_startComposite ;;
          finally
            (let! vs := (fix properties (ts : list ctype) : DM (list object) :=
                 match ts with
                 | [] => ret []
                 | t :: ts' => let! v := c_read fuel' t in let! vs := properties ts' in ret (v :: vs)
                 end) (cs c) in
             (if ptr then new_ else ret tt) ;;
             ret (if ptr then OClassPtr c vs else OClass c vs)) (move endComposite)
      | RVector _ => plain read_startComposite ;; finally (plain vector_deserialiseImpl) (move endComposite)
      end
  end.

(** As [Deserialise.deserialise]; SerialiserFactory.h:106-113. *)
Definition c_deserialise (fuel : nat) (t : ctype) : DM object := plain readyPayload ;; c_read fuel t.
End Read.
