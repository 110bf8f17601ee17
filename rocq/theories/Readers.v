(** The readers that turn a payload into text:
    libs/amqp/src/serialiser/serialisers/reader and
    libs/corda-custom-types/src/java/security/PublicKeySerialiser.cxx.

    Debug output (DBG, which is on in libs/corda-utils/include/debug.h) goes to
    standard output and is not modelled; evaluating it changes nothing here. *)
From Coq Require Import DecimalString.
From Verif Require Import Base Proton TypeNames Schema Descriptors Factory.
Open Scope string_scope.

(** ** What a reader returns *)

(** The IValue classes, Reader.h:18-164.  A name is there for the Pair classes,
    none for the Single classes. *)
Inductive ivalue : Type :=
| IText (name : option string) (s : string)              (* Typed{Pair,Single}<std::string> *)
| INull (name : option string)                           (* NullTyped{Pair,Single} *)
| IBraces (name : option string) (vs : list ivalue)      (* Typed{Pair,Single}<sVec<..>> *)
| IBrackets (name : option string) (vs : list ivalue)    (* Typed{Pair,Single}<sList<..>> *)
| IEntry (key value : ivalue).                           (* ValuePair *)

(** Reader.cxx:59-64, 77-82: the elements with ", " in between. *)
Fixpoint commas (l : list string) : string :=
  match l with
  | [] => ""
  | [s] => s
  | s :: l' => s ++ ", " ++ commas l'
  end.

(** [name_ + " : " + ..] for pairs, Reader.h:218 and 225. *)
Definition labelled (name : option string) (s : string) : string :=
  match name with Some n => n ++ " : " ++ s | None => s end.

(** IValue::dump(): Reader.h:174-226, Reader.cxx:10-196. *)
Fixpoint show (v : ivalue) : string :=
  match v with
  | IText n s => labelled n s
  | INull n => labelled n "<<NULL>>"
  | IBraces n vs => labelled n ("{ " ++ commas (map show vs) ++ " }")
  | IBrackets n vs => labelled n ("[ " ++ commas (map show vs) ++ " ]")
  | IEntry k v => show k ++ " : " ++ show v
  end.

(** ** Numbers *)

(** std::to_string of an integer, e.g. IntPropertyReader.cxx:46. *)
Definition dec (z : Z) : string := NilZero.string_of_int (Z.to_int z).
(** std::to_string of a bool (promoted to int), BoolPropertyReader.cxx:36. *)
Definition bit (b : bool) : string := if b then "1" else "0".
Definition quoted (s : string) : string := String (ascii_of_nat 34) (s ++ String (ascii_of_nat 34) "").

(** std::to_string of a double comes from the C++ library: a parameter (of the
    bit pattern).  So is what a serialiser installed by the user does. *)
Section Readers.
Context (fmt_double : N -> string).
Context (custom : nat -> option string -> PM ivalue).
(** The order of evaluation of the two arguments at MapReader.cxx:58-61. *)
Context (key_first : bool).
Context (f : factory) (s : schema).

(** property-readers: {Int:30-67,Long:27-49,Double:27-49,Bool:27-49,
    String:29-53,Float:27-49,Binary:29-61}PropertyReader.cxx, the two dump
    functions of each. *)
Definition dump_property (p : prim) (name : option string) : PM ivalue :=
  match p with
  | PInt => let! z := readAndNext_int in ret (IText name (dec z))
  | PLong => let! z := readAndNext_long in ret (IText name (dec z))
  | PDouble => let! b := readAndNext_double in ret (IText name (fmt_double b))
  | PBoolean => let! b := readAndNext_bool in ret (IText name (bit b))
  | PString => let! v := readAndNext_string false in ret (IText name (quoted v))
  | PFloat => let! b := @readAndNext_generic N in ret (IText name (fmt_double b))
  | PBinary => let! v := readAndNext_binary in
               ret (IText name ("<<<binary: " ++ dec (Z.of_nat (String.length v)) ++ " bytes>>>"))
  end.

(** EnumReader.cxx:12-48 *)
Definition enum_value : PM string :=
  attest_is_described ;;
  auto_enter false (
    (fun d => if is_type TULong d && N.eqb (stripCorda (pn_get_ulong d)) REFERENCED_OBJECT
              then Throw RuntimeError d else Ok tt d) ;;
    let! _ := readAndNext_string false in
    auto_list_enter true (fun _ => readAndNext_string false)).

(** EnumReader.cxx:53-80 *)
Definition dump_enum (name : option string) : PM ivalue :=
  auto_next (
    attest_is_described ;;
    let! v := enum_value in
    ret (IText name v)).

(** PublicKeySerialiser.cxx:57-93 (the buffer that leaks is in Copies.v) *)
Definition dump_public_key (name : option string) : PM ivalue :=
  match name with
  | Some _ =>
      auto_next (
        attest_is_described ;;
        auto_enter false (
          next_ ;;
          attest_is_binary ;;
          let! _ := readAndNext_binary in
          ret (IText name "<<<Public Key>>>")))
  | None => throw RuntimeError
  end.

Section Nested.
(** [rec r name]: the virtual call [r->dump (name, data_, schema_)]. *)
Context (rec : reader -> option string -> PM ivalue).

(** The loop at CompositeReader.cxx:71-82: [i]-th field, [i]-th serialiser. *)
Fixpoint dump_fields (fields : list field) (ks : list nat) : PM (list ivalue) :=
  match fields, ks with
  | fd :: fields', k :: ks' =>
      match lock f k with
      | Some r =>
          let! v := rec r (Some (f_name fd)) in
          let! vs := dump_fields fields' ks' in
          ret (v :: vs)
      | None => throw RuntimeError
      end
  | _, _ => ret []
  end.

(** CompositeReader.cxx:40-86.  The assertion at line 61 makes the two lists
    equally long. *)
Definition composite_dump_ (ks : list nat) : PM (list ivalue) :=
  attest_is_described ;;
  auto_enter false (
    let! sym := get_symbol in
    let! t := lift (fromDescriptor s sym) in
    match t with
    | TRestricted _ => throw BadCast
    | TComposite c =>
        if Nat.eqb (List.length (c_fields c)) (List.length ks) then
          next_ ;;
          attest_is_list ;;
          auto_enter false (dump_fields (c_fields c) ks)
        else abort
    end).

(** CompositeReader.cxx:90-127 *)
Definition dump_composite (ks : list nat) (name : option string) : PM ivalue :=
  auto_next (fun d =>
    if is_null d then Ok (INull name) d
    else (let! vs := composite_dump_ ks in ret (IBraces name vs)) d).

(** [n] times [reader->dump (data_, schema_)], ListReader.cxx:75-78 and
    ArrayReader.cxx:75-77; a call through a null pointer is
    undefined. *)
Fixpoint dump_elements (n : nat) (r : option reader) : PM (list ivalue) :=
  match n with
  | 0 => ret []
  | S n' =>
      match r with
      | None => ub
      | Some r' =>
          let! v := rec r' None in
          let! vs := dump_elements n' r in
          ret (v :: vs)
      end
  end.

(** ListReader.cxx:52-83 and ArrayReader.cxx:52-82 *)
Definition list_dump_ (k : nat) : PM (list ivalue) :=
  attest_is_described ;;
  auto_enter false (
    let! fp := readAndNext_string false in
    let! _ := lift (fromDescriptor s fp) in
    auto_list_enter true (fun n => dump_elements n (lock f k))).

(** ListReader.cxx:22-48 and ArrayReader.cxx:22-48 *)
Definition dump_list (k : nat) (name : option string) : PM ivalue :=
  auto_next (let! vs := list_dump_ k in ret (IBrackets name vs)).

(** A call [reader->dump (data_, schema_)], MapReader.cxx:59-60; through a null
    pointer it is undefined. *)
Definition dump_through (r : option reader) : PM ivalue :=
  match r with Some r' => rec r' None | None => ub end.

(** One round of the loop at MapReader.cxx:56-63. *)
Definition dump_entry (k v : option reader) : PM ivalue :=
  if key_first then
    let! a := dump_through k in let! b := dump_through v in ret (IEntry a b)
  else
    let! b := dump_through v in let! a := dump_through k in ret (IEntry a b).

(** The loop, MapReader.cxx:56: [i] counts to the number of children in steps of
    two. *)
Fixpoint dump_entries (n : nat) (k v : option reader) : PM (list ivalue) :=
  match n with
  | 0 => ret []
  | S n' =>
      let! e := dump_entry k v in
      let! es := dump_entries (pred n') k v in
      ret (e :: es)
  end.

(** MapReader.cxx:22-67 *)
Definition map_dump_ (k v : nat) : PM (list ivalue) :=
  attest_is_described ;;
  auto_enter false (
    let! fp := readAndNext_string false in
    let! _ := lift (fromDescriptor s fp) in
    auto_map_enter true (fun n => dump_entries n (lock f k) (lock f v))).

(** MapReader.cxx:71-100 *)
Definition dump_map (k v : nat) (name : option string) : PM ivalue :=
  auto_next (let! vs := map_dump_ k v in ret (IBraces name vs)).
End Nested.

(** The virtual function ISerialiser::dump, ISerialiser.h:41-48.  [fuel] bounds
    the nesting; the height of the tree suffices (proved). *)
Fixpoint dump (fuel : nat) (r : reader) (name : option string) : PM ivalue :=
  match fuel with
  | 0 => fun _ => Fuel
  | S fuel' =>
      match r with
      | RProperty p => dump_property p name
      | RComposite _ ks => dump_composite (dump fuel') ks name
      | REnum _ _ => dump_enum name
      | RList _ k | RArray _ k => dump_list (dump fuel') k name
      | RMap _ k v => dump_map (dump fuel') k v name
      | RPublicKey => dump_public_key name
      | RCustom _ which => custom which name
      end
  end.
End Readers.
