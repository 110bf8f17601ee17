(** The reader factory: libs/amqp/src/assembler/CompositeFactoryInternal.cxx and
    the reader objects it makes (libs/amqp/src/serialiser).

    A reader is an object on the heap; the factory owns readers through the
    std::shared_ptrs in its two maps while readers refer to each other through
    std::weak_ptrs.  Objects are numbered in the order of their creation; a
    weak_ptr is the number of its object.  An object is alive while one of the
    two maps owns it.  (Simplification: shared_ptrs a caller of byType or
    byDescriptor, or the installer of a custom serialiser, may keep are not
    counted.) *)
From Verif Require Import Base TypeNames Schema.
Open Scope string_scope.

(** The readers of makePropertyReader, SerialiserFactoryInternal.h:34-74. *)
Inductive prim : Type := PInt | PLong | PDouble | PBoolean | PString | PFloat | PBinary.

(** ISerialiser objects (ISerialiser.h:19-54) with what they refer to. *)
Inductive reader : Type :=
| RProperty (p : prim)                                        (* ..PropertySerialiser<..Reader> *)
| RComposite (type : string) (kids : list nat)                (* CompositeSerialiser.h:11-48 *)
| REnum (type : string) (choices : list string)               (* EnumSerialiser.h:13-24 *)
| RList (type : string) (elem : nat)                          (* ListSerialiser.h:13-35 *)
| RArray (type : string) (elem : nat)                         (* ArraySerialiser.h:13-31 *)
| RMap (type : string) (key value : nat)                      (* MapSerialiser.h:12-35 *)
| RPublicKey                                                  (* PublicKeySerialiser.h:16-44 *)
| RCustom (type : string) (which : nat).                      (* any other installed serialiser *)

(** property-serialisers/IntPropertySerialiserBase.cxx:13-17 and the like for
    Long, Double, Bool, String, Float and Binary. *)
Definition prim_name (p : prim) : string :=
  match p with
  | PInt => "int" | PLong => "long" | PDouble => "double" | PBoolean => "boolean"
  | PString => "string" | PFloat => "float" | PBinary => "binary"
  end.

(** type(): RestrictedSerialiser.h:25-27, CompositeSerialiser.h:43-45,
    PublicKeySerialiser.cxx:18-21. *)
Definition reader_type (r : reader) : string :=
  match r with
  | RProperty p => prim_name p
  | RComposite t _ | REnum t _ | RList t _ | RArray t _ | RMap t _ _ | RCustom t _ => t
  | RPublicKey => "java.security.PublicKey"
  end.

(** serialisers(): the weak_ptrs a reader holds.  ISerialiser.h:31-33,
    CompositeSerialiser.h:47, ListSerialiser.h:30-34, ArraySerialiser.h:27-30,
    MapSerialiser.h:30-34. *)
Definition kids (r : reader) : list nat :=
  match r with
  | RComposite _ ks => ks
  | RList _ e | RArray _ e => [e]
  | RMap _ k v => [k; v]
  | _ => []
  end.

(** SerialiserFactoryInternal.h:34-74 *)
Definition makePropertyReader (type : string) : res reader :=
  if String.eqb type "int" then Ret (RProperty PInt)
  else if String.eqb type "long" then Ret (RProperty PLong)
  else if String.eqb type "double" then Ret (RProperty PDouble)
  else if String.eqb type "boolean" then Ret (RProperty PBoolean)
  else if String.eqb type "string" then Ret (RProperty PString)
  else if String.eqb type "float" then Ret (RProperty PFloat)
  else if String.eqb type "binary" then Ret (RProperty PBinary)
  else Exc RuntimeError.

(** spStrMap_t, libs/corda-utils/include/types.h:34: std::map<std::string,
    std::shared_ptr<ISerialiser>>; [None] is the null pointer operator[] stores
    for a key it does not find. *)
Definition ptr_map : Type := list (string * option nat).

(** [map[k] = p], e.g. CompositeFactoryInternal.cxx:51 and 365: the key had at
    most one entry, which is replaced. *)
Definition put (k : string) (p : option nat) (m : ptr_map) : ptr_map :=
  (k, p) :: filter (fun e => negb (String.eqb (fst e) k)) m.

(** CompositeFactoryInternal.h:31-32 and the heap. *)
Record factory : Type := { heap : list reader; types : ptr_map; descriptors : ptr_map }.

(** CompositeFactoryInternal.h:35 *)
Definition new_factory : factory := {| heap := []; types := []; descriptors := [] |}.

Definition set_types (m : ptr_map) (f : factory) : factory :=
  {| heap := heap f; types := m; descriptors := descriptors f |}.
Definition set_descriptors (m : ptr_map) (f : factory) : factory :=
  {| heap := heap f; types := types f; descriptors := m |}.

Definition owns (m : ptr_map) (i : nat) : bool :=
  existsb (fun e => match snd e with Some j => Nat.eqb i j | None => false end) m.

(** weak_ptr::lock(), e.g. CompositeReader.cxx:72 and MapReader.cxx:53-54: the
    object, if it is alive. *)
Definition lock (f : factory) (i : nat) : option reader :=
  if owns (types f) i || owns (descriptors f) i then nth_error (heap f) i else None.

(** CompositeFactoryInternal.cxx:339-345, 349-355: a missing key and a null
    entry both give nullptr. *)
Definition byType (f : factory) (type : string) : option nat :=
  match assoc type (types f) with Some p => p | None => None end.
Definition byDescriptor (f : factory) (descriptor : string) : option nat :=
  match assoc descriptor (descriptors f) with Some p => p | None => None end.

Definition FM (A : Type) := factory -> outcome factory A.

(** std::make_shared, CompositeFactoryInternal.cxx:137, 209, 262, 279 and 295. *)
Definition make (r : reader) : FM nat :=
  fun f => Ok (List.length (heap f))
              {| heap := heap f ++ [r]; types := types f; descriptors := descriptors f |}.

(** [m_serialisersByType[k]] read as a value, CompositeFactoryInternal.cxx:96,
    165, 178 and 234: inserts a null entry for a missing key. *)
Definition types_at (k : string) : FM (option nat) :=
  fun f => match assoc k (types f) with
           | Some p => Ok p f
           | None => Ok None (set_types (put k None (types f)) f)
           end.

(** CompositeFactoryInternal.cxx:40-68 on m_serialisersByType.  The right-hand
    side of the assignment at line 51 is evaluated first (C++17), so nothing is
    stored when [make_] throws.  The assertion at line 57 holds for every call
    in the code; it is kept.  Debug output is on (libs/corda-utils/include/
    debug.h:5), so that line 62 calls name() on what was found before line 64
    asserts that it is not null. *)
Definition computeIfAbsent (k : string) (make_ : FM nat) : FM nat :=
  fun f => match assoc k (types f) with
           | None =>
               (let! i := make_ in
                fun f =>
                  let f' := set_types (put k (Some i) (types f)) f in
                  match nth_error (heap f') i with
                  | Some r => if String.eqb k (reader_type r) then Ok i f' else Abort
                  | None => UB
                  end) f
           | Some (Some i) => Ok i f
           | Some None => UB                                     (* line 62 *)
           end.

(** [makePropertyReader (type)] as the function passed to computeIfAbsent,
    lines 158-160 and 230-232. *)
Definition make_property (type : string) : FM nat :=
  let! r := lift (makePropertyReader type) in make r.

(** The loop of processComposite, lines 145-194.  [self] is [rtn], [name] the
    name of the class.  (Lines 147 and 188 evaluate [resolvedType()[0]], which is
    defined for an empty string, too.) *)
Fixpoint property_readers (self : nat) (name : string) (fields : list field) : FM (list nat) :=
  match fields with
  | [] => ret []
  | fd :: fields' =>
      let! t := lift (resolvedType fd) in
      let! p :=
        match f_kind fd with
        | PrimitiveField => let! i := computeIfAbsent t (make_property (f_type fd)) in ret (Some i)
        | CustomField => types_at t
        | _ => if String.eqb t name then ret (Some self) else types_at t
        end in
      match p with
      | None => throw RuntimeError
      | Some i => let! is := property_readers self name fields' in ret (i :: is)
      end
  end.

(** rtn->install (readers), CompositeSerialiser.h:32-37 *)
Definition install_kids (i : nat) (ks : list nat) : FM unit :=
  fun f => match nth_error (heap f) i with
           | Some (RComposite t _) =>
               Ok tt {| heap := firstn i (heap f) ++ [RComposite t ks] ++ skipn (S i) (heap f);
                        types := types f; descriptors := descriptors f |}
           | _ => UB
           end.

(** CompositeFactoryInternal.cxx:127-198 *)
Definition processComposite (c : composite) : FM nat :=
  let! self := make (RComposite (c_name c) []) in
  let! readers := property_readers self (c_name c) (c_fields c) in
  install_kids self readers ;;
  ret self.

(** CompositeFactoryInternal.cxx:218-247 *)
Definition fetchReaderForRestricted (type : string) : FM nat :=
  if typeIsPrimitive type then computeIfAbsent type (make_property type)
  else let! p := types_at type in
       match p with
       | Some i => ret i
       | None => throw RuntimeError
       end.

(** CompositeFactoryInternal.cxx:251-268.  The order in which the arguments of
    make_shared are evaluated is unspecified: [key_first] is the compiler's
    choice. *)
Definition processMap (key_first : bool) (r : restricted) : FM nat :=
  let! (k, v) :=
    if key_first then
      let! k := fetchReaderForRestricted (of0 r) in
      let! v := fetchReaderForRestricted (of1 r) in ret (k, v)
    else
      let! v := fetchReaderForRestricted (of1 r) in
      let! k := fetchReaderForRestricted (of0 r) in ret (k, v) in
  make (RMap (r_name r) k v).

(** CompositeFactoryInternal.cxx:304-335 with processList (272-284),
    processEnum (202-214) and processArray (288-300). *)
Definition processRestricted (key_first : bool) (r : restricted) : FM nat :=
  match r_kind r with
  | list_t => let! e := fetchReaderForRestricted (of0 r) in make (RList (r_name r) e)
  | enum_t => make (REnum (r_name r) (r_choices r))
  | map_t => processMap key_first r
  | array_t => let! e := fetchReaderForRestricted (of0 r) in make (RArray (r_name r) e)
  end.

(** CompositeFactoryInternal.cxx:103-123 *)
Definition process_type (key_first : bool) (t : notation) : FM nat :=
  computeIfAbsent (n_name t)
    match t with
    | TComposite c => processComposite c
    | TRestricted r => processRestricted key_first r
    end.

(** The body of the loop at CompositeFactoryInternal.cxx:94-97. *)
Definition process_entry (key_first : bool) (t : notation) : FM unit :=
  process_type key_first t ;;
  let! p := types_at (n_name t) in
  fun f => Ok tt (set_descriptors (put (n_descriptor t) p (descriptors f)) f).

Fixpoint process_entries (key_first : bool) (ts : list notation) : FM unit :=
  match ts with
  | [] => ret tt
  | t :: ts' => process_entry key_first t ;; process_entries key_first ts'
  end.

(** CompositeFactoryInternal.cxx:88-99: the groups in order, each in order. *)
Definition process (key_first : bool) (s : schema) : FM unit :=
  process_entries key_first (List.concat (s_types s)).

(** CompositeFactoryInternal.cxx:359-366; [r] is the serialiser object the
    caller made. *)
Definition installCustomSerialiser (r : reader) : FM unit :=
  let! i := make r in
  fun f => Ok tt (set_types (put (reader_type r) (Some i) (types f)) f).
