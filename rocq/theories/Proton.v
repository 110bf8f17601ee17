(** Model of qpid-proton's [pn_data_t] and of libs/proton-wrapper.

    Proton is an external C library (not part of /repo).  Its node store is
    modelled as an ordered forest with a cursor: [pn_data_t] keeps node ids
    [current] and [parent]; a node has an atom, its first child ([down]), its
    right neighbour ([next]) and a [children] counter.  The zipper below keeps
    the same information: [here] is the list of children of [parent] with the
    current node marked (or none, [Before], when [current == 0]) and [ups] is
    the chain of parents.  This is part of the trusted base. *)
From Verif Require Import Base.

(** pn_type_t, as listed in libs/proton-wrapper/src/proton_wrapper.cxx:25-52. *)
Inductive pn_type : Type :=
| TNull | TBool | TUByte | TByte | TUShort | TShort | TUInt | TInt | TChar
| TULong | TLong | TTimestamp | TFloat | TDouble | TDecimal32 | TDecimal64
| TDecimal128 | TUuid | TBinary | TString | TSymbol | TDescribed | TArray
| TList | TMap | TInvalid.

(** pn_atom_t: the value stored in a node (for the types listed at
    proton_wrapper.cxx:25-52).  Floating point values are kept as
    their bit pattern. *)
Inductive atom : Type :=
| ANull | ABool (b : bool) | AUByte (n : N) | AByte (z : Z) | AUShort (n : N)
| AShort (z : Z) | AUInt (n : N) | AInt (z : Z) | AChar (n : N) | AULong (n : N)
| ALong (z : Z) | ATimestamp (z : Z) | AFloat (bits : N) | ADouble (bits : N)
| ADecimal32 (n : N) | ADecimal64 (n : N) | ADecimal128 (n : N) | AUuid (n : N)
| ABinary (s : string) | AString (s : string) | ASymbol (s : string)
| ADescribed | AArray | AList | AMap.

Definition atom_type (a : atom) : pn_type :=
  match a with
  | ANull => TNull | ABool _ => TBool | AUByte _ => TUByte | AByte _ => TByte
  | AUShort _ => TUShort | AShort _ => TShort | AUInt _ => TUInt | AInt _ => TInt
  | AChar _ => TChar | AULong _ => TULong | ALong _ => TLong
  | ATimestamp _ => TTimestamp | AFloat _ => TFloat | ADouble _ => TDouble
  | ADecimal32 _ => TDecimal32 | ADecimal64 _ => TDecimal64
  | ADecimal128 _ => TDecimal128 | AUuid _ => TUuid | ABinary _ => TBinary
  | AString _ => TString | ASymbol _ => TSymbol | ADescribed => TDescribed
  | AArray => TArray | AList => TList | AMap => TMap
  end.

Definition pn_type_eqb (a b : pn_type) : bool :=
  match a, b with
  | TNull, TNull | TBool, TBool | TUByte, TUByte | TByte, TByte
  | TUShort, TUShort | TShort, TShort | TUInt, TUInt | TInt, TInt
  | TChar, TChar | TULong, TULong | TLong, TLong | TTimestamp, TTimestamp
  | TFloat, TFloat | TDouble, TDouble | TDecimal32, TDecimal32
  | TDecimal64, TDecimal64 | TDecimal128, TDecimal128 | TUuid, TUuid
  | TBinary, TBinary | TString, TString | TSymbol, TSymbol
  | TDescribed, TDescribed | TArray, TArray | TList, TList | TMap, TMap
  | TInvalid, TInvalid => true
  | _, _ => false
  end.

(** pni_node_t: an atom and its children, in order. *)
Inductive tree : Type := Node (a : atom) (cs : list tree).

Definition tree_atom (t : tree) : atom := let 'Node a _ := t in a.
Definition tree_children (t : tree) : list tree := let 'Node _ cs := t in cs.

(** The children of the current parent with the cursor: before the first one
    ([current == 0]) or on one of them (left neighbours nearest first). *)
Inductive pos : Type :=
| Before (cs : list tree)
| At (l : list tree) (t : tree) (r : list tree).

Record frame : Type := Frame { fl : list tree; fa : atom; fr : list tree }.

(** pn_data_t, e.g. the member at AMQPBlob.h:37. *)
Record data : Type := Data { here : pos; ups : list frame }.

Definition siblings (p : pos) : list tree :=
  match p with Before cs => cs | At l t r => rev_append l (t :: r) end.

(** ** proton's cursor API *)

(** [pn_data (0)], e.g. EnvelopeDescriptor.cxx:151: an empty pn_data_t. *)
Definition pn_data : data := Data (Before []) [].

(** pn_data_next, called e.g. at proton_wrapper.cxx:124 and 436: move to the
    right neighbour, or to the first child of the parent when there is no
    current node; on failure the cursor stays put. *)
Definition pn_next_ok (d : data) : bool :=
  match here d with
  | Before (_ :: _) => true
  | At _ _ (_ :: _) => true
  | _ => false
  end.
Definition pn_next (d : data) : data :=
  match here d with
  | Before (t :: r) => Data (At [] t r) (ups d)
  | At l t (t' :: r) => Data (At (t :: l) t' r) (ups d)
  | _ => d
  end.

(** pn_data_enter, called e.g. at proton_wrapper.cxx:123: the current node
    becomes the parent and there is no current node; does nothing when there is
    no current node. *)
Definition pn_enter (d : data) : data :=
  match here d with
  | At l (Node a cs) r => Data (Before cs) (Frame l a r :: ups d)
  | Before _ => d
  end.

(** pn_data_exit, called e.g. at proton_wrapper.cxx:414: the parent becomes
    current; does nothing at the top level. *)
Definition pn_exit (d : data) : data :=
  match ups d with
  | Frame l a r :: u => Data (At l (Node a (siblings (here d))) r) u
  | [] => d
  end.

(** pn_data_type, called e.g. at proton_wrapper.cxx:131: PN_INVALID when there
    is no current node. *)
Definition pn_dtype (d : data) : pn_type :=
  match here d with
  | At _ (Node a _) _ => atom_type a
  | Before _ => TInvalid
  end.

(** The getters return the stored value when the current node has the right
    type and zero / an empty string otherwise.  (pn_data_get_int, _uint, _long,
    _ulong, _bool, _double, _float, _char, _string, _symbol, _binary; called e.g.
    at proton_wrapper.cxx:519, 549, 534, 564, 608 and 623, PrimToSerializer.h:114
    and 171, proton_wrapper.cxx:582, 585 and 639.) *)
Definition cur_atom (d : data) : option atom :=
  match here d with At _ (Node a _) _ => Some a | Before _ => None end.
Definition pn_get_int (d : data) : Z :=
  match cur_atom d with Some (AInt z) => z | _ => 0%Z end.
Definition pn_get_uint (d : data) : N :=
  match cur_atom d with Some (AUInt n) => n | _ => 0%N end.
Definition pn_get_long (d : data) : Z :=
  match cur_atom d with Some (ALong z) => z | _ => 0%Z end.
Definition pn_get_ulong (d : data) : N :=
  match cur_atom d with Some (AULong n) => n | _ => 0%N end.
Definition pn_get_bool (d : data) : bool :=
  match cur_atom d with Some (ABool b) => b | _ => false end.
Definition pn_get_double (d : data) : N :=
  match cur_atom d with Some (ADouble b) => b | _ => 0%N end.
Definition pn_get_float (d : data) : N :=
  match cur_atom d with Some (AFloat b) => b | _ => 0%N end.
Definition pn_get_char (d : data) : N :=
  match cur_atom d with Some (AChar c) => c | _ => 0%N end.
(** [None] stands for a null [start] pointer (size 0). *)
Definition pn_get_string (d : data) : option string :=
  match cur_atom d with Some (AString s) => Some s | _ => None end.
Definition pn_get_symbol (d : data) : option string :=
  match cur_atom d with Some (ASymbol s) => Some s | _ => None end.
Definition pn_get_binary (d : data) : option string :=
  match cur_atom d with Some (ABinary s) => Some s | _ => None end.
(** pn_data_get_list / pn_data_get_map, called e.g. at proton_wrapper.cxx:447 and
    479: number of children of a list / map. *)
Definition pn_get_list (d : data) : nat :=
  match here d with At _ (Node AList cs) _ => List.length cs | _ => 0 end.
Definition pn_get_map (d : data) : nat :=
  match here d with At _ (Node AMap cs) _ => List.length cs | _ => 0 end.

(** pn_data_put_*, called e.g. at EnvelopeDescriptor.cxx:153-165: the new node
    goes right after the current one (or becomes the parent's first child),
    becomes current, and reuses - overwrites - the node that was there, which
    loses its children. *)
Definition pn_put_tree (t : tree) (d : data) : data :=
  match here d with
  | At l c r => Data (At (c :: l) t (List.tl r)) (ups d)
  | Before cs => Data (At [] t (List.tl cs)) (ups d)
  end.
Definition pn_put (a : atom) (d : data) : data := pn_put_tree (Node a []) d.

(** pn_data_append (dst, src), EnvelopeDescriptor.cxx:161-162: copy every
    top-level node of [src] after the current node of [dst]; [src] keeps its
    cursor.  (Simplification: the copy is done tree by tree rather than node by
    node.) *)
Fixpoint root_forest (here_ : list tree) (u : list frame) : list tree :=
  match u with
  | [] => here_
  | Frame l a r :: u' => root_forest (rev_append l (Node a here_ :: r)) u'
  end.
Definition forest (d : data) : list tree := root_forest (siblings (here d)) (ups d).
Definition pn_append (src : data) (dst : data) : data :=
  fold_left (fun d t => pn_put_tree t d) (forest src) dst.

(** A freshly decoded blob (pn_data_decode, called at
    libs/amqp/src/AMQPBlob.cxx:29-39) has its single value current. *)
Definition decoded (t : tree) : data := Data (At [] t []) [].

(** ** libs/proton-wrapper *)

(** proton_wrapper.cxx:121-125 *)
Definition w_enter (d : data) : data := pn_next (pn_enter d).

Definition PM (A : Type) := data -> outcome data A.

Definition is_type (ty : pn_type) (d : data) : bool := pn_type_eqb (pn_dtype d) ty.

(** proton_wrapper.cxx:129-132, 149-152, 156-159 *)
Definition is_described : data -> bool := is_type TDescribed.
Definition is_bool : data -> bool := is_type TBool.
Definition is_null : data -> bool := is_type TNull.

(** The shape shared by is_ulong, is_symbol, is_map and all attest_is_* but the
    string one, proton_wrapper.cxx:136-316: throw std::runtime_error unless the
    type matches. *)
Definition require (ty : pn_type) : PM unit :=
  fun d => if is_type ty d then Ok tt d else Throw RuntimeError d.

(** proton_wrapper.cxx:136-144 *)
Definition is_ulong : PM unit := require TULong.
(** proton_wrapper.cxx:163-168 *)
Definition is_symbol : PM unit := require TSymbol.
(** proton_wrapper.cxx:174-186 *)
Definition attest_is_described : PM unit := require TDescribed.
(** proton_wrapper.cxx:192-200 *)
Definition attest_is_int : PM unit := require TInt.
(** proton_wrapper.cxx:206-214 *)
Definition attest_is_binary : PM unit := require TBinary.
(** proton_wrapper.cxx:220-228 *)
Definition attest_is_bool : PM unit := require TBool.
(** proton_wrapper.cxx:234-242 *)
Definition attest_is_float : PM unit := require TFloat.
(** proton_wrapper.cxx:248-256 *)
Definition attest_is_long : PM unit := require TLong.
(** proton_wrapper.cxx:262-270 *)
Definition attest_is_char : PM unit := require TChar.
(** proton_wrapper.cxx:276-284 *)
Definition attest_is_double : PM unit := require TDouble.
(** proton_wrapper.cxx:290-301 *)
Definition attest_is_list : PM unit := require TList.
(** proton_wrapper.cxx:307-316 *)
Definition is_map : PM unit := require TMap.

(** proton_wrapper.cxx:328-340: throws only when [allowNull] is set and the
    value is neither a string nor null. *)
Definition attest_is_string (allowNull : bool) : PM unit :=
  fun d => if negb (is_type TString d)
           then if allowNull && negb (is_type TNull d)
                then Throw RuntimeError d
                else Ok tt d
           else Ok tt d.

(** protonToString's COMPLEX / PRIMITIVE column, proton_wrapper.cxx:25-52, and
    is_primitive, proton_wrapper.cxx:320-324. *)
Definition type_primitive (t : pn_type) : bool :=
  match t with
  | TNull | TTimestamp | TDescribed | TArray | TList | TMap | TInvalid => false
  | _ => true
  end.
Definition is_primitive (d : data) : bool := type_primitive (pn_dtype d).

(** proton_wrapper.cxx:344-356 *)
Definition get_string (allowNull : bool) : PM string :=
  fun d => match cur_atom d with
           | Some (AString s) => Ok s d
           | Some ANull => if allowNull then Ok ""%string d else Throw RuntimeError d
           | _ => Throw RuntimeError d
           end.

(** proton_wrapper.cxx:360-366 (and 368-373) *)
Definition get_symbol : PM string :=
  fun d => match cur_atom d with
           | Some (ASymbol s) => Ok s d
           | _ => Throw RuntimeError d
           end.

(** proton_wrapper.cxx:377-383 *)
Definition get_boolean : PM bool :=
  fun d => match cur_atom d with
           | Some (ABool b) => Ok b d
           | _ => Throw RuntimeError d
           end.

(** proton_wrapper.cxx:388-394 *)
Definition get_int : PM Z :=
  fun d => match cur_atom d with
           | Some (AInt z) => Ok z d
           | _ => Throw RuntimeError d
           end.

(** auto_enter, proton_wrapper.cxx:402-415: a scope that starts by entering the
    current node, moving to its first child (and, with [next_], once more) and
    ends with pn_data_exit on every path. *)
Definition auto_enter {A} (next_ : bool) (body : PM A) : PM A :=
  fun d => finally body pn_exit
             (if next_ then pn_next (w_enter d) else w_enter d).

(** auto_next, proton_wrapper.cxx:423-437: a scope that ends with pn_data_next
    on every path.  (The null pointer check at 427 is not modelled: the data
    pointer is never null.) *)
Definition auto_next {A} (body : PM A) : PM A := finally body pn_next.

(** auto_list_enter, proton_wrapper.cxx:445-469. *)
Definition auto_list_enter {A} (next_ : bool) (body : nat -> PM A) : PM A :=
  fun d => let n := pn_get_list d in
           finally (body n) pn_exit
             (if next_ then pn_next (pn_enter d) else pn_enter d).

(** auto_map_enter, proton_wrapper.cxx:477-501. *)
Definition auto_map_enter {A} (next_ : bool) (body : nat -> PM A) : PM A :=
  fun d => let n := pn_get_map d in
           finally (body n) pn_exit
             (if next_ then pn_next (pn_enter d) else pn_enter d).

(** Shape of the unchecked readAndNext<T>, proton_wrapper.cxx:509-565: getter,
    then next. *)
Definition read_raw {A} (get : data -> A) : PM A := fun d => Ok (get d) (pn_next d).

(** proton_wrapper.cxx:509-520 *)
Definition readAndNext_int : PM Z := read_raw pn_get_int.
(** proton_wrapper.cxx:524-535 *)
Definition readAndNext_long : PM Z := read_raw pn_get_long.
(** proton_wrapper.cxx:539-550 *)
Definition readAndNext_uint : PM N := read_raw pn_get_uint.
(** proton_wrapper.cxx:554-565 *)
Definition readAndNext_ulong : PM N := read_raw pn_get_ulong.
(** proton_wrapper.cxx:598-609 *)
Definition readAndNext_bool : PM bool := read_raw pn_get_bool.
(** proton_wrapper.cxx:613-624 *)
Definition readAndNext_double : PM N := read_raw pn_get_double.
(** proton_wrapper.cxx:628-666 (memcpy from a null pointer with size 0 is not
    treated as undefined behaviour). *)
Definition readAndNext_binary : PM string :=
  read_raw (fun d => match pn_get_binary d with Some s => s | None => ""%string end).
(** proton_wrapper.h:140-152: the unspecialised template throws at once; it is
    what readAndNext<float> and readAndNext<char> instantiate. *)
Definition readAndNext_generic {A} : PM A := throw RuntimeError.

(** proton_wrapper.cxx:569-594 *)
Definition readAndNext_string (tolerate : bool) : PM string :=
  auto_next
    (fun d => match cur_atom d with
              | Some (AString s) => Ok s d
              | Some (ASymbol s) => Ok s d
              | Some ANull => if tolerate then Ok ""%string d else Throw RuntimeError d
              | _ => Throw RuntimeError d
              end).
