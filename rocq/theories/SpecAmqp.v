(** Specification: the encodings that AMQP 1.0 (part 1, sections 1.3 and 1.6)
    gives to a value.  Most values have several.  Arrays are left out. *)
From Verif Require Import Base Proton Writer.
Import List ListNotations.
Open Scope string_scope.

(** The byte with a given number. *)
Definition byte (n : N) : string := String (ascii_of_N n) "".

(** [big_endian k n s]: the [k] bytes [s] are the number [n], most significant
    byte first. *)
Fixpoint number (s : string) : N :=
  match s with "" => 0 | String c s' => N_of_ascii c * 256 ^ N.of_nat (String.length s') + number s' end%N.
Definition big_endian (k : nat) (n : N) (s : string) : Prop := String.length s = k /\ number s = n.
(** Two's complement. *)
Definition twos_complement (k : nat) (z : Z) (s : string) : Prop :=
  exists n, big_endian k n s /\
    ((0 <= z < 2 ^ (8 * Z.of_nat k - 1) /\ z = Z.of_N n) \/
     (- 2 ^ (8 * Z.of_nat k - 1) <= z < 0 /\ z = Z.of_N n - 2 ^ (8 * Z.of_nat k)))%Z.

Definition text (k : nat) (x s : string) : Prop :=
  exists size, big_endian k (N.of_nat (String.length x)) size /\ s = size ++ x.

(** [scalar a code s]: the constructor byte [code] followed by [s] is [a]. *)
Inductive scalar : atom -> N -> string -> Prop :=
| s_null : scalar ANull 0x40 ""
| s_true : scalar (ABool true) 0x41 ""
| s_false : scalar (ABool false) 0x42 ""
| s_true_octet : scalar (ABool true) 0x56 (byte 1)
| s_false_octet : scalar (ABool false) 0x56 (byte 0)
| s_ubyte n s : big_endian 1 n s -> scalar (AUByte n) 0x50 s
| s_byte z s : twos_complement 1 z s -> scalar (AByte z) 0x51 s
| s_ushort n s : big_endian 2 n s -> scalar (AUShort n) 0x60 s
| s_short z s : twos_complement 2 z s -> scalar (AShort z) 0x61 s
| s_uint n s : big_endian 4 n s -> scalar (AUInt n) 0x70 s
| s_smalluint n s : big_endian 1 n s -> scalar (AUInt n) 0x52 s
| s_uint0 : scalar (AUInt 0) 0x43 ""
| s_int z s : twos_complement 4 z s -> scalar (AInt z) 0x71 s
| s_smallint z s : twos_complement 1 z s -> scalar (AInt z) 0x54 s
| s_ulong n s : big_endian 8 n s -> scalar (AULong n) 0x80 s
| s_smallulong n s : big_endian 1 n s -> scalar (AULong n) 0x53 s
| s_ulong0 : scalar (AULong 0) 0x44 ""
| s_long z s : twos_complement 8 z s -> scalar (ALong z) 0x81 s
| s_smalllong z s : twos_complement 1 z s -> scalar (ALong z) 0x55 s
| s_float n s : big_endian 4 n s -> scalar (AFloat n) 0x72 s
| s_double n s : big_endian 8 n s -> scalar (ADouble n) 0x82 s
| s_decimal32 n s : big_endian 4 n s -> scalar (ADecimal32 n) 0x74 s
| s_decimal64 n s : big_endian 8 n s -> scalar (ADecimal64 n) 0x84 s
| s_decimal128 n s : big_endian 16 n s -> scalar (ADecimal128 n) 0x94 s
| s_char n s : big_endian 4 n s -> scalar (AChar n) 0x73 s
| s_timestamp z s : twos_complement 8 z s -> scalar (ATimestamp z) 0x83 s
| s_uuid n s : big_endian 16 n s -> scalar (AUuid n) 0x98 s
| s_vbin8 x s : text 1 x s -> scalar (ABinary x) 0xa0 s
| s_vbin32 x s : text 4 x s -> scalar (ABinary x) 0xb0 s
| s_str8 x s : text 1 x s -> scalar (AString x) 0xa1 s
| s_str32 x s : text 4 x s -> scalar (AString x) 0xb1 s
| s_sym8 x s : text 1 x s -> scalar (ASymbol x) 0xa3 s
| s_sym32 x s : text 4 x s -> scalar (ASymbol x) 0xb3 s.

(** Lists and maps: constructor byte and the width of the size and the count. *)
Inductive compound : atom -> N -> nat -> Prop :=
| c_list8 : compound AList 0xc0 1
| c_list32 : compound AList 0xd0 4
| c_map8 : compound AMap 0xc1 1
| c_map32 : compound AMap 0xd1 4.

(** A list or map has its size in bytes (that of the count included), the number
    of its values (the keys and values of a map) and these; a described value has
    a descriptor and a value. *)
Inductive encodes : tree -> string -> Prop :=
| e_scalar a code s : scalar a code s -> encodes (Node a []) (byte code ++ s)
| e_list0 : encodes (Node AList []) (byte 0x45)
| e_compound a code k cs body size count :
    compound a code k -> encode_all cs body ->
    big_endian k (N.of_nat (k + String.length body)) size -> big_endian k (N.of_nat (List.length cs)) count ->
    encodes (Node a cs) (byte code ++ size ++ count ++ body)
| e_described d v s1 s2 : encodes d s1 -> encodes v s2 -> encodes (Node ADescribed [d; v]) (byte 0x00 ++ s1 ++ s2)
with encode_all : list tree -> string -> Prop :=
| e_nil : encode_all [] ""
| e_cons t ts s1 s2 : encodes t s1 -> encode_all ts s2 -> encode_all (t :: ts) (s1 ++ s2).

(** ** Values in range *)

(** What the types of proton's atoms guarantee. *)
Definition bits (k : Z) (n : N) : Prop := (Z.of_N n < 2 ^ k)%Z.
Definition range (k : Z) (z : Z) : Prop := (- 2 ^ (k - 1) <= z < 2 ^ (k - 1))%Z.
Definition in_range (a : atom) : Prop :=
  match a with
  | AUByte n => bits 8 n | AByte z => range 8 z | AUShort n => bits 16 n | AShort z => range 16 z
  | AUInt n | AFloat n | AChar n | ADecimal32 n => bits 32 n
  | AInt z => range 32 z
  | AULong n | ADouble n | ADecimal64 n => bits 64 n
  | ALong z | ATimestamp z => range 64 z
  | ADecimal128 n | AUuid n => bits 128 n
  | _ => True
  end.
(** Values that have an encoding unless they are too long: only compound values
    have parts, and there are no arrays. *)
Fixpoint proper (t : tree) : Prop :=
  let '(Node a cs) := t in
  in_range a /\
  match a with
  | AArray => False
  | AList | AMap => True
  | ADescribed => List.length cs = 2
  | _ => cs = []
  end /\
  fold_right (fun c P => proper c /\ P) True cs.

(** What the C++ types of the values in an object guarantee: int has 32 bits, long
    64 (char is the business of [well_formed]). *)
Definition prim_in_range (v : prim_value) : Prop :=
  match v with
  | OfInt z => range 32 z
  | OfLong z => range 64 z
  | OfDouble n => bits 64 n
  | OfFloat n => bits 32 n
  | _ => True
  end.
Fixpoint values_in_range (i : item) : Prop :=
  match i with
  | IPrim v | IPrimPtr _ (Some v) => prim_in_range v
  | IPrimPtr _ None | IPointer None => True
  | IObject _ _ ps => fold_right (fun p P => values_in_range (snd (snd p)) /\ P) True ps
  | IVector _ _ es => fold_right (fun e P => values_in_range e /\ P) True es
  | IMap _ _ kvs => fold_right (fun kv P => (values_in_range (fst kv) /\ values_in_range (snd kv)) /\ P) True kvs
  | IPointer (Some o) => values_in_range o
  end.

(** [encode] is an AMQP 1.0 encoder as far as this blob is concerned: it may take
    any of the forms there are. *)
Definition follows_amqp (encode : list tree -> string) (blob : data) : Prop :=
  forall t, forest blob = [t] -> encodes t (encode [t]).
