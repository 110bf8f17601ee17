(** The bytes of a blob: AMQP 1.0 encoding.

    libs/amqp/src/CordaBytes.cxx:87-89 calls proton's pn_data_encode and
    libs/amqp/src/AMQPBlob.cxx:37-38 its pn_data_decode; proton is not part of
    /repo and elsewhere both are parameters of the model.  The functions below
    are written after the AMQP 1.0 standard (part 1, types), which proton
    implements: the decoder knows all forms of a value, the encoder takes the
    shortest form for numbers, texts and empty lists and the four byte form for
    other lists and maps (what proton makes of an object is in Conformance.v).  Arrays (which the library never writes) are left out. *)
From Verif Require Import Base Proton.
Import List ListNotations.
Open Scope string_scope.

Notation "'let*' ( a , b ) := m 'in' k" := (match m with Some (a, b) => k | None => None end)
  (at level 200, a name, b name, m at level 100, k at level 200).

(** ** Numbers: big-endian, with two's complement for signed ones *)

Definition octet (n : N) : string := String (ascii_of_N n) "".

Fixpoint put_be (k : nat) (n : N) : string :=
  match k with
  | O => ""
  | S k' => String (ascii_of_N (n / 256 ^ N.of_nat k')) (put_be k' (n mod 256 ^ N.of_nat k'))
  end.
Fixpoint get_be (k : nat) (s : string) : option (N * string) :=
  match k with
  | O => Some (0%N, s)
  | S k' => match s with
            | "" => None
            | String c s' => let* (m, r) := get_be k' s' in Some ((N_of_ascii c * 256 ^ N.of_nat k' + m)%N, r)
            end
  end.
Definition put_signed (k : nat) (z : Z) : string := put_be k (Z.to_N (z mod 256 ^ Z.of_nat k)).
Definition signed (k : nat) (n : N) : Z :=
  let half := (256 ^ Z.of_nat k / 2)%Z in
  if (Z.of_N n <? half)%Z then Z.of_N n else (Z.of_N n - 2 * half)%Z.

(** The next [n] bytes. *)
Fixpoint take (n : N) (s : string) : option (string * string) :=
  if (n =? 0)%N then Some ("", s)
  else match s with
       | "" => None
       | String c s' => let* (a, r) := take (n - 1) s' in Some (String c a, r)
       end.

(** ** Decoder *)

(** What follows a constructor byte: [Fixed k f], a number of [k] bytes; [Text k f],
    a length of [k] bytes and a text; [Compound k a], a size and a count of [k]
    bytes each and the values. *)
Inductive shape : Type :=
| Fixed (k : nat) (f : N -> atom)
| Text (k : nat) (f : string -> atom)
| Compound (k : nat) (a : atom)
| Described.

Definition shape_of (code : N) : option shape :=
  match code with
  | 0x00 => Some Described
  | 0x40 => Some (Fixed 0 (fun _ => ANull))
  | 0x41 => Some (Fixed 0 (fun _ => ABool true))
  | 0x42 => Some (Fixed 0 (fun _ => ABool false))
  | 0x43 => Some (Fixed 0 AUInt)
  | 0x44 => Some (Fixed 0 AULong)
  | 0x45 => Some (Compound 0 AList)
  | 0x50 => Some (Fixed 1 AUByte)
  | 0x51 => Some (Fixed 1 (fun n => AByte (signed 1 n)))
  | 0x52 => Some (Fixed 1 AUInt)
  | 0x53 => Some (Fixed 1 AULong)
  | 0x54 => Some (Fixed 1 (fun n => AInt (signed 1 n)))
  | 0x55 => Some (Fixed 1 (fun n => ALong (signed 1 n)))
  | 0x56 => Some (Fixed 1 (fun n => ABool (negb (n =? 0)%N)))
  | 0x60 => Some (Fixed 2 AUShort)
  | 0x61 => Some (Fixed 2 (fun n => AShort (signed 2 n)))
  | 0x70 => Some (Fixed 4 AUInt)
  | 0x71 => Some (Fixed 4 (fun n => AInt (signed 4 n)))
  | 0x72 => Some (Fixed 4 AFloat)
  | 0x73 => Some (Fixed 4 AChar)
  | 0x74 => Some (Fixed 4 ADecimal32)
  | 0x80 => Some (Fixed 8 AULong)
  | 0x81 => Some (Fixed 8 (fun n => ALong (signed 8 n)))
  | 0x82 => Some (Fixed 8 ADouble)
  | 0x83 => Some (Fixed 8 (fun n => ATimestamp (signed 8 n)))
  | 0x84 => Some (Fixed 8 ADecimal64)
  | 0x94 => Some (Fixed 16 ADecimal128)
  | 0x98 => Some (Fixed 16 AUuid)
  | 0xa0 => Some (Text 1 ABinary)
  | 0xa1 => Some (Text 1 AString)
  | 0xa3 => Some (Text 1 ASymbol)
  | 0xb0 => Some (Text 4 ABinary)
  | 0xb1 => Some (Text 4 AString)
  | 0xb3 => Some (Text 4 ASymbol)
  | 0xc0 => Some (Compound 1 AList)
  | 0xc1 => Some (Compound 1 AMap)
  | 0xd0 => Some (Compound 4 AList)
  | 0xd1 => Some (Compound 4 AMap)
  | _ => None
  end%N.

(** [n] values, one after the other. *)
Fixpoint many (one : string -> option (tree * string)) (n : nat) (s : string) : option (list tree * string) :=
  match n with
  | O => Some ([], s)
  | S n' => let* (t, s1) := one s in let* (ts, s2) := many one n' s1 in Some (t :: ts, s2)
  end.

(** One value at the start of [s], and what follows it.  The size of a list or
    map is read and not used: what counts is the number of its values.  [fuel]
    bounds the depth. *)
Fixpoint parse (fuel : nat) (s : string) : option (tree * string) :=
  match fuel, s with
  | S fuel', String c s' =>
      match shape_of (N_of_ascii c) with
      | None => None
      | Some (Fixed k f) => let* (n, r) := get_be k s' in Some (Node (f n) [], r)
      | Some (Text k f) => let* (n, r) := get_be k s' in let* (x, r') := take n r in Some (Node (f x) [], r')
      | Some (Compound k a) =>
          let* (size, r) := get_be k s' in let* (n, r1) := get_be k r in
          let* (ts, r2) := many (parse fuel') (N.to_nat n) r1 in Some (Node a ts, r2)
      | Some Described => let* (ts, r) := many (parse fuel') 2 s' in Some (Node ADescribed ts, r)
      end
  | _, _ => None
  end.

(** pn_data_decode, and the assertion that all of the bytes were used
    (AMQPBlob.cxx:37-38). *)
Definition amqp_decode (s : string) : option tree :=
  match parse (String.length s) s with
  | Some (t, "") => Some t
  | _ => None
  end.

(** ** Encoder *)

Definition put_text (short long : N) (s : string) : string :=
  let n := N.of_nat (String.length s) in
  if (n <? 256)%N then octet short ++ put_be 1 n ++ s else octet long ++ put_be 4 n ++ s.
Definition put_compound (code : N) (n : nat) (body : string) : string :=
  octet code ++ put_be 4 (N.of_nat (4 + String.length body)) ++ put_be 4 (N.of_nat n) ++ body.
Definition put_unsigned (short long : N) (k : nat) (n : N) : string :=
  if (n <? 256)%N then octet short ++ put_be 1 n else octet long ++ put_be k n.
Definition put_number (short long : N) (k : nat) (z : Z) : string :=
  if (-128 <=? z)%Z && (z <? 128)%Z then octet short ++ put_signed 1 z else octet long ++ put_signed k z.

Fixpoint encode_tree (t : tree) : string :=
  let '(Node a cs) := t in
  let all := fold_right (fun c s => encode_tree c ++ s) "" cs in
  match a with
  | ANull => octet 0x40
  | ABool b => octet (if b then 0x41 else 0x42)
  | AUByte n => octet 0x50 ++ put_be 1 n
  | AByte z => octet 0x51 ++ put_signed 1 z
  | AUShort n => octet 0x60 ++ put_be 2 n
  | AShort z => octet 0x61 ++ put_signed 2 z
  | AUInt n => put_unsigned 0x52 0x70 4 n
  | AInt z => put_number 0x54 0x71 4 z
  | AChar n => octet 0x73 ++ put_be 4 n
  | AULong n => put_unsigned 0x53 0x80 8 n
  | ALong z => put_number 0x55 0x81 8 z
  | ATimestamp z => octet 0x83 ++ put_signed 8 z
  | AFloat n => octet 0x72 ++ put_be 4 n
  | ADouble n => octet 0x82 ++ put_be 8 n
  | ADecimal32 n => octet 0x74 ++ put_be 4 n
  | ADecimal64 n => octet 0x84 ++ put_be 8 n
  | ADecimal128 n => octet 0x94 ++ put_be 16 n
  | AUuid n => octet 0x98 ++ put_be 16 n
  | ABinary s => put_text 0xa0 0xb0 s
  | AString s => put_text 0xa1 0xb1 s
  | ASymbol s => put_text 0xa3 0xb3 s
  | ADescribed => octet 0x00 ++ all
  | AList => match cs with [] => octet 0x45 | _ => put_compound 0xd0 (List.length cs) all end
  | AMap => put_compound 0xd1 (List.length cs) all
  | AArray => ""
  end%N.

(** pn_data_encode: the values one after the other. *)
Definition amqp_encode (ts : list tree) : string := fold_right (fun t s => encode_tree t ++ s) "" ts.
