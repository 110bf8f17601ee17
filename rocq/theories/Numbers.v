(** The text of numbers with a fractional part: std::to_string for double and for
    float, which libs/amqp/src/serialiser/serialisers/reader/property-readers/
    DoublePropertyReader.cxx:22, 36, 48 and libs/amqp/src/AMQPBlob.cxx:103, 105
    call.  The C++17 standard defines it as the text that sprintf makes with "%f";
    glibc's rounds the exact value to six places, ties to even.  Elsewhere in the
    model this is a parameter.  Doubles and floats are their bits (IEEE 754). *)
From Verif Require Import Base Readers.
Open Scope string_scope.

(** The quotient rounded to the nearest number, ties to even. *)
Definition round_half_even (p q : N) : N :=
  (let d := p / q in let r := p mod q in
   if 2 * r <? q then d else if q <? 2 * r then d + 1 else if N.even d then d else d + 1)%N.

(** [m * 2 ^ e] in millionths. *)
Definition millionths (m : N) (e : Z) : N :=
  (if (0 <=? e)%Z then m * 2 ^ Z.to_N e * 10 ^ 6 else round_half_even (m * 10 ^ 6) (2 ^ Z.to_N (- e)))%N.

(** The last [k] decimal digits. *)
Fixpoint last_digits (k : nat) (n : N) : string :=
  match k with
  | O => ""
  | S k' => last_digits k' (n / 10) ++ String (ascii_of_N (48 + n mod 10)) ""
  end.

(** "%f" for a number with a fraction of [wf] bits, an exponent of [we] bits and a
    sign bit; also for infinities and for what is not a number. *)
Definition printf_f (wf we : N) (bits : N) : string :=
  let frac := (bits mod 2 ^ wf)%N in
  let ex := (bits / 2 ^ wf mod 2 ^ we)%N in
  (if N.testbit bits (wf + we) then "-" else "") ++
  (if (ex =? 2 ^ we - 1)%N then if (frac =? 0)%N then "inf" else "nan"
   else let m := if (ex =? 0)%N then frac else (2 ^ wf + frac)%N in
        let e := (Z.of_N (N.max 1 ex) - (2 ^ (Z.of_N we - 1) - 1) - Z.of_N wf)%Z in
        let n := millionths m e in
        dec (Z.of_N (n / 10 ^ 6)) ++ "." ++ last_digits 6 (n mod 10 ^ 6)).

(** std::to_string (double) and std::to_string (float). *)
Definition double_text (bits : N) : string := printf_f 52 11 bits.
Definition float_text (bits : N) : string := printf_f 23 8 bits.
