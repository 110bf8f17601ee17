(** Specification for numbers with a fractional part: the number that the bits
    stand for (IEEE 754), and the number that a text stands for. *)
From Coq Require Import QArith Qabs.
From Verif Require Import Base.
Open Scope string_scope.

(** A format has a sign bit, [e_bits] bits for the exponent and [f_bits] for the
    fraction. *)
Record format : Type := { f_bits : N; e_bits : N }.
Definition binary64 : format := {| f_bits := 52; e_bits := 11 |}.
Definition binary32 : format := {| f_bits := 23; e_bits := 8 |}.

Section Format.
Context (F : format).
Definition fraction (b : N) : N := (b mod 2 ^ f_bits F)%N.
Definition exponent (b : N) : N := (b / 2 ^ f_bits F mod 2 ^ e_bits F)%N.
Definition negative (b : N) : bool := N.testbit b (f_bits F + e_bits F).
Definition top : N := (2 ^ e_bits F - 1)%N.
Definition bias : Z := (2 ^ (Z.of_N (e_bits F) - 1) - 1)%Z.

Definition finite (b : N) : Prop := exponent b <> top.
Definition infinite (b : N) : Prop := exponent b = top /\ fraction b = 0%N.
Definition not_a_number (b : N) : Prop := exponent b = top /\ fraction b <> 0%N.

(** Half a unit and so on: the fraction as a number between 0 and 1; the number is
    1 + fraction times a power of 2, or the fraction alone times the least power
    if the exponent is 0. *)
Definition magnitude (b : N) : Q :=
  let f := inject_Z (Z.of_N (fraction b)) / inject_Z (2 ^ Z.of_N (f_bits F)) in
  if (exponent b =? 0)%N then f * Qpower 2 (1 - bias)
  else (1 + f) * Qpower 2 (Z.of_N (exponent b) - bias).
Definition value (b : N) : Q := if negative b then - magnitude b else magnitude b.
End Format.

(** ** Texts *)

(** The digits of a text, read after those that make up [n]. *)
Fixpoint digits (n : N) (s : string) : option N :=
  match s with
  | "" => Some n
  | String c s' => let d := N_of_ascii c in
                   if (48 <=? d)%N && (d <=? 57)%N then digits (10 * n + (d - 48))%N s' else None
  end.
Fixpoint before_point (s : string) : string :=
  match s with "" => "" | String c s' => if (c =? ".")%char then "" else String c (before_point s') end.
Fixpoint after_point (s : string) : string :=
  match s with "" => "" | String c s' => if (c =? ".")%char then s' else after_point s' end.
Definition unsigned (s : string) : option Q :=
  match before_point s, digits 0 (before_point s), digits 0 (after_point s) with
  | String _ _, Some a, Some b =>
      Some (inject_Z (Z.of_N a) + inject_Z (Z.of_N b) / inject_Z (10 ^ Z.of_nat (String.length (after_point s))))
  | _, _, _ => None
  end.
Definition minus (s : string) : bool := match s with String c _ => (c =? "-")%char | "" => false end.
(** What a text stands for: an optional minus, at least one digit, a point, and
    digits. *)
Definition number (s : string) : option Q :=
  if minus s then match s with String _ s' => option_map Qopp (unsigned s') | "" => None end else unsigned s.
Definition stands_for (s : string) (q : Q) : Prop := exists r, number s = Some r /\ r == q.

(** Six places. *)
Definition places (s : string) : nat := String.length (after_point s).

(** A millionth and a half of it. *)
Definition millionth : Q := 1 # 1000000.
Definition half_millionth : Q := 1 # 2000000.

(** A number with at most six places. *)
Definition six_places (q : Q) : Prop := exists z : Z, q == inject_Z z / inject_Z 1000000.
