(** Specification for bin/writer-tests: the texts that inspection should show. *)
From Verif Require Import Base Readers Writer WriterTests.
Import List ListNotations.
Open Scope string_scope.

Definition quoted (s : string) : string := """" ++ s ++ """".
(** An object of test 5 and those it points to. *)
Fixpoint text5 (a : Z) (b : string) (rest : list (Z * string)) : string :=
  "{ m_a : " ++ dec a ++ ", m_b : """ ++ b ++ """, m_c : " ++
  match rest with [] => "<<NULL>>" | (a', b') :: rest' => text5 a' b' rest' end ++ " }".
(** The elements of test 8; doubles are printed by [fmt]. *)
Definition text8 (fmt : N -> string) (c : string * N) : string := "{ m_a : """ ++ fst c ++ """, m_b : " ++ fmt (snd c) ++ " }".
(** The elements of test 9. *)
Definition text9 (l : list Z) : string := "[ " ++ String.concat ", " (map dec l) ++ " ]".
(** The objects in the map of test 12. *)
Definition text12 (i : string * list Z) : string := "{ m_a : """ ++ fst i ++ """, m_b : " ++ text9 (snd i) ++ " }".

(** The objects that the programs serialise, with any arguments. *)
Inductive sample : item -> Prop :=
| sample1 val : sample (object1 val)
| sample2 a b c : sample (object2 a b c)
| sample3 a b : sample (object3 a b)
| sample4 a b c d e : sample (object4 a b c d e)
| sample5 a b rest : sample (object5 a b rest)
| sample6 l : sample (object6 l)
| sample7 l : sample (object7 l)
| sample8 l : sample (object8 l)
| sample9 l : sample (object9 l)
| sample10 m : sample (object10 m)
| sample11 m : sample (object11 m)
| sample12 m : sample (object12 m).
