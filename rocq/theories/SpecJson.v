(** JSON texts (RFC 8259), for what the Avro form of a schema should be.
    The values of unicode escapes are taken generously. *)
From Verif Require Import Base.
Import List ListNotations.
Open Scope string_scope.

Inductive json : Type :=
| JNull | JTrue | JFalse
| JNumber (s : string)
| JString (s : string)
| JArray (l : list json)
| JObject (l : list (string * json)).

(** White space *)
Definition white (c : ascii) : Prop := c = " "%char \/ c = "009"%char \/ c = "010"%char \/ c = "013"%char.
Definition space (s : string) : Prop := Forall white (list_ascii_of_string s).

(** A character that stands for itself in a string. *)
Definition unescaped (c : ascii) : Prop := 32 <= nat_of_ascii c /\ c <> "034"%char /\ c <> "\"%char.

(** [chars_text v t]: [t], between quotation marks, stands for the string [v]. *)
Inductive chars_text : string -> string -> Prop :=
| CEnd : chars_text "" ""
| CPlain c v t : unescaped c -> chars_text v t -> chars_text (String c v) (String c t)
| CEscape c e v t :
    In (e, c) [("034"%char, "034"%char); ("\"%char, "\"%char); ("/"%char, "/"%char); ("b"%char, "008"%char);
               ("f"%char, "012"%char); ("n"%char, "010"%char); ("r"%char, "013"%char); ("t"%char, "009"%char)] ->
    chars_text v t -> chars_text (String c v) (String "\" (String e t))
| CUnicode u a b c d v t : unescaped a -> unescaped b -> unescaped c -> unescaped d ->
    chars_text v t -> chars_text (u ++ v) (String "\" (String "u" (String a (String b (String c (String d t)))))).
Definition string_text (v t : string) : Prop := exists b, t = String "034" (b ++ String "034" "") /\ chars_text v b.

(** Numbers: a sign, a whole number without superfluous zeros, a fraction, an
    exponent. *)
Definition digits (s : string) : Prop :=
  s <> "" /\ Forall (fun c => In c (list_ascii_of_string "0123456789")) (list_ascii_of_string s).
Definition whole (s : string) : Prop := s = "0" \/ (digits s /\ forall r, s <> String "0" r).
Definition number (s : string) : Prop := exists m i f e, s = m ++ i ++ f ++ e /\ (m = "" \/ m = "-") /\ whole i /\
  (f = "" \/ exists d, f = "." ++ d /\ digits d) /\
  (e = "" \/ exists c g d, e = String c (g ++ d) /\ (c = "e"%char \/ c = "E"%char) /\ (g = "" \/ g = "+" \/ g = "-") /\ digits d).

Inductive value_text : json -> string -> Prop :=
| VNull : value_text JNull "null"
| VTrue : value_text JTrue "true"
| VFalse : value_text JFalse "false"
| VNumber s : number s -> value_text (JNumber s) s
| VString s t : string_text s t -> value_text (JString s) t
| VEmptyArray w : space w -> value_text (JArray []) ("[" ++ w ++ "]")
| VArray l t : elements_text l t -> value_text (JArray l) ("[" ++ t ++ "]")
| VEmptyObject w : space w -> value_text (JObject []) ("{" ++ w ++ "}")
| VObject l t : members_text l t -> value_text (JObject l) ("{" ++ t ++ "}")
with elements_text : list json -> string -> Prop :=
| ELast v w1 t w2 : space w1 -> value_text v t -> space w2 -> elements_text [v] (w1 ++ t ++ w2)
| EMore v w1 t w2 l ts : space w1 -> value_text v t -> space w2 -> elements_text l ts ->
    elements_text (v :: l) (w1 ++ t ++ w2 ++ "," ++ ts)
with members_text : list (string * json) -> string -> Prop :=
| MLast k v w1 kt w2 w3 t w4 : space w1 -> string_text k kt -> space w2 -> space w3 -> value_text v t -> space w4 ->
    members_text [(k, v)] (w1 ++ kt ++ w2 ++ ":" ++ w3 ++ t ++ w4)
| MMore k v w1 kt w2 w3 t w4 l ts : space w1 -> string_text k kt -> space w2 -> space w3 -> value_text v t -> space w4 ->
    members_text l ts ->
    members_text ((k, v) :: l) (w1 ++ kt ++ w2 ++ ":" ++ w3 ++ t ++ w4 ++ "," ++ ts).

Definition json_text (v : json) (s : string) : Prop :=
  exists w1 t w2, s = w1 ++ t ++ w2 /\ space w1 /\ value_text v t /\ space w2.
