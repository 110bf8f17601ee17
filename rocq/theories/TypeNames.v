(** Type names: libs/amqp/src/schema/SchemaUtils.cxx, the name handling of
    restricted-types/Array.cxx, RestrictedDescriptor::makePrim and
    libs/corda-utils/include/types.h.

    Simplification used throughout: string sizes are natural numbers, i.e. the
    [size_t] arithmetic below is only exact for strings shorter than 2^63; the
    wrap-around that really happens, [npos + 1 == 0], is written out by case
    distinction on the result of [find]. *)
From Verif Require Import Base.
Open Scope string_scope.

(** SchemaUtils.cxx:14-23 *)
Definition boxedToUnboxed : list (string * string) :=
  [ ("java.lang.Integer", "int"); ("java.lang.Boolean", "bool");
    ("java.lang.Byte", "char"); ("java.lang.Short", "short");
    ("java.lang.Character", "char"); ("java.lang.Float", "float");
    ("java.lang.Long", "long"); ("java.lang.Double", "double") ].

Fixpoint assoc {A} (k : string) (l : list (string * A)) : option A :=
  match l with
  | [] => None
  | (k', a) :: l' => if String.eqb k k' then Some a else assoc k l'
  end.

(** SchemaUtils.cxx:45-51 *)
Definition unbox (type_ : string) : string :=
  match assoc type_ boxedToUnboxed with
  | None => type_
  | Some u => u
  end.

(** SchemaUtils.cxx:55-64.  With [pos == npos], [pos + 1] is 0 and
    [size - pos - 2] is [size - 1] ([npos] for the empty string). *)
Definition listType (list_ : string) : res (string * string) :=
  match find_char "<" list_ with
  | Some pos =>
      let? a := substr list_ 0 pos in
      let? b := substr list_ (pos + 1) (String.length list_ - pos - 2) in
      Ret (unbox a, unbox b)
  | None =>
      let? b := substr list_ 0 (String.length list_ - 1) in
      Ret (unbox list_, unbox b)
  end.
(* Note on [pos + 1] past the end: for "x<" the count [size - pos - 2] wraps to
   a huge number and the substring of the empty tail is empty; natural number
   subtraction gives 0, with the same result. *)

(** The scan of SchemaUtils.cxx:73-82: index of the first comma at nesting 0,
    counted from the start of [s], or the length of [s]. *)
Fixpoint comma_scan (s : string) (nesting : Z) : nat :=
  match s with
  | EmptyString => 0
  | String c s' =>
      if Ascii.eqb c "<" then S (comma_scan s' (nesting + 1))
      else if Ascii.eqb c ">" then S (comma_scan s' (nesting - 1))
      else if Ascii.eqb c "," && Z.eqb nesting 0 then 0
      else S (comma_scan s' nesting)
  end.

(** SchemaUtils.cxx:68-91 *)
Definition mapType (map_ : string) : res (string * string * string) :=
  let start := match find_char "<" map_ with Some pos => pos + 1 | None => 0 end in
  let? tail := substr map_ start (String.length map_) in
  let idx := start + comma_scan tail 0 in
  let? map := match find_char "<" map_ with
              | Some pos => substr map_ 0 pos
              | None => Ret map_
              end in
  let? of_ := substr map_ start (idx - start) in
  let of_ := drop_blanks of_ in
  let? to_ := substr map_ (idx + 1) (String.length map_ - (idx + 2)) in
  let to_ := drop_blanks to_ in
  Ret (map, unbox of_, unbox to_).
(* When the comma is the last character [size - (idx + 2)] wraps; the tail is
   empty and so is the result, as with natural number subtraction. *)

(** SchemaUtils.cxx:139-143 *)
Definition isList (type_ : string) : bool := starts_with "java.util.List" type_.
(** SchemaUtils.cxx:147-151 *)
Definition isMap (type_ : string) : bool := starts_with "java.util.Map" type_.

Definition chars (s : string) : list ascii := list_ascii_of_string s.

(** [std::equal (s.rbegin(), s.rbegin() + p.size(), p.rbegin(), p.rend())],
    SchemaUtils.cxx:133-134 and Array.cxx:36-41:
    compares from the back and reads past the front of [s] (undefined) when [s]
    is exhausted first.  (Forming the iterator [s.rbegin() + p.size()] past the
    front is not by itself treated as undefined.) *)
Fixpoint equal_rev (p s : list ascii) : res bool :=
  match p, s with
  | [], _ => Ret true
  | _ :: _, [] => Undef
  | a :: p', b :: s' => if Ascii.eqb b a then equal_rev p' s' else Ret false
  end.

(** SchemaUtils.cxx:129-135; the same text is at restricted-types/Array.cxx:33-42
    (Array::isArrayType). *)
Definition isArray (type_ : string) : res bool :=
  let? a := equal_rev (rev (chars "[]")) (rev (chars type_)) in
  if a then Ret true
  else equal_rev (rev (chars "[p]")) (rev (chars type_)).

(** restricted-types/Array.cxx:33-42 *)
Definition isArrayType : string -> res bool := isArray.

(** SchemaUtils.cxx:114-121 *)
Definition isContainer (type_ : string) : res bool :=
  let? a := isArray type_ in
  Ret (a || isList type_ || isMap type_).

(** restricted-types/Array.cxx:23-28 *)
Definition arrayType (array_ : string) : res string :=
  match find_char "[" array_ with
  | Some pos => substr array_ 0 pos
  | None => Ret array_
  end.

(** SchemaUtils.cxx:95-110.  [fuel] bounds the recursion depth; the component
    types are shorter than the type, so the length of the string suffices. *)
Fixpoint nested (fuel : nat) (type_ : string) : res (list string) :=
  match fuel with
  | 0 => NoFuel
  | S fuel' =>
      if isList type_ then
        let? (_, b) := listType type_ in
        let? l := nested fuel' b in
        Ret (type_ :: l)
      else if isMap type_ then
        let? (_, k, v) := mapType type_ in
        let? lk := nested fuel' k in
        let? lv := nested fuel' v in
        Ret (type_ :: lk ++ lv)%list
      else Ret [type_]
  end.
Definition nestedGenericTypes (type_ : string) : res (list string) :=
  nested (S (String.length type_)) type_.

(** ** RestrictedDescriptor::makePrim *)

(** A regular expression without operators, RestrictedDescriptor.cxx:22-50:
    [None] is the dot, which matches any character but a line terminator. *)
Definition rx_char_ok (p : option ascii) (c : ascii) : bool :=
  match p with
  | Some a => Ascii.eqb a c
  | None => negb (Ascii.eqb c "010" || Ascii.eqb c "013")
  end.
Fixpoint rx_match (p : list (option ascii)) (s : string) : bool :=
  match p, s with
  | [], _ => true
  | x :: p', String c s' => rx_char_ok x c && rx_match p' s'
  | _ :: _, EmptyString => false
  end.

(** [std::regex_replace], RestrictedDescriptor.cxx:64: leftmost,
    non-overlapping. [skip] counts the characters of the last match still to be
    dropped. *)
Fixpoint rx_replace (p : list (option ascii)) (by_ : string) (skip : nat) (s : string)
  : string :=
  match s with
  | EmptyString => EmptyString
  | String c s' =>
      match skip with
      | S k => rx_replace p by_ k s'
      | 0 => if rx_match p s
             then by_ ++ rx_replace p by_ (List.length p - 1) s'
             else String c (rx_replace p by_ 0 s')
      end
  end.

(** Read a pattern text as a regular expression, RestrictedDescriptor.cxx:22-50:
    dots are wildcards. *)
Definition rx_of (s : string) : list (option ascii) :=
  map (fun c => if Ascii.eqb c "." then None else Some c) (chars s).

(** RestrictedDescriptor.cxx:19-52; a std::map, so iterated in key order. *)
Definition regexs : list (string * string) :=
  [ ("java.lang.Boolean", "bool"); ("java.lang.Byte", "char");
    ("java.lang.Character", "char"); ("java.lang.Double", "double");
    ("java.lang.Float", "float"); ("java.lang.Integer", "int");
    ("java.lang.Long", "long"); ("java.lang.Short", "short") ].

(** RestrictedDescriptor.cxx:60-68 *)
Definition makePrim (name_ : string) : string :=
  fold_left (fun n r => rx_replace (rx_of (fst r)) (snd r) 0 n) regexs name_.

(** ** libs/corda-utils/include/types.h *)

(** The part of a C++ type javaTypeName looks at: std::string (types.h:149-151),
    std::vector, std::map, or the demangled name of anything else (typeName,
    types.h:52-64, is the compiler's and is not modelled). *)
Inductive ctype : Type :=
| CString
| CVector (t : ctype)
| CMap (k v : ctype)
| CNamed (demangled : string).

Definition rx_lit (s : string) : list (option ascii) := map Some (chars s).

(** types.h:127-136.  The first loop does not advance [pos] after removing a
    match, the second advances by the length of the replacement: both continue
    right after the matched text. *)
Definition javaName (str : string) : string :=
  rx_replace (rx_lit "::") "." 0
    (rx_replace (rx_lit "(anonymous namespace)::") "" 0 str).

(** types.h:85-90, 101-106, 110-141, 149-151 *)
Fixpoint javaTypeName (t : ctype) : string :=
  match t with
  | CString => "string"
  | CVector e => "java.util.List<" ++ javaTypeName e ++ ">"
  | CMap k v => "java.util.Map<" ++ javaTypeName k ++ "," ++ javaTypeName v ++ ">"
  | CNamed s => javaName s
  end.
