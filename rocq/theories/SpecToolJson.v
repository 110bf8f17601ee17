(** README.md:89-91 and :141 promise that data-dumper and blob-inspector print JSON,
    and so does a comment in AMQPBlob.cxx:306-307.  What the JSON would be, and which
    values it can be had for; JSON itself is in SpecJson.v. *)
From Verif Require Import Base Proton SpecTypes SpecJson SpecAvro Readers SpecReaders.
Import List ListNotations.
Open Scope string_scope.

Section Values.
(** How doubles and integers are written. *)
Context (double : N -> string) (numeral : Z -> string).

(** Numbers, strings, lists, and objects and maps with member names.  Booleans are
    shown as 1 and 0. *)
Fixpoint as_json (v : value) : json :=
  match v with
  | VInt z | VLong z => JNumber (numeral z)
  | VDouble b => JNumber (double b)
  | VBoolean b => JNumber (if b then "1" else "0")
  | VString s => JString s
  | VBinary _ | VNull | VEnum _ _ _ => JNull
  | VObject _ ps => JObject (map (fun p => (fst p, as_json (snd p))) ps)
  | VList _ es => JArray (map as_json es)
  | VMap _ kvs => JObject (map (fun kv => (match fst kv with VString s => s | _ => "" end, as_json (snd kv))) kvs)
  end.

(** No string needs escaping, doubles are written as numbers (they may be "inf"), the
    names of properties have no quotation marks, and the constants of enums have some
    character that is found in JSON between quotation marks only. *)
Fixpoint ordinary (v : value) : Prop :=
  match v with
  | VDouble b => number (double b)
  | VString s => tame s
  | VEnum _ c _ => bare c
  | VObject _ ps => fold_right (fun p P => (~ has """" (fst p) /\ ordinary (snd p)) /\ P) True ps
  | VList _ es => fold_right (fun v P => ordinary v /\ P) True es
  | VMap _ kvs => fold_right (fun kv P => (ordinary (fst kv) /\ ordinary (snd kv)) /\ P) True kvs
  | _ => True
  end.
End Values.

Definition is_text (v : value) : Prop := match v with VString _ => True | _ => False end.
(** Values in which there is no property, no null, no binary value and no enum
    constant, and all keys are strings. *)
Fixpoint nameless (v : value) : Prop :=
  match v with
  | VInt _ | VLong _ | VDouble _ | VBoolean _ | VString _ => True
  | VBinary _ | VNull | VEnum _ _ _ => False
  | VObject _ ps => ps = []
  | VList _ es => fold_right (fun v P => nameless v /\ P) True es
  | VMap _ kvs => fold_right (fun kv P => (is_text (fst kv) /\ nameless (snd kv)) /\ P) True kvs
  end.

(** Serialisers installed by the user show the name of the property, as the others do. *)
Definition labels (custom : nat -> option string -> PM ivalue) : Prop :=
  forall which n d v d', custom which (Some n) d = Ok v d' -> exists s, show v = n ++ " : " ++ s.

(** A text that begins, after white space, like a JSON array. *)
Definition like_an_array (s : string) : Prop := exists w r, space w /\ s = w ++ "[" ++ r.

Section Raw.
Context (double float : N -> string) (numeral : Z -> string).
(** Numbers, booleans and null by themselves or in lists that are not empty. *)
Fixpoint numbers (r : raw) : Prop :=
  match r with
  | RawValue (AInt _ | ALong _ | AUInt _ | AULong _ | ABool _ | ANull) => True
  | RawValue (ADouble b) => number (double b)
  | RawValue (AFloat b) => number (float b)
  | RawList es => es <> [] /\ fold_right (fun e P => numbers e /\ P) True es
  | _ => False
  end.
Fixpoint raw_json (r : raw) : json :=
  match r with
  | RawValue (AInt z | ALong z) => JNumber (numeral z)
  | RawValue (AUInt n | AULong n) => JNumber (numeral (Z.of_N n))
  | RawValue (ADouble b) => JNumber (double b)
  | RawValue (AFloat b) => JNumber (float b)
  | RawValue (ABool b) => if b then JTrue else JFalse
  | RawValue _ => JNull
  | RawList es | RawDescribed _ es => JArray (map raw_json es)
  end.
End Raw.
