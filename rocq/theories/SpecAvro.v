(** What the Avro form of a schema should be: a JSON text that gives each class
    as a record. *)
From Verif Require Import Base SpecTypes SpecDescriptors SpecJson.
Import List ListNotations.
Open Scope string_scope.

(** A text that stands for itself between quotation marks. *)
Definition tame (s : string) : Prop := Forall unescaped (list_ascii_of_string s).

(** The type of a property: a wildcard is replaced by the first required type. *)
Definition property_type (w : wire_field) : string :=
  if String.eqb (w_type w) "*" then match w_requires w with r :: _ => r | [] => "" end else w_type w.

(** Not a list, map or array, and none of the texts on which isArray has
    undefined behaviour (C08). *)
Definition single (t : string) : Prop :=
  ~ begins_with "java.util.List" t /\ ~ begins_with "java.util.Map" t /\
  ~ finishes_with "[]" t /\ ~ finishes_with "[p]" t /\ t <> "" /\ t <> "]" /\ t <> "p]".

(** [package.name] *)
Definition qualified (full package name : string) : Prop :=
  full = package ++ "." ++ name /\ ~ has "." name.

Definition property_json (w : wire_field) : json :=
  JObject [("name", JString (w_name w)); ("type", JString (property_type w))].
Definition record_json (package name : string) (c : wire_class) : json :=
  JObject [("type", JString "record"); ("name", JString name); ("namespace", JString package);
           ("aliases", JArray [JString (wc_fingerprint c)]);
           ("fields", JArray (map property_json (wc_fields c)))].

(** Properties of single type, texts that need no escaping. *)
Definition simple_property (w : wire_field) : Prop :=
  tame (w_name w) /\ tame (property_type w) /\ single (property_type w).
Definition simple_class (c : wire_class) : Prop :=
  tame (wc_name c) /\ tame (wc_fingerprint c) /\ Forall simple_property (wc_fields c).

(** [s] is a JSON text for the class. *)
Definition describes (s : string) (c : wire_class) : Prop :=
  exists package name, qualified (wc_name c) package name /\ json_text (record_json package name c) s.

(** The classes one after the other, with a comma after each that is not the
    very last entry; nothing for lists, maps, arrays and enums. *)
Inductive listing : list wire_type -> string -> Prop :=
| LEnd : listing [] ""
| LContainer r g s : listing g s -> listing (WContainer r :: g) s
| LLast c t : describes t c -> listing [WClass c] (t ++ String "010" "")
| LMore c g t s : g <> [] -> describes t c -> listing g s ->
    listing (WClass c :: g) (t ++ "," ++ String "010" "" ++ s).

(** A type name that is not a JSON value: it has a character that JSON allows
    between quotation marks only, and no quotation marks. *)
Definition outside_chars : string := String "009" (String "010" (String "013" " :,{}[]0123456789+-.Eaeflnrstu")).
Definition bare (t : string) : Prop :=
  ~ has "034" t /\ exists c, has c t /\ ~ has c outside_chars.

(** A list, map or array type.  Lists end in a map or in a bare name; arrays are
    arrays of a bare name. *)
Fixpoint bare_inside (e : texp) : Prop :=
  match e with
  | TName n => single (unboxed_name n) /\ bare (unboxed_name n)
  | TListOf t => bare_inside t
  | TMapOf _ _ => True
  end.
Definition collection (t : string) : Prop :=
  (exists g e, blanks g /\ Forall plain (names e) /\ t = print g e /\ (forall n, e <> TName n) /\ bare_inside e) \/
  (exists n, single n /\ bare n /\ (t = n ++ "[]" \/ t = n ++ "[p]")).

(** A type none of whose texts needs escaping; a class is in a package, and each of its
    properties is of single type or a collection. *)
Definition plain_type (t : wire_type) : Prop :=
  match t with
  | WContainer _ => True
  | WClass c => tame (wc_name c) /\ tame (wc_fingerprint c) /\ has "." (wc_name c) /\
                Forall (fun w => simple_property w \/ (tame (w_name w) /\ collection (property_type w))) (wc_fields c)
  end.
