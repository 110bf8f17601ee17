(** What the entries of a schema section look like on the wire (the Corda wire
    format as documented in the comments of corda-descriptors/*.cxx), written
    as trees, independently of the code that writes or reads them. *)
From Verif Require Import Base Proton TypeNames SpecTypes SpecNames Schema SpecSchema.
Import List ListNotations.
Open Scope string_scope.

(** The vendor prefix: 0xc562 in the top 16 bits. *)
Definition vendor (code : N) : N := (50530 * 2 ^ 48 + code)%N.

Definition leaf (a : atom) : tree := Node a [].
Definition str (s : string) : tree := leaf (AString s).
(** A string that may be null on the wire. *)
Definition opt_str (o : option string) : tree :=
  match o with Some s => str s | None => leaf ANull end.
Definition text (o : option string) : string :=
  match o with Some s => s | None => "" end.
Definition list_of (cs : list tree) : tree := Node AList cs.
Definition described (code : N) (body : tree) : tree :=
  Node ADescribed [leaf (AULong (vendor code)); body].

(** A property. *)
Record wire_field : Type := {
  w_name : string; w_type : string; w_requires : list string;
  w_default : option string; w_label : option string;
  w_mandatory : bool; w_multiple : bool }.
Definition field_tree (w : wire_field) : tree :=
  described 4 (list_of [str (w_name w); str (w_type w);
    list_of (map str (w_requires w)); opt_str (w_default w); opt_str (w_label w);
    leaf (ABool (w_mandatory w)); leaf (ABool (w_multiple w))]).

(** A fingerprint; [more] is whatever follows the symbol. *)
Definition fingerprint_tree (fp : string) (more : list tree) : tree :=
  described 3 (list_of (leaf (ASymbol fp) :: more)).

Record wire_class : Type := {
  wc_name : string; wc_label : option string; wc_provides : list string;
  wc_fingerprint : string; wc_fields : list wire_field }.
Definition class_tree (c : wire_class) : tree :=
  described 5 (list_of [str (wc_name c); opt_str (wc_label c);
    list_of (map str (wc_provides c)); fingerprint_tree (wc_fingerprint c) [leaf ANull];
    list_of (map field_tree (wc_fields c))]).

Definition choice_tree (c : string) : tree := described 7 (list_of [str c]).

Record wire_container : Type := {
  wr_name : string; wr_label : option string; wr_provides : list string;
  wr_source : string; wr_fingerprint : string; wr_choices : list string }.
Definition container_tree (r : wire_container) : tree :=
  described 6 (list_of [str (wr_name r); opt_str (wr_label r);
    list_of (map str (wr_provides r)); str (wr_source r);
    fingerprint_tree (wr_fingerprint r) [leaf ANull];
    list_of (map choice_tree (wr_choices r))]).

Inductive wire_type : Type := WClass (c : wire_class) | WContainer (r : wire_container).
Definition type_tree (t : wire_type) : tree :=
  match t with WClass c => class_tree c | WContainer r => container_tree r end.

(** The types of a schema come in groups (the writer makes one group). *)
Definition schema_tree (groups : list (list wire_type)) : tree :=
  described 2 (list_of (map (fun g => list_of (map type_tree g)) groups)).

(** A serialised object starts with its fingerprint. *)
Definition payload_tree (fp : string) (body : list tree) : tree :=
  Node ADescribed (leaf (ASymbol fp) :: body).
Definition envelope_tree (payload : tree) (groups : list (list wire_type)) (more : list tree) : tree :=
  described 1 (list_of (payload :: schema_tree groups :: more)).

(** ** What they mean *)

(** Properties the library can represent: of a primitive type; of a class; a
    wildcard whose required types, if any, are container types (the first) that
    can be taken apart; an array whose required types can be taken apart. *)
Definition acceptable (w : wire_field) : Prop :=
  let t := w_type w in
  let parts_ok := Forall (fun r => exists parts, names_in r parts) (w_requires w) in
  primitive_name t = true \/
  (is_no_array t /\ t <> "*") \/
  (t = "*" /\ w_requires w = []) \/
  (t = "*" /\ (exists r rs, w_requires w = r :: rs /\ is_container r) /\ parts_ok) \/
  (is_array t /\ parts_ok).

(** The property an entry describes.  The required types of a primitive
    property are not kept. *)
Definition field_means (w : wire_field) (f : field) : Prop :=
  f_name f = w_name w /\ f_type f = w_type w /\
  f_requires f = (if primitive_name (w_type w) then [] else w_requires w) /\
  f_default f = text (w_default w) /\ f_label f = text (w_label w) /\
  f_mandatory f = w_mandatory w /\ f_multiple f = w_multiple w /\ field_made f.

Definition class_means (c : wire_class) (x : composite) : Prop :=
  c_name x = wc_name c /\ c_label x = text (wc_label c) /\ c_provides x = wc_provides c /\
  c_descriptor x = wc_fingerprint c /\ Forall2 field_means (wc_fields c) (c_fields x).

(** A list, map or enum entry; [e] is the type expression its name stands for. *)
Definition unboxed_exp : texp -> texp := map_names unboxed_name.
Definition readable (e : texp) : Prop :=
  Forall (fun n => plain n /\ (boxed n \/ unrelated n)) (names e).
Definition container_means (g : string) (e : texp) (c : wire_container) (x : restricted) : Prop :=
  r_name x = print g (unboxed_exp e) /\ r_label x = text (wr_label c) /\
  r_provides x = wr_provides c /\ r_descriptor x = wr_fingerprint c /\ r_source x = wr_source c /\
  match e with
  | TListOf t => r_kind x = list_t /\ r_of x = [print g (unboxed_exp t)]
  | TMapOf k v => r_kind x = map_t /\ r_of x = [print g (unboxed_exp k); print g (unboxed_exp v)]
  | TName _ => False
  end.
(** The source kind that goes with a type expression. *)
Definition source_of (e : texp) : string :=
  match e with TMapOf _ _ => "map" | _ => "list" end.

(** An enum: a list with constants. *)
Definition enum_means (c : wire_container) (x : restricted) : Prop :=
  r_kind x = enum_t /\ r_name x = makePrim (wr_name c) /\ r_label x = text (wr_label c) /\
  r_provides x = wr_provides c /\ r_descriptor x = wr_fingerprint c /\ r_source x = wr_source c /\
  r_choices x = wr_choices c.

(** An array; [e] is the element type's name. *)
Definition array_name (e : string) (c : wire_container) : Prop :=
  ~ has "[" e /\ (makePrim (wr_name c) = e ++ "[]" \/ makePrim (wr_name c) = e ++ "[p]").
Definition array_means (e : string) (c : wire_container) (x : restricted) : Prop :=
  r_kind x = array_t /\ r_name x = makePrim (wr_name c) /\ r_label x = text (wr_label c) /\
  r_provides x = wr_provides c /\ r_descriptor x = wr_fingerprint c /\ r_source x = wr_source c /\
  r_of x = [unboxed_name e].

(** Entries for which a meaning is given: classes without odd properties,
    lists, maps, arrays, enums. *)
Definition readable_type (w : wire_type) : Prop :=
  match w with
  | WClass c =>
      Forall (fun f => acceptable f /\ (w_type f = "*" -> w_requires f <> [])) (wc_fields c) /\
      isArray (wc_name c) = Ret false
  | WContainer c =>
      (exists g e, blanks g /\ readable e /\ (forall n, e <> TName n) /\ wr_name c = print g e /\
                   wr_source c = source_of e /\ wr_choices c = []) \/
      (wr_source c = "list" /\ wr_choices c <> []) \/
      (wr_source c = "list" /\ wr_choices c = [] /\ exists e, array_name e c)
  end.
Definition type_means (w : wire_type) (t : notation) : Prop :=
  match w, t with
  | WClass c, TComposite x => class_means c x
  | WContainer c, TRestricted x =>
      (exists g e, blanks g /\ readable e /\ wr_name c = print g e /\ container_means g e c x) \/
      (wr_choices c <> [] /\ enum_means c x) \/
      (exists e, array_name e c /\ array_means e c x)
  | _, _ => False
  end.
