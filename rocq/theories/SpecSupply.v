(** Specification for the outcome of processing a schema: it depends only on the
    names of the types, on the order in which they are listed, on the names that
    have a reader already, and on those an earlier, failed schema lacked. *)
From Verif Require Import Base TypeNames Schema SpecSchema Factory SpecFactory.
Import List ListNotations.
Open Scope string_scope.

(** A reader for [k] can be had when the entries [before] have been processed. *)
Definition available (f : factory) (before : list notation) (k : string) : Prop :=
  readable_prim k \/ byType f k <> None \/ exists u, In u before /\ n_name u = k.

(** The class itself. *)
Definition own (t : notation) (k : string) : Prop := ~ is_restricted t /\ k = n_name t.

(** Nothing that the entry [t] needs is missing. *)
Definition satisfied (f : factory) (before : list notation) (t : notation) : Prop :=
  available f before (n_name t) \/ forall k, named_by t k -> own t k \/ available f before k.

(** Nothing is missing when the entries are taken in the order [ts]. *)
Definition supplied (f : factory) (ts : list notation) : Prop :=
  forall before t behind, ts = (before ++ t :: behind)%list -> satisfied f before t.

(** A type that an earlier schema lacked. *)
Definition spoiled (f : factory) (k : string) : Prop := ~ unpoisoned f k.

(** The names an entry mentions, in the order in which they are looked up. *)
Definition looked_up (key_first : bool) (t : notation) (ks : list string) : Prop :=
  match t with
  | TComposite c => Forall2 (fun fd k => property_type fd = Some k) (c_fields c) ks
  | TRestricted r =>
      match r_kind r with
      | enum_t => ks = []
      | map_t => ks = if key_first then r_of r else rev (r_of r)
      | _ => ks = r_of r
      end
  end.

(** The entries [before] can be processed; [t], which comes next, cannot: [k] is
    the first name it looks up that no reader can be had for. *)
Definition lacks (key_first : bool) (f : factory) (before : list notation) (t : notation) (k : string) : Prop :=
  supplied f before /\ ~ available f before (n_name t) /\
  exists ks1 ks2, looked_up key_first t (ks1 ++ k :: ks2)%list /\
    (forall q, In q ks1 -> own t q \/ available f before q) /\ ~ own t k /\ ~ available f before k.

(** None of the entries is a type that an earlier schema lacked. *)
Definition unspoiled (f : factory) (ts : list notation) : Prop :=
  forall t, In t ts -> ~ spoiled f (n_name t).
