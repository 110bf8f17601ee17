(** Specification for deserialising: which objects were written, and what they
    look like when read. *)
From Verif Require Import Base Proton SpecDescriptors Writer SpecWriter Deserialise.
Import List ListNotations.
Open Scope string_scope.

(** No byte is zero. *)
Definition nul_free (s : string) : Prop := ~ In nul (list_ascii_of_string s).
Definition prim_plain (v : prim_value) : Prop :=
  match v with
  | OfString s => nul_free s
  | OfChar z => (-128 <= z < 128)%Z
  | _ => True
  end.

(** [back cs t i o]: something that was written as [i] and is an object of type
    [t] should be read as [o].  Nothing is null.  The classes agree on the types
    of their properties and on their order, not on names and fingerprints. *)
Inductive back (cs : classes) : ctype -> item -> object -> Prop :=
| back_prim v : prim_plain v -> back cs (RPrim (type_of v) false) (IPrim v) (OPrim v)
| back_prim_ptr v : prim_plain v ->
    back cs (RPrim (type_of v) true) (IPrimPtr (type_of v) (Some v)) (OPrimPtr v)
| back_class c n fp ps os : back_all cs (cs c) (map (fun p => snd (snd p)) ps) os ->
    back cs (RClass c false) (IObject n fp ps) (OClass c os)
| back_class_ptr c n fp ps os : back_all cs (cs c) (map (fun p => snd (snd p)) ps) os ->
    back cs (RClass c true) (IPointer (Some (IObject n fp ps))) (OClassPtr c os)
with back_all (cs : classes) : list ctype -> list item -> list object -> Prop :=
| back_nil : back_all cs [] [] []
| back_cons t ts i is o os : back cs t i o -> back_all cs ts is os -> back_all cs (t :: ts) (i :: is) (o :: os).

(** Strings with NUL bytes, too: what is read is what comes before the first. *)
Definition cut (v : prim_value) : prim_value :=
  match v with OfString s => OfString (c_str s) | _ => v end.

Fixpoint cut_item (i : item) : item :=
  match i with
  | IPrim v => IPrim (cut v)
  | IPrimPtr t v => IPrimPtr t (option_map cut v)
  | IObject n fp ps => IObject n fp (map (fun p => (fst p, (fst (snd p), cut_item (snd (snd p))))) ps)
  | IVector n fp es => IVector n fp (map cut_item es)
  | IMap n fp kvs => IMap n fp (map (fun kv => (cut_item (fst kv), cut_item (snd kv))) kvs)
  | IPointer o => IPointer (option_map cut_item o)
  end.

(** The blob has the right kind of value for a property of type [t]: a primitive
    of that type, or a class or vector where one of the two is read.  (A string
    is read without looking: see [reads_string].) *)
Definition right_kind (t : ctype) (i : item) : Prop :=
  match t, i with
  | RPrim p _, IPrim v => type_of v = p
  | RPrim p _, IPrimPtr q (Some _) => q = p
  | RClass _ _, (IObject _ _ _ | IVector _ _ _ | IPointer (Some (IObject _ _ _)) | IPointer (Some (IVector _ _ _))) => True
  | RVector _, (IObject _ _ _ | IVector _ _ _ | IPointer (Some (IObject _ _ _)) | IPointer (Some (IVector _ _ _))) => True
  | _, _ => False
  end.
Definition reads_string (t : ctype) : bool := match t with RPrim CString _ => true | _ => false end.

Definition is_null_pointer (i : item) : bool :=
  match i with IPrimPtr _ None | IPointer None => true | _ => false end.
Definition is_vector (i : item) : bool :=
  match i with IVector _ _ _ | IPointer (Some (IVector _ _ _)) => true | _ => false end.

(** An object whose properties have these values. *)
Definition values (ps : list (string * (string * item))) : list item := map (fun p => snd (snd p)) ps.

(** [first_wrong cs bad t i]: reading [i] as a [t], everything is fine up to the
    first value, at any depth, for which [bad] holds. *)
Inductive first_wrong (cs : classes) (bad : ctype -> item -> Prop) : ctype -> item -> Prop :=
| wrong_here t i : bad t i -> first_wrong cs bad t i
| wrong_inside c n fp ps ts1 t ts2 is1 i is2 os1 :
    cs c = (ts1 ++ t :: ts2)%list -> values ps = (is1 ++ i :: is2)%list -> back_all cs ts1 is1 os1 ->
    first_wrong cs bad t i -> first_wrong cs bad (RClass c false) (IObject n fp ps)
| wrong_inside_ptr c n fp ps ts1 t ts2 is1 i is2 os1 :
    cs c = (ts1 ++ t :: ts2)%list -> values ps = (is1 ++ i :: is2)%list -> back_all cs ts1 is1 os1 ->
    first_wrong cs bad t i -> first_wrong cs bad (RClass c true) (IPointer (Some (IObject n fp ps))).
