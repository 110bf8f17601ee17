(** Specification for exceptions thrown while an object is serialised: the object
    as far as it was written. *)
From Coq Require Import Sorting.Sorted.
From Verif Require Import Base Proton SpecDescriptors Writer SpecWriter Script.
Import List ListNotations.
Open Scope string_scope.

(** What has been written when the function returns or an exception leaves it,
    and that exception. *)
Fixpoint cut (o : obj) : item * option exn :=
  match o with
  | OPrim v => (IPrim v, None)
  | OPrimPtr t v => (IPrimPtr t v, None)
  | OObject name fp body => (IObject name fp (fst (cut_acts body)), snd (cut_acts body))
  | OVector name fp es => (IVector name fp (fst (cut_objs es)), snd (cut_objs es))
  | OMap name fp kvs => (IMap name fp (fst (cut_pairs kvs)), snd (cut_pairs kvs))
  | OPointer o => (IPointer (Some (fst (cut o))), snd (cut o))
  | ONull => (IPointer None, None)
  end
(** The properties up to the first exception; a try block ends at its own. *)
with cut_acts (a : acts) : list (string * (string * item)) * option exn :=
  match a with
  | ADone => ([], None)
  | AWrite pn ty v rest =>
      match snd (cut v) with
      | Some e => ([(pn, (ty, fst (cut v)))], Some e)
      | None => ((pn, (ty, fst (cut v))) :: fst (cut_acts rest), snd (cut_acts rest))
      end
  | AThrow e => ([], Some e)
  | ATry body rest => ((fst (cut_acts body) ++ fst (cut_acts rest))%list, snd (cut_acts rest))
  end
with cut_objs (es : objs) : list item * option exn :=
  match es with
  | ENil => ([], None)
  | ECons o es' =>
      match snd (cut o) with
      | Some e => ([fst (cut o)], Some e)
      | None => (fst (cut o) :: fst (cut_objs es'), snd (cut_objs es'))
      end
  end
with cut_pairs (kvs : pairs) : list (item * item) * option exn :=
  match kvs with
  | MNil => ([], None)
  | MCons k v kvs' =>
      match snd (cut v) with
      | Some e => ([(fst (cut k), fst (cut v))], Some e)
      | None => ((fst (cut k), fst (cut v)) :: fst (cut_pairs kvs'), snd (cut_pairs kvs'))
      end
  end.

(** The keys of maps do not throw. *)
Fixpoint calm_keys (o : obj) : Prop :=
  match o with
  | OObject _ _ body => calm_acts body
  | OVector _ _ es => calm_objs es
  | OMap _ _ kvs => calm_pairs kvs
  | OPointer o => calm_keys o
  | _ => True
  end
with calm_acts (a : acts) : Prop :=
  match a with
  | ADone | AThrow _ => True
  | AWrite _ _ v rest => calm_keys v /\ calm_acts rest
  | ATry body rest => calm_acts body /\ calm_acts rest
  end
with calm_objs (es : objs) : Prop :=
  match es with ENil => True | ECons o es' => calm_keys o /\ calm_objs es' end
with calm_pairs (kvs : pairs) : Prop :=
  match kvs with
  | MNil => True
  | MCons k v kvs' => snd (cut k) = None /\ calm_keys k /\ calm_keys v /\ calm_pairs kvs'
  end.

(** An object whose serialiseImpl functions do not throw. *)
Fixpoint of_item (i : item) : obj :=
  match i with
  | IPrim v => OPrim v
  | IPrimPtr t v => OPrimPtr t v
  | IObject name fp ps =>
      OObject name fp ((fix go l := match l with [] => ADone | (pn, (ty, v)) :: l' => AWrite pn ty (of_item v) (go l') end) ps)
  | IVector name fp es => OVector name fp ((fix go l := match l with [] => ENil | e :: l' => ECons (of_item e) (go l') end) es)
  | IMap name fp kvs =>
      OMap name fp ((fix go l := match l with [] => MNil | (k, v) :: l' => MCons (of_item k) (of_item v) (go l') end) kvs)
  | IPointer (Some o) => OPointer (of_item o)
  | IPointer None => ONull
  end.

(** The payload is being written at the end of what is there. *)
Definition at_end (d : data) : Prop :=
  match here d with Before cs => cs = [] | At _ _ r => r = [] end.

(** Values have been added at the end of the innermost object that is open, and
    nothing else was changed. *)
Definition added (d d' : data) (ts : list tree) : Prop :=
  siblings (here d') = (siblings (here d) ++ ts)%list /\ ups d' = ups d /\ at_end d'.

(** ** What has been written, whatever throws *)

(** The exception that leaves the function. *)
Definition first_of (e e' : option exn) : option exn := match e with Some _ => e | None => e' end.
Fixpoint thrown (o : obj) : option exn :=
  match o with
  | OPrim _ | OPrimPtr _ _ | ONull => None
  | OObject _ _ body => thrown_acts body
  | OVector _ _ es => thrown_objs es
  | OMap _ _ kvs => thrown_pairs kvs
  | OPointer o => thrown o
  end
with thrown_acts (a : acts) : option exn :=
  match a with
  | ADone => None
  | AWrite _ _ v rest => first_of (thrown v) (thrown_acts rest)
  | AThrow e => Some e
  | ATry body rest => thrown_acts rest
  end
with thrown_objs (es : objs) : option exn :=
  match es with ENil => None | ECons o es' => first_of (thrown o) (thrown_objs es') end
with thrown_pairs (kvs : pairs) : option exn :=
  match kvs with MNil => None | MCons k v kvs' => first_of (thrown k) (first_of (thrown v) (thrown_pairs kvs')) end.

(** What comes from the first step, and, unless that threw [e], from the next. *)
Definition until {A} (e : option exn) (first next : list A) : list A :=
  match e with Some _ => first | None => (first ++ next)%list end.

(** The payload.  In a map, keys and values alternate. *)
Fixpoint written (o : obj) : tree :=
  match o with
  | OPrim v => prim_tree v
  | OPrimPtr _ (Some v) => prim_tree v
  | OPrimPtr _ None => leaf ANull
  | OObject _ fp body => payload_tree fp [list_of (written_acts body)]
  | OVector _ fp es => payload_tree fp [list_of (written_objs es)]
  | OMap _ fp kvs => payload_tree fp [Node AMap (written_pairs kvs)]
  | OPointer o => written o
  | ONull => leaf ANull
  end
with written_acts (a : acts) : list tree :=
  match a with
  | ADone | AThrow _ => []
  | AWrite _ _ v rest => until (thrown v) [written v] (written_acts rest)
  | ATry body rest => (written_acts body ++ written_acts rest)%list
  end
with written_objs (es : objs) : list tree :=
  match es with ENil => [] | ECons o es' => until (thrown o) [written o] (written_objs es') end
with written_pairs (kvs : pairs) : list tree :=
  match kvs with
  | MNil => []
  | MCons k v kvs' => until (thrown k) [written k] (until (thrown v) [written v] (written_pairs kvs'))
  end.

(** The classes and containers of which an instance was begun. *)
Fixpoint begun (o : obj) : list (key * kind) :=
  match o with
  | OPrim _ | OPrimPtr _ _ | ONull => []
  | OObject n fp body => ((n, fp), Class) :: begun_acts body
  | OVector n fp es => ((n, fp), Container "list") :: begun_objs es
  | OMap n fp kvs => ((n, fp), Container "map") :: begun_pairs kvs
  | OPointer o => begun o
  end
with begun_acts (a : acts) : list (key * kind) :=
  match a with
  | ADone | AThrow _ => []
  | AWrite _ _ v rest => until (thrown v) (begun v) (begun_acts rest)
  | ATry body rest => (begun_acts body ++ begun_acts rest)%list
  end
with begun_objs (es : objs) : list (key * kind) :=
  match es with ENil => [] | ECons o es' => until (thrown o) (begun o) (begun_objs es') end
with begun_pairs (kvs : pairs) : list (key * kind) :=
  match kvs with
  | MNil => []
  | MCons k v kvs' => until (thrown k) (begun k) (until (thrown v) (begun v) (begun_pairs kvs'))
  end.

(** A value of the same type. *)
Definition sort_of (o : obj) : item :=
  match o with
  | OPrim v => IPrim v
  | OPrimPtr t v => IPrimPtr t v
  | OObject n fp _ => IObject n fp []
  | OVector n fp _ => IVector n fp []
  | OMap n fp _ => IMap n fp []
  | OPointer _ | ONull => IPointer None
  end.

(** The properties of class [k] of which the value was begun. *)
Fixpoint properties_begun (k : key) (o : obj) : list wire_field :=
  match o with
  | OPrim _ | OPrimPtr _ _ | ONull => []
  | OObject n fp body => properties_acts k (n, fp) body
  | OVector _ _ es => properties_objs k es
  | OMap _ _ kvs => properties_pairs k kvs
  | OPointer o => properties_begun k o
  end
with properties_acts (k class : key) (a : acts) : list wire_field :=
  match a with
  | ADone | AThrow _ => []
  | AWrite pn ty v rest =>
      until (thrown v) ((if key_eqb k class then [property_field pn ty (sort_of v)] else []) ++ properties_begun k v)%list
            (properties_acts k class rest)
  | ATry body rest => (properties_acts k class body ++ properties_acts k class rest)%list
  end
with properties_objs (k : key) (es : objs) : list wire_field :=
  match es with ENil => [] | ECons o es' => until (thrown o) (properties_begun k o) (properties_objs k es') end
with properties_pairs (k : key) (kvs : pairs) : list wire_field :=
  match kvs with
  | MNil => []
  | MCons x v kvs' => until (thrown x) (properties_begun k x) (until (thrown v) (properties_begun k v) (properties_pairs k kvs'))
  end.

(** As [SpecWriter.well_formed] and [SpecWriter.no_clash]. *)
Definition is_ref (o : obj) : bool := match o with OPointer _ | ONull => true | _ => false end.
Definition is_compound (o : obj) : bool := match o with OObject _ _ _ | OVector _ _ _ | OMap _ _ _ => true | _ => false end.
Fixpoint allowed (o : obj) : Prop :=
  match o with
  | OPrim v => prim_ok v
  | OPrimPtr t None => printable t None
  | OPrimPtr t (Some v) => type_of v = t /\ prim_ok v /\ printable t (Some v)
  | OObject _ _ body => allowed_acts body
  | OVector _ _ es => allowed_objs es
  | OMap _ _ kvs => allowed_pairs kvs
  | OPointer o => is_compound o = true /\ allowed o
  | ONull => True
  end
with allowed_acts (a : acts) : Prop :=
  match a with
  | ADone | AThrow _ => True
  | AWrite _ _ v rest => allowed v /\ allowed_acts rest
  | ATry body rest => allowed_acts body /\ allowed_acts rest
  end
with allowed_objs (es : objs) : Prop :=
  match es with ENil => True | ECons o es' => is_ref o = false /\ allowed o /\ allowed_objs es' end
with allowed_pairs (kvs : pairs) : Prop :=
  match kvs with
  | MNil => True
  | MCons k v kvs' => (is_ref k = false /\ allowed k) /\ (is_ref v = false /\ allowed v) /\ allowed_pairs kvs'
  end.
Definition no_clash_begun (o : obj) : Prop :=
  forall k s, In (k, Class) (begun o) -> In (k, Container s) (begun o) -> False.

(** As [SpecWriter.schema_for]: one entry for every type of which an instance was
    begun, each class with the properties that were begun. *)
Definition schema_begun (o : obj) (ts : list wire_type) : Prop :=
  StronglySorted key_before (map type_key ts) /\
  (forall k, In k (map type_key ts) <-> In k (map fst (begun o))) /\
  Forall (fun t => match t with
    | WClass c =>
        In ((wc_name c, wc_fingerprint c), Class) (begun o) /\ wc_label c = Some "" /\ wc_provides c = [] /\
        StronglySorted before (map w_name (wc_fields c)) /\
        forall f, In f (wc_fields c) <-> first_named (w_name f) (properties_begun (wc_name c, wc_fingerprint c) o) = Some f
    | WContainer r =>
        In ((wr_name r, wr_fingerprint r), Container (wr_source r)) (begun o) /\
        wr_label r = Some "" /\ wr_provides r = [] /\ wr_choices r = []
    end) ts.
