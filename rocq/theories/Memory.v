(** Memory that is managed by hand: proton's trees (pn_data_t), which the library
    makes with pn_data, and the buffers of CordaBytes.  Everything else is owned
    by standard containers and smart pointers and is left out, and so are the
    copies of binary values that are made while a blob is read. *)
From Verif Require Import Base Proton Descriptors Writer Script CordaFile Tools.
Import List ListNotations.
Open Scope string_scope.

(** How many of each there are that have not been released.  Trees come from
    pn_data (e.g. EnvelopeDescriptor.cxx:151), buffers from CordaBytes.cxx:73 and 88
    and go at CordaBytes.h:36-38. *)
Record heap : Type := Heap { trees : nat; buffers : nat }.
Definition pn_data_made (h : heap) : heap := Heap (S (trees h)) (buffers h).
Definition new_buffer (h : heap) : heap := Heap (trees h) (S (buffers h)).
Definition delete_buffer (h : heap) : heap := Heap (trees h) (Nat.pred (buffers h)).

(** ** Writing *)

Definition HM (A : Type) := writer * heap -> outcome (writer * heap) A.
(** Functions that make no tree (they do not call pn_data), e.g.
    ModifiableAMQPBlobImpl.cxx:34-124. *)
Definition plain {A} (m : WM A) : HM A :=
  fun s => match m (fst s) with
           | Ok a w => Ok a (w, snd s) | Throw e w => Throw e (w, snd s)
           | Abort => Abort | UB => UB | Fuel => Fuel
           end.

(** As [Writer.add_field]: FieldDescriptor::makeProton (FieldDescriptor.cxx:286) is
    called, and makes a tree, only if the property is not there yet
    (ModifiableAMQPBlobImpl.cxx:146-155, 191-198, 219-226 and
    ModifiableAMQPBlobImpl.h:214-224). *)
Definition add_field_h (parent : key) (name : string) (f : data) : HM unit :=
  fun s => let (w, h) := s in
    match m_find kcmp parent (m_schemas w) with
    | None => Abort
    | Some (ListBlob _) => Throw BadCast (w, h)
    | Some (CompositeBlob fields) =>
        match m_find scmp name fields with
        | Some _ => Ok tt (w, h)
        | None => Ok tt (Writer (m_payload w)
                    (m_set kcmp parent (CompositeBlob (m_set scmp name f fields)) (m_schemas w)), pn_data_made h)
        end
    end.

(** As in Writer.v: ModifiableAMQPBlobImpl.cxx:128-227 and
    ModifiableAMQPBlobImpl.h:199-231. *)
Definition writeNull_h (name type : string) (parent : key) : HM unit :=
  add_field_h parent name (field_makeProton name type [] "" "" true false) ;; plain (put ANull).
Definition writeComposite_h (name type : string) (parent : key) : HM unit :=
  add_field_h parent name (field_makeProton name type [] "" "" false false).
Definition writeRestricted_h (name type : string) (parent : key) : HM unit :=
  add_field_h parent name (field_makeProton name "*" [type] "" "" false false).
Definition writePrimitive_h (a : atom) (t : prim_type) (pointer : bool) (name : string) (parent : key) : HM unit :=
  add_field_h parent name (field_makeProton name (m_type t) [] "" "" pointer false) ;; plain (put a).
Definition ended_h (s : writer * heap) : writer * heap := (ended (fst s), snd s).
Definition swallow_h (m : HM unit) : HM unit :=
  fun s => match m s with Throw _ s' => Ok tt s' | o => o end.

(** As [Script.exec]: Serializable.cxx:74-85, SerializableVector.h:39-50,
    SerializableMap.h:37-51 and SerialiserFactoryWriters.h:36-179. *)
Fixpoint exec_h (o : obj) : HM unit :=
  match o with
  | OPrim v => plain (writePrimitiveSingle (prim_atom v))
  | OPrimPtr t v => plain (log_pointer t v) ;; plain (writePrimitiveSingle (prim_ptr_atom v))
  | OObject name fp body => plain (startComposite (name, fp)) ;; finally (exec_acts_h (name, fp) body) ended_h
  | OVector name fp es => plain (startRestricted (name, fp) "list") ;; finally (exec_objs_h es) ended_h
  | OMap name fp kvs => plain (startRestricted (name, fp) "map") ;; finally (exec_pairs_h kvs) ended_h
  | OPointer _ | ONull => ub
  end
with exec_acts_h (id : key) (a : acts) : HM unit :=
  match a with
  | ADone => ret tt
  | AWrite pn ty v rest =>
      match v with
      | OPrim p => writePrimitive_h (prim_atom p) (type_of p) false pn id
      | OPrimPtr t p => plain (log_pointer t p) ;; writePrimitive_h (prim_ptr_atom p) t true pn id
      | OObject _ _ _ => writeComposite_h pn ty id ;; exec_h v
      | OVector _ _ _ | OMap _ _ _ => writeRestricted_h pn ty id ;; exec_h v
      | OPointer o => writeComposite_h pn ty id ;; exec_h o
      | ONull => writeComposite_h pn ty id ;; writeNull_h pn ty id
      end ;;
      exec_acts_h id rest
  | AThrow e => throw e
  | ATry body rest => swallow_h (exec_acts_h id body) ;; exec_acts_h id rest
  end
with exec_objs_h (es : objs) : HM unit :=
  match es with
  | ENil => ret tt
  | ECons e es' => exec_h e ;; exec_objs_h es'
  end
with exec_pairs_h (kvs : pairs) : HM unit :=
  match kvs with
  | MNil => ret tt
  | MCons k v kvs' => exec_h k ;; exec_h v ;; exec_pairs_h kvs'
  end.

(** ModifiableAMQPBlobImpl.cxx:231-261: a tree for every entry
    (CompositeDescriptor.cxx:241, RestrictedDescriptor.cxx:230), one for the schema
    (SchemaDescriptor.cxx:155) and one for the envelope (EnvelopeDescriptor.cxx:151).
    The parts are copied into the whole and are not released. *)
Fixpoint repeated (n : nat) (h : heap) : heap := match n with 0 => h | S n' => repeated n' (pn_data_made h) end.
Definition toBlob_h : HM data :=
  fun s => let (w, h) := s in
    match toBlob w with
    | Ok d w' => Ok d (w', pn_data_made (pn_data_made (repeated (List.length (m_schemas w)) h)))
    | Throw e w' => Throw e (w', h) | Abort => Abort | UB => UB | Fuel => Fuel
    end.

(** Destructors.  ModifiableAMQPBlobImpl (ModifiableAMQPBlobImpl.h:103-162) and
    AMQPBlob (AMQPBlob.h:35-70) declare none: their trees are plain pointers, which
    are not released.  CordaBytes: CordaBytes.h:36-38. *)
Definition destroy_writer (h : heap) : heap := h.
Definition destroy_blob (h : heap) : heap := h.
Definition destroy_bytes (h : heap) : heap := delete_buffer h.

(** o.serialise (sf), Serializable.cxx:42-53.  The writer makes a tree for the
    payload, ModifiableAMQPBlobImpl.cxx:16-21, and goes when the function is left. *)
Definition serialise_h (o : obj) (h : heap) : outcome heap data :=
  match (exec_h o ;; toBlob_h) (new_writer, pn_data_made h) with
  | Ok d (_, h') => Ok d (destroy_writer h')
  | Throw e (_, h') => Throw e (destroy_writer h')
  | Abort => Abort | UB => UB | Fuel => Fuel
  end.

(** Saving an object: the blob, a CordaBytes made of it (CordaBytes.cxx:81-90), and
    its toFile; both go at the end. *)
Definition save_h (encode : list tree -> string) (o : obj) (h : heap) : outcome heap file :=
  match serialise_h o h with
  | Ok d h1 => Ok (toFile (of_blob (encode (forest d)))) (destroy_blob (destroy_bytes (new_buffer h1)))
  | Throw e h1 => Throw e h1
  | Abort => Abort | UB => UB | Fuel => Fuel
  end.
(** ... and several, one after the other, as a program like
    bin/writer-tests/writer-test-01/main.cxx:11-27 would. *)
Fixpoint save_all_h (encode : list tree -> string) (os : list obj) (h : heap) : outcome heap (list file) :=
  match os with
  | [] => Ok [] h
  | o :: os' =>
      match save_h encode o h with
      | Ok f h1 => match save_all_h encode os' h1 with
                   | Ok fs h2 => Ok (f :: fs) h2
                   | Throw e h2 => Throw e h2 | Abort => Abort | UB => UB | Fuel => Fuel
                   end
      | Throw e h1 => Throw e h1
      | Abort => Abort | UB => UB | Fuel => Fuel
      end
  end.

(** ** Reading *)

(** CordaBytes.cxx:19-77: the buffer is made (73) after everything that throws. *)
Definition open_h (f : file) (config : AMQPConfig) (h : heap) : outcome heap CordaBytes :=
  match open_ f config with
  | Ret cb => Ok cb (new_buffer h)
  | Exc e => Throw e h
  | Abrt => Abort | Undef => UB | NoFuel => Fuel
  end.
(** AMQPBlob.cxx:29-38 *)
Definition AMQPBlob_h (decode : string -> option tree) (cb : CordaBytes) (h : heap) : outcome heap data :=
  match AMQPBlob_ decode cb with
  | Ret d => Ok d (pn_data_made h)
  | Exc e => Throw e h
  | Abrt => Abort | Undef => UB | NoFuel => Fuel
  end.
(** { CordaBytes cb (file, config); use (cb); }, e.g.
    bin/blob-inspector/main.cxx:26-40. *)
Definition with_bytes_h {A} (f : file) (config : AMQPConfig) (use : CordaBytes -> heap -> outcome heap A) (h : heap) : outcome heap A :=
  match open_h f config h with
  | Ok cb h1 => finally (use cb) destroy_bytes h1
  | Throw e h1 => Throw e h1
  | Abort => Abort | UB => UB | Fuel => Fuel
  end.
(** { AMQPBlob blob { cb }; use (blob); }, e.g. bin/blob-inspector/main.cxx:29-31;
    [use] may return or throw, but makes no
    tree. *)
Definition with_blob_h {S A} (decode : string -> option tree) (use : data -> outcome S A) (cb : CordaBytes) (h : heap) : outcome heap A :=
  match AMQPBlob_h decode cb h with
  | Ok d h1 => match use d with
               | Ok a _ => Ok a (destroy_blob h1) | Throw e _ => Throw e (destroy_blob h1)
               | Abort => Abort | UB => UB | Fuel => Fuel
               end
  | Throw e h1 => Throw e h1
  | Abort => Abort | UB => UB | Fuel => Fuel
  end.
Definition read_h {S A} (decode : string -> option tree) (f : file) (config : AMQPConfig) (use : data -> outcome S A) : heap -> outcome heap A :=
  with_bytes_h f config (with_blob_h decode use).
