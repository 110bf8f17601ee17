(** serialiseImpl functions that throw: what a user's class does when it is
    serialised, as a sequence of calls.  Writer.v has the same without exceptions
    ([item]). *)
From Verif Require Import Base Proton Descriptors Writer.
Import List ListNotations.
Open Scope string_scope.

(** Objects, by what their serialiseImpl (Serializable.cxx:83) does.  [OPointer]
    is a pointer to an object that is not null, [ONull] one that is. *)
Inductive obj : Type :=
| OPrim (v : prim_value)
| OPrimPtr (t : prim_type) (v : option prim_value)
| OObject (name fingerprint : string) (body : acts)
| OVector (name fingerprint : string) (elements : objs)
| OMap (name fingerprint : string) (entries : pairs)
| OPointer (target : obj)
| ONull
(** The body of a serialiseImpl: [AWrite]: sf_.write (value, name, *this, blob_);
    [AThrow]: throw; [ATry]: try { .. } catch (...) { }. *)
with acts : Type :=
| ADone
| AWrite (property type : string) (value : obj) (rest : acts)
| AThrow (e : exn)
| ATry (body rest : acts)
with objs : Type :=
| ENil
| ECons (e : obj) (es : objs)
with pairs : Type :=
| MNil
| MCons (key value : obj) (kvs : pairs).

(** try { .. } catch (...) { } in a serialiseImpl of the user, around calls of
    SerialiserFactory.h:69-86. *)
Definition swallow (m : WM unit) : WM unit :=
  fun w => match m w with Throw _ w' => Ok tt w' | o => o end.

(** As [Writer.serialise]: Serializable.cxx:74-85 with AutoComposite (19-31),
    SerializableVector.h:39-50 and SerializableMap.h:37-51 with
    AutoRestrictedWrite (RestrictedSerializable.cxx:6-18), and
    SerialiserFactoryWriters.h:36-179.  The destructors of AutoComposite and
    AutoRestrictedWrite close the object also when an exception passes. *)
Fixpoint exec (o : obj) : WM unit :=
  match o with
  | OPrim v => writePrimitiveSingle (prim_atom v)
  | OPrimPtr t v => log_pointer t v ;; writePrimitiveSingle (prim_ptr_atom v)
  | OObject name fp body => startComposite (name, fp) ;; finally (exec_acts (name, fp) body) ended
  | OVector name fp es => startRestricted (name, fp) "list" ;; finally (exec_objs es) ended
  | OMap name fp kvs => startRestricted (name, fp) "map" ;; finally (exec_pairs kvs) ended
  | OPointer _ | ONull => ub
  end
with exec_acts (id : key) (a : acts) : WM unit :=
  match a with
  | ADone => ret tt
  | AWrite pn ty v rest =>
      match v with
      | OPrim p => writePrimitive (prim_atom p) (type_of p) false pn id
      | OPrimPtr t p => log_pointer t p ;; writePrimitive (prim_ptr_atom p) t true pn id
      | OObject _ _ _ => writeComposite pn ty id ;; exec v
      | OVector _ _ _ | OMap _ _ _ => writeRestricted pn ty id ;; exec v
      | OPointer o => writeComposite pn ty id ;; exec o
      | ONull => writeComposite pn ty id ;; writeNull pn ty id
      end ;;
      exec_acts id rest
  | AThrow e => throw e
  | ATry body rest => swallow (exec_acts id body) ;; exec_acts id rest
  end
with exec_objs (es : objs) : WM unit :=
  match es with
  | ENil => ret tt
  | ECons e es' => exec e ;; exec_objs es'
  end
with exec_pairs (kvs : pairs) : WM unit :=
  match kvs with
  | MNil => ret tt
  | MCons k v kvs' => exec k ;; exec v ;; exec_pairs kvs'
  end.

(** Serializable.cxx:42-53: toBlob is not reached when an exception passes. *)
Definition exec_blob (o : obj) : WM data := exec o ;; toBlob.
