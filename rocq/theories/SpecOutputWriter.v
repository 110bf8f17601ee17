(** Specification of what serialising an object writes to standard output. *)
From Verif Require Readers.
From Verif Require Import Base Proton SpecDescriptors TypeNames SpecTypes Writer SpecWriter Programs OutputWriter.
Import List ListNotations.
Open Scope string_scope.

(** One step of the output: a text; the address of something; or a line about a
    property of a class, which is only written the first time. *)
Inductive event : Type :=
| Text (s : string)
| Somewhere
| Describe (class : key) (property : string).

(** The output so far and the properties that have been described. *)
Definition progress : Type := (string * (key -> string -> bool))%type.

Section Told.
Context (P : program) (env : platform).

Definition newline : string := String "010" "".
(** A debug line: where it is written, and the text. *)
Definition starts (name : string) (number : Z) : string := "[" ++ file env name ++ "::" ++ Readers.dec number ++ "] ".
Definition line (name : string) (number : Z) (text : string) : string := starts name number ++ text ++ newline.

Definition step (e : event) (s : progress) : progress :=
  match e with
  | Text x => (fst s ++ x, snd s)
  | Somewhere => (fst s ++ address env (fst s), snd s)
  | Describe c p =>
      if snd s c p then s
      else (fst s ++ line "FieldDescriptor.cxx" 284 ("makeProton - " ++ p),
            fun c' p' => (key_eqb c c' && String.eqb p p') || snd s c' p')
  end.
Definition play (es : list event) (s : progress) : progress := fold_left (fun s e => step e s) es s.

(** A value as it is shown: a char is a byte. *)
Definition text_of (v : prim_value) : string :=
  match v with
  | OfInt z | OfLong z => Readers.dec z
  | OfBool true => "1" | OfBool false => "0"
  | OfString s => s
  | OfChar z => String (Ascii.ascii_of_N (Z.to_N (if (z <? 0)%Z then z + 256 else z))) ""
  | OfDouble b => show_double env b
  | OfFloat b => show_float env b
  end.
Definition of_pointer (t : prim_type) (v : option prim_value) : event :=
  match t, v with
  | CChar, _ => Text ""
  | _, None => Text (null env)
  | _, Some _ => Somewhere
  end.

(** Naming a type in Java's way. *)
Fixpoint naming (t : cxx_type) : string :=
  match t with
  | XString => ""
  | XClass path cls => line "types.h" 125 ("javaTypeName = " ++ cxx_name path cls) ++
                       line "types.h" 138 ("javaTypeName RTN = " ++ javaTypeName (demangled t))
  | XVector e => naming e
  | XMap k v => if left_first env then naming k ++ naming v else naming v ++ naming k
  end.

(** An object is asked to serialise itself. *)
Definition asked (i : item) : list event :=
  match i with
  | IObject n _ _ => [Text (line "Serializable.cxx" 80 ("serialise::" ++ n))]
  | IVector n _ _ => [Text (line "SerializableVector.h" 43 ("_serialise::" ++ n))]
  | IMap _ fp _ => [Text (line "SerializableMap.h" 41 ("_serialise::" ++ fp))]
  | _ => []
  end.
(** A property of class [c] with a primitive value, shown by [shown]. *)
Definition simple (c : key) (name : string) (shown : event) : list event :=
  [ Text (starts "ModifiableAMQPBlobImpl.h" 207 ++ "writePrimitive::" ++ name ++ "::"); shown; Text newline;
    Describe c name; Text (line "ModifiableAMQPBlobImpl.h" 228 "WRITE IT") ].
(** An element with a primitive value. *)
Definition single (t : cpp) (shown : event) : list event :=
  [ Text (naming (cxx_of t)); Text (line "SerialiserFactoryWriters.h" 44 ("  SingleWriter::" ++ java_of t ++ " - primitive"));
    Text (starts "ModifiableAMQPBlobImpl.h" 241 ++ "writePrimitiveSingle::"); shown; Text newline ].
(** Before an element that is an object. *)
Definition element (t : cpp) (i : item) : list event :=
  match i with
  | IPrim _ | IPrimPtr _ _ | IPointer _ => []
  | _ => Text (line "SerialiserFactoryWriters.h" 60 ("  SingleWriter::" ++ naming (cxx_of t) ++ java_of t ++ " - serialise")) :: asked i
  end.
(** Before a property that is an object. *)
Definition composite (c : key) (name : string) : list event :=
  [ Text (line "ModifiableAMQPBlobImpl.cxx" (span env 184 185) ("writeComposite::" ++ fst c)); Describe c name ].
Definition container (c : key) (name : string) : list event :=
  [ Text (line "ModifiableAMQPBlobImpl.cxx" 211 ("writeRestricted::" ++ fst c)); Describe c name ].
Definition starting (what : string) (a b : Z) (n fp : string) : list event :=
  [ Text (line "ModifiableAMQPBlobImpl.cxx" (span env a b) (what ++ " - " ++ n ++ " - " ++ fp));
    Text (line "ModifiableAMQPBlobImpl.cxx" 39 ("  startSerializable: " ++ fp)) ].

(** The steps for an object of type [t] ... *)
Fixpoint events (t : cpp) (i : item) {struct i} : list event :=
  match i, t with
  | IPrim v, _ => single t (Text (text_of v))
  | IPrimPtr p v, _ => single t (of_pointer p v)
  | IObject n fp ps, Obj c =>
      (starting "startComposite" 63 68 n fp ++
       (fix go (ps : list (string * (string * item))) (ds : list (string * cpp)) {struct ps} : list event :=
          match ps, ds with
          | (pn, (_, v)) :: ps', (_, d) :: ds' =>
              (match v, d with
               | IPrim x, _ => simple (n, fp) pn (Text (text_of x))
               | IPrimPtr p x, _ => simple (n, fp) pn (of_pointer p x)
               | IObject _ _ _, _ => Text (naming (cxx_of d)) :: composite (n, fp) pn ++ asked v ++ events d v
               | IVector _ _ _, Vector e =>
                   Text (naming (cxx_of d)) ::
                   Text (line "SerialiserFactoryWriters.h" 112 ("write::VECTOR<" ++ type_id env e ++ ", " ++ allocator_id env e ++ ">")) ::
                   container (n, fp) pn ++ asked v ++ events d v
               | IMap _ _ _, _ => Text (naming (cxx_of d)) :: container (n, fp) pn ++ asked v ++ events d v
               | IPointer (Some o), Pointer d' => Text (naming (cxx_of d')) :: composite (n, fp) pn ++ asked o ++ events d' o
               | IPointer None, _ =>
                   Text (naming (cxx_of d)) :: composite (n, fp) pn ++
                   [ Text (line "ModifiableAMQPBlobImpl.cxx" (span env 135 138) ("writeNull::" ++ pn ++ "::0 PARENT: " ++ n));
                     Text (line "ModifiableAMQPBlobImpl.cxx" 158 "WRITE IT") ]
               | _, _ => []
               end ++ go ps' ds')
          | _, _ => []
          end) ps (declared P c) ++
       [Text (line "ModifiableAMQPBlobImpl.cxx" 121 ("endComposite - " ++ n))])%list
  | IVector n fp es, Vector e =>
      (starting "startRestricted" 88 93 n fp ++ flat_map (fun x => element e x ++ events e x) es ++
       [Text (line "ModifiableAMQPBlobImpl.cxx" 170 ("endRestricted - " ++ n))])%list
  | IMap n fp kvs, Map k v =>
      (starting "startRestricted" 88 93 n fp ++
       flat_map (fun kv =>
         [ Text (line "SerializableMap.h" 45 ("  * " ++ naming (cxx_of k) ++ java_of k));
           Text (line "SerializableMap.h" 46 ("  * " ++ naming (cxx_of v) ++ java_of v)) ] ++
         (element k (fst kv) ++ events k (fst kv)) ++ element v (snd kv) ++ events v (snd kv)) kvs ++
       [Text (line "ModifiableAMQPBlobImpl.cxx" 170 ("endRestricted - " ++ n))])%list
  | _, _ => []
  end.
(** ... and for the object that the program serialises. *)
Definition root_events (t : cpp) (root : item) : list event :=
  (match root with IObject _ _ _ => [] | _ => asked root end ++ events t root)%list.

(** At the end the types of the schema are listed. *)
Definition listed (t : wire_type) : string :=
  match t with
  | WClass c =>
      let size := Readers.dec (Z.of_nat (List.length (wc_fields c))) in
      line "ModifiableAMQPBlobImpl.cxx" (span env 244 248) ("    * " ++ wc_name c ++ ": " ++ size) ++
      line "ModifiableAMQPBlobImpl.h" 66 "make" ++
      line "CompositeDescriptor.cxx" 239 ("makeProton - " ++ wc_name c ++ " fields: #" ++ size)
  | WContainer r =>
      line "ModifiableAMQPBlobImpl.cxx" (span env 244 248) ("    * " ++ wr_name r ++ ": 0") ++
      line "ModifiableAMQPBlobImpl.h" 89 "make"
  end.
Definition listing (ts : list wire_type) : string :=
  line "ModifiableAMQPBlobImpl.cxx" (span env 234 237) ("toBlob:: m_schemas.size() = " ++ Readers.dec (Z.of_nat (List.length ts))) ++
  fold_right (fun t s => listed t ++ s) "" ts.

(** All that is written when [root] is serialised after [before]. *)
Definition whole_output (before : string) (t : cpp) (root : item) (ts : list wire_type) : string :=
  fst (play (root_events t root) (before, fun _ _ => false)) ++ listing ts.

(** Each of the values is in the text, one after the other, at the end of a line. *)
Inductive in_lines : list prim_value -> string -> Prop :=
| no_more s : in_lines [] s
| shown_next v vs a rest : in_lines vs rest -> in_lines (v :: vs) (a ++ "::" ++ text_of v ++ newline ++ rest).
End Told.

(** How an execution ends, without what it wrote. *)
Definition forget {A} (o : outcome (writer * string) A) : outcome writer A :=
  match o with
  | Ok a s => Ok a (fst s) | Throw e s => Throw e (fst s)
  | Abort => Abort | UB => UB | Fuel => Fuel
  end.

(** The primitive values that an object holds, not those it points to, at any depth. *)
Fixpoint values_held (i : item) : list prim_value :=
  match i with
  | IPrim v => [v]
  | IPrimPtr _ _ | IPointer None => []
  | IObject _ _ ps => flat_map (fun p => values_held (snd (snd p))) ps
  | IVector _ _ es => flat_map values_held es
  | IMap _ _ kvs => flat_map (fun kv => (values_held (fst kv) ++ values_held (snd kv))%list) kvs
  | IPointer (Some o) => values_held o
  end.

(** The object with all values behind pointers made the same. *)
Definition ordinary (t : prim_type) : prim_value :=
  match t with
  | CInt => OfInt 0 | CLong => OfLong 0 | CDouble => OfDouble 0 | CBool => OfBool false
  | CString => OfString "" | CFloat => OfFloat 0 | CChar => OfChar 0
  end.
Fixpoint masked (i : item) : item :=
  match i with
  | IPrim _ | IPrimPtr _ None | IPointer None => i
  | IPrimPtr t (Some _) => IPrimPtr t (Some (ordinary t))
  | IObject n fp ps => IObject n fp (map (fun p => (fst p, (fst (snd p), masked (snd (snd p))))) ps)
  | IVector n fp es => IVector n fp (map masked es)
  | IMap n fp kvs => IMap n fp (map (fun kv => (masked (fst kv), masked (snd kv))) kvs)
  | IPointer (Some o) => IPointer (Some (masked o))
  end.
