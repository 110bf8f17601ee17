(** What the Avro dump of a schema section prints. *)
From Coq Require Import Lia.
From Verif Require Import Base Proton ProtonProofs TypeNames SpecTypes TypeNamesProofs Schema Descriptors SpecDescriptors
  DescriptorsProofs Readers SchemaDump SchemaDumpProofs RawSchemaProofs SpecJson JsonProofs.
Import List ListNotations.
Open Scope string_scope.

(** ** The exact result, failures included *)

Definition avros (fuel : nat) (t : tree) (ai : string) (r : res string) : Prop := forall l rt u,
  readAvro fuel ai (Data (At l t rt) u) = lift r (Data (At l t rt) u).

Lemma lift_exit {A B} (m : res A) (f : A -> res B) (d d' : data) : pn_exit d = d' ->
  match lift m d with
  | Ok a s => match lift (f a) s with Ok b s' => Ok b (pn_exit s') | Throw e s' => Throw e (pn_exit s') | Abort => Abort | UB => UB | Fuel => Fuel end
  | Throw e s' => Throw e (pn_exit s') | Abort => Abort | UB => UB | Fuel => Fuel
  end = lift (rbind m f) d'.
Proof. intros <-. destruct m as [a| | | |]; cbn; auto. destruct (f a); reflexivity. Qed.

Lemma avro_element fuel ai code name kind cs r :
  registered (vendor code) = Some {| d_kind := kind; d_symbol := name; d_val := Some code |} ->
  (forall u, avro_of (readAvro fuel) kind ai (Data (At [leaf (AULong (vendor code))] (list_of cs) []) u)
    = lift r (Data (At [leaf (AULong (vendor code))] (list_of cs) []) u)) ->
  avros (S fuel) (described code (list_of cs)) ai r.
Proof.
  intros Hr H l rt u. cbn [readAvro]. unfold avro_described.
  unfold described. rewrite enter_step. unfold finally.
  cbn [pn_dtype here leaf atom_type]. unfold bind at 1. unfold readAndNext_ulong at 1, read_raw. cbn [pn_next here ups pn_get_ulong cur_atom leaf].
  unfold bind at 1. cbn [attest_is_list require is_type pn_dtype here list_of atom_type pn_type_eqb].
  rewrite Hr. cbn [d_kind]. fold (list_of cs). rewrite H.
  destruct r; reflexivity.
Qed.

Lemma avro_fingerprint fuel ai fp more :
  avros (S fuel) (fingerprint_tree fp more) ai
    (Ret (ai ++ quote ++ "aliases" ++ quote ++ " : [ " ++ quote ++ fp ++ quote ++ " ]," ++ nl)).
Proof.
  apply (avro_element fuel ai 3 "OBJECT_DESCRIPTOR" KObject); [reflexivity|]. intros u.
  destruct more; reflexivity.
Qed.

Definition first (l : list string) : string := match l with [] => "" | s :: _ => s end.
Definition field_avro (ai : string) (w : wire_field) : res string :=
  let? t := inferType (w_type w) (first (w_requires w)) (deeper ai) in
  Ret (ai ++ "{" ++ nl ++
       deeper ai ++ quote ++ "name" ++ quote ++ " : " ++ quote ++ w_name w ++ quote ++ ", " ++ nl ++
       t ++ ai ++ "}").

Lemma step_type ai w l r u :
  avro_type ai (Data (At l (str (w_type w)) (list_of (map str (w_requires w)) :: r)) u)
  = match inferType (w_type w) (first (w_requires w)) ai with
    | Ret a => Ok a (Data (At (str (w_type w) :: l) (list_of (map str (w_requires w))) r) u)
    | Exc e => Throw e (Data (At (str (w_type w) :: l) (list_of (map str (w_requires w))) r) u)
    | Abrt => Abort | Undef => UB | NoFuel => Fuel end.
Proof.
  unfold avro_type. rw. destruct (w_requires w) as [|q qs].
  - cbn [first]. unfold auto_list_enter, finally. cbn [map pn_get_list list_of here pn_enter pn_next length Nat.ltb Nat.leb].
    destruct (inferType (w_type w) "" ai); reflexivity.
  - cbn [map]. rewrite list_enter_step. unfold finally. cbn [length Nat.ltb Nat.leb]. rw. cbn [first].
    destruct (inferType (w_type w) q ai); reflexivity.
Qed.

Lemma avro_of_field fuel ai w : avros (S fuel) (field_tree w) ai (field_avro ai w).
Proof.
  apply (avro_element fuel ai 4 "FIELD" KField); [reflexivity|]. intros u.
  cbn [avro_of]. unfold avro_field. rw. rewrite list_enter_step. unfold finally. rw.
  unfold bind at 1. rewrite step_type. unfold field_avro.
  destruct (inferType (w_type w) (first (w_requires w)) (deeper ai)); reflexivity.
Qed.

(** What follows each element of a sequence of [n]. *)
Fixpoint sequence {X} (f : X -> res string) (after : nat -> string -> string) (i : nat) (xs : list X) : res string :=
  match xs with
  | [] => Ret ""
  | x :: xs' => let? t := f x in let? s := sequence f after (S i) xs' in Ret (t ++ after i t ++ s)
  end.
Lemma foldM_sequence {X} (f : X -> res string) after xs : forall i acc,
  foldM (fun '(i, acc) x => let? t := f x in Ret (S i, acc ++ t ++ after i t)) xs (i, acc)
  = (let? s := sequence f after i xs in Ret (i + length xs, acc ++ s)).
Proof.
  induction xs as [|x xs IH]; intros i acc; cbn [foldM sequence length].
  - cbn [rbind]. rewrite app_nil_r_s, Nat.add_0_r. reflexivity.
  - destruct (f x) as [t| | | |]; cbn [rbind]; auto. rewrite IH. destruct (sequence f after (S i) xs); cbn [rbind]; auto.
    rewrite !app_assoc_s. do 2 f_equal. lia.
Qed.

Lemma ale_known {A} b (m : nat -> PM A) d : auto_list_enter b m d = auto_list_enter b (fun _ => m (pn_get_list d)) d.
Proof. reflexivity. Qed.

Lemma step_sequence {X} fuel (tr : X -> tree) ai (f : X -> res string) (after : nat -> nat -> string -> string)
  (body : nat -> nat * string -> PM (nat * string)) xs l r u :
  (forall x, In x xs -> avros fuel (tr x) ai (f x)) -> (forall x l r u, pn_dtype (Data (At l (tr x) r) u) = TDescribed) ->
  (forall n i acc, body n (i, acc) = (let! t := by_type (readAvro fuel) ai in ret (S i, acc ++ t ++ after n i t))) ->
  auto_list_enter false (fun n => while_next (body n) (1, "")) (Data (At l (list_of (map tr xs)) r) u)
  = lift (let? s := sequence f (after (length xs)) 1 xs in Ret (1 + length xs, s)) (Data (At l (list_of (map tr xs)) r) u).
Proof.
  intros H HD HB. rewrite ale_known. cbn [pn_get_list list_of here]. rewrite map_length. fold (list_of (map tr xs)).
  rewrite (list_loop tr (fun '(i, acc) x => let? t := f x in Ret (S i, acc ++ t ++ after (length xs) i t))).
  - rewrite foldM_sequence. destruct (sequence f (after (length xs)) 1 xs); reflexivity.
  - intros [i acc] l' x r' u' Hx. rewrite HB. unfold bind, by_type. rewrite HD, (H x Hx). destruct (f x); reflexivity.
Qed.

Definition names_of (name : string) : res (string * string) :=
  match find_last "." name with
  | Some found =>
      let? a := substr name (found + 1) (String.length name) in
      let? b := substr name 0 found in Ret (a, b)
  | None => Ret (name, name)
  end.
Definition class_avro (ai : string) (c : wire_class) : res string :=
  let? (short, ns) := names_of (wc_name c) in
  let? fields := sequence (field_avro (deeper (deeper ai)))
                   (fun i _ => if Nat.ltb i (length (wc_fields c)) then "," ++ nl else nl) 1 (wc_fields c) in
  Ret ("{" ++ nl ++
       deeper ai ++ quote ++ "type" ++ quote ++ " : " ++ quote ++ "record" ++ quote ++ "," ++ nl ++
       deeper ai ++ quote ++ "name" ++ quote ++ " : " ++ quote ++ short ++ quote ++ "," ++ nl ++
       deeper ai ++ quote ++ "namespace" ++ quote ++ " : " ++ quote ++ ns ++ quote ++ "," ++ nl ++
       (deeper ai ++ quote ++ "aliases" ++ quote ++ " : [ " ++ quote ++ wc_fingerprint c ++ quote ++ " ]," ++ nl) ++
       deeper ai ++ quote ++ "fields" ++ quote ++ " : [" ++ nl ++ fields ++
       deeper ai ++ "]" ++ nl ++ "}").

Lemma avro_of_class fuel ai c : avros (S (S fuel)) (class_tree c) ai (class_avro ai c).
Proof.
  apply (avro_element (S fuel) ai 5 "COMPOSITE_TYPE" KComposite); [reflexivity|]. intros u.
  cbn [avro_of]. unfold avro_composite. rw. unfold list_of at 1. rewrite enter_step. unfold finally.
  rw. rw. fold (names_of (wc_name c)). unfold class_avro.
  unfold bind at 1. destruct (names_of (wc_name c)) as [[short ns]|e| | |]; cbn [lift rbind]; try reflexivity.
  repeat rw. erewrite bind_ok by reflexivity. cbv beta.
  erewrite bind_ok by (apply step_auto_next; unfold by_type; apply avro_fingerprint). cbv beta.
  unfold bind at 1.
  erewrite (step_sequence (S fuel) field_tree (deeper (deeper ai)) (field_avro (deeper (deeper ai)))
    (fun n i _ => if Nat.ltb i n then "," ++ nl else nl)); [|intros; apply avro_of_field|reflexivity|reflexivity].
  destruct (sequence _ _ 1 (wc_fields c)); reflexivity.
Qed.

Lemma avro_of_container fuel ai c : avros (S fuel) (container_tree c) ai (Ret "").
Proof. apply (avro_element fuel ai 6 "RESTRICTED_TYPE" KRestricted); [reflexivity|]. reflexivity. Qed.

Definition type_avro (ai : string) (t : wire_type) : res string :=
  match t with WClass c => class_avro ai c | WContainer _ => Ret "" end.
Lemma avro_of_type fuel ai t : avros (S (S fuel)) (type_tree t) ai (type_avro ai t).
Proof. destruct t; [apply avro_of_class|apply avro_of_container]. Qed.

Definition after_type (n i : nat) (t : string) : string :=
  if String.eqb t "" then "" else (if Nat.ltb i n then "," else "") ++ nl.
Definition schema_avro (ai : string) (groups : list (list wire_type)) : res string :=
  match groups with
  | [g] => sequence (type_avro ai) (after_type (length g)) 1 g
  | _ => Abrt
  end.
Lemma avro_of_schema fuel ai groups : avros (S (S (S fuel))) (schema_tree groups) ai (schema_avro ai groups).
Proof.
  apply (avro_element (S (S fuel)) ai 2 "SCHEMA" KSchema); [reflexivity|]. intros u.
  cbn [avro_of]. unfold avro_schema. rw. destruct groups as [|g [|g2 groups]]; try reflexivity.
  cbn [map schema_avro]. rewrite list_enter_step. unfold finally. cbn [length Nat.eqb]. unfold bind at 1.
  set (body := fun m => fun '(j, acc) => let! t := by_type (readAvro (S (S fuel))) ai in
        ret (S j, acc ++ t ++ (if String.eqb t "" then "" else (if Nat.ltb j m then "," else "") ++ nl))).
  assert (E : forall l r u, auto_list_enter false (fun m => let! (_, text) := while_next (body m) (1, "") in ret text)
                (Data (At l (list_of (map type_tree g)) r) u)
            = lift (sequence (type_avro ai) (after_type (length g)) 1 g) (Data (At l (list_of (map type_tree g)) r) u)).
  { intros l r u'.
    assert (K := step_sequence (S (S fuel)) type_tree ai (type_avro ai) after_type body g l r u'
      (fun x _ => avro_of_type fuel ai x) ltac:(intros [] ? ? ?; reflexivity) ltac:(reflexivity)).
    unfold auto_list_enter, finally, bind in *.
    destruct (while_next _ _ _) as [[k s] d|e d| | |].
    - destruct (sequence _ _ 1 g); try discriminate. cbn [rbind lift ret] in *. injection K as -> -> <-. reflexivity.
    - destruct (sequence _ _ 1 g); try discriminate. cbn [rbind lift ret] in *. injection K as -> ->. reflexivity.
    - destruct (sequence _ _ 1 g); try discriminate. reflexivity.
    - destruct (sequence _ _ 1 g); try discriminate. reflexivity.
    - destruct (sequence _ _ 1 g); try discriminate. reflexivity. }
  fold body. rewrite E. destruct (sequence _ _ 1 g); reflexivity.
Qed.

Lemma avro_of_envelope fuel ai payload groups more :
  avros (S (S (S (S fuel)))) (envelope_tree payload groups more) ai (schema_avro ai groups).
Proof.
  apply (avro_element (S (S (S fuel))) ai 1 "ENVELOPE" KEnvelope); [reflexivity|]. intros u.
  cbn [avro_of]. unfold avro_envelope. rw.
  unfold auto_enter, finally. cbn [w_enter pn_enter here list_of pn_next ups].
  unfold auto_next, finally, by_type. cbn [pn_dtype here schema_tree described atom_type].
  change (Node ADescribed [leaf (AULong (vendor 2)); list_of (map (fun g => list_of (map type_tree g)) groups)]) with (schema_tree groups).
  rewrite avro_of_schema. destruct (schema_avro ai groups); try reflexivity; destruct more; reflexivity.
Qed.

Theorem avro_exact : forall tn fuel payload groups more l r u, 3 <= fuel ->
  let d := Data (At l (envelope_tree payload groups more) r) u in
  dumpSchema tn fuel ToAvro d = lift (schema_avro "" groups) d.
Proof.
  intros tn fuel payload groups more l r u H. destruct fuel as [|[|[|fuel]]]; try lia.
  apply (avro_of_envelope fuel "" payload groups more l r u).
Qed.
