(** Inspection and dumps do not see the contents of binary values. *)
From Coq Require Import Lia.
From Verif Require Import Base Proton TypeNames Ordering Schema Descriptors Factory Readers Blob SchemaDump SpecBlind.
Import List ListNotations.
Open Scope string_scope.

Section Blind.
Context (g : atom -> atom).
Hypothesis g_binary : forall s, exists s', g (ABinary s) = ABinary s'.
Hypothesis g_other : forall a, (forall s, a <> ABinary s) -> g a = a.
Notation blur := (change_data g).
Notation blind := (blind g).

Lemma g_cases a : g a = a \/ exists s s', a = ABinary s /\ g a = ABinary s'.
Proof. destruct a; try (left; apply g_other; discriminate). right. destruct (g_binary s) as [s' H]. eauto. Qed.
Lemma g_type a : atom_type (g a) = atom_type a.
Proof. destruct (g_cases a) as [-> |(s & s' & -> & ->)]; reflexivity. Qed.

(** ** The cursor *)
Lemma next_blur d : pn_next (blur d) = blur (pn_next d).
Proof. destruct d as [[[|t cs]|l t [|t' r]] u]; reflexivity. Qed.
Lemma next_ok_blur d : pn_next_ok (blur d) = pn_next_ok d.
Proof. destruct d as [[[|t cs]|l t [|t' r]] u]; reflexivity. Qed.
Lemma enter_blur d : pn_enter (blur d) = blur (pn_enter d).
Proof. destruct d as [[cs|l [a cs] r] u]; reflexivity. Qed.
Lemma siblings_blur p : siblings (change_pos g p) = map (change g) (siblings p).
Proof. destruct p as [cs|l t r]; [reflexivity|]. cbn. rewrite !rev_append_rev, map_app, map_rev. reflexivity. Qed.
Lemma exit_blur d : pn_exit (blur d) = blur (pn_exit d).
Proof.
  destruct d as [p [|[l a r] u]]; [reflexivity|]. unfold pn_exit, change_data. cbn [ups here map change_frame fl fa fr].
  rewrite siblings_blur. reflexivity.
Qed.
Lemma w_enter_blur d : w_enter (blur d) = blur (w_enter d).
Proof. unfold w_enter. now rewrite enter_blur, next_blur. Qed.
Lemma dtype_blur d : pn_dtype (blur d) = pn_dtype d.
Proof. destruct d as [[cs|l [a cs] r] u]; [reflexivity|]. cbn. apply g_type. Qed.
Lemma is_type_blur ty d : is_type ty (blur d) = is_type ty d.
Proof. unfold is_type. now rewrite dtype_blur. Qed.
Lemma length_blur d : length (siblings (here (blur d))) = length (siblings (here d)).
Proof. cbn [change_data here]. now rewrite siblings_blur, map_length. Qed.
Lemma atom_blur d : cur_atom (blur d) = option_map g (cur_atom d).
Proof. destruct d as [[cs|l [a cs] r] u]; reflexivity. Qed.
(** Anything that treats all binary values alike. *)
Lemma of_atom_blur {X} (f : option atom -> X) d : (forall s s', f (Some (ABinary s)) = f (Some (ABinary s'))) -> f (cur_atom (blur d)) = f (cur_atom d).
Proof.
  intros H. rewrite atom_blur. destruct (cur_atom d) as [a|]; [|reflexivity]. cbn.
  destruct (g_cases a) as [-> |(s & s' & -> & ->)]; [reflexivity|apply H].
Qed.
Lemma get_int_blur d : pn_get_int (blur d) = pn_get_int d.
Proof. apply (of_atom_blur (fun a => match a with Some (AInt z) => z | _ => 0%Z end)). reflexivity. Qed.
Lemma get_uint_blur d : pn_get_uint (blur d) = pn_get_uint d.
Proof. apply (of_atom_blur (fun a => match a with Some (AUInt z) => z | _ => 0%N end)). reflexivity. Qed.
Lemma get_long_blur d : pn_get_long (blur d) = pn_get_long d.
Proof. apply (of_atom_blur (fun a => match a with Some (ALong z) => z | _ => 0%Z end)). reflexivity. Qed.
Lemma get_ulong_blur d : pn_get_ulong (blur d) = pn_get_ulong d.
Proof. apply (of_atom_blur (fun a => match a with Some (AULong z) => z | _ => 0%N end)). reflexivity. Qed.
Lemma get_bool_blur d : pn_get_bool (blur d) = pn_get_bool d.
Proof. apply (of_atom_blur (fun a => match a with Some (ABool z) => z | _ => false end)). reflexivity. Qed.
Lemma get_double_blur d : pn_get_double (blur d) = pn_get_double d.
Proof. apply (of_atom_blur (fun a => match a with Some (ADouble z) => z | _ => 0%N end)). reflexivity. Qed.
Lemma get_float_blur d : pn_get_float (blur d) = pn_get_float d.
Proof. apply (of_atom_blur (fun a => match a with Some (AFloat z) => z | _ => 0%N end)). reflexivity. Qed.
Lemma get_string_blur d : pn_get_string (blur d) = pn_get_string d.
Proof. apply (of_atom_blur (fun a => match a with Some (AString z) => Some z | _ => None end)). reflexivity. Qed.
Lemma get_symbol_blur d : pn_get_symbol (blur d) = pn_get_symbol d.
Proof. apply (of_atom_blur (fun a => match a with Some (ASymbol z) => Some z | _ => None end)). reflexivity. Qed.
Lemma get_list_blur d : pn_get_list (blur d) = pn_get_list d.
Proof.
  destruct d as [[cs|l [a cs] r] u]; [reflexivity|]. unfold pn_get_list. cbn.
  destruct (g_cases a) as [-> |(s & s' & -> & ->)]; [|reflexivity]. destruct a; try reflexivity. apply map_length.
Qed.
Lemma get_map_blur d : pn_get_map (blur d) = pn_get_map d.
Proof.
  destruct d as [[cs|l [a cs] r] u]; [reflexivity|]. unfold pn_get_map. cbn.
  destruct (g_cases a) as [-> |(s & s' & -> & ->)]; [|reflexivity]. destruct a; try reflexivity. apply map_length.
Qed.

(** ** Combinators *)
Lemma b_ret {A} (a : A) : blind (ret a).
Proof. intros d. reflexivity. Qed.
Lemma b_throw {A} e : blind (@throw data A e).
Proof. intros d. reflexivity. Qed.
Lemma b_ub {A} : blind (@ub data A).
Proof. intros d. reflexivity. Qed.
Lemma b_abort {A} : blind (@abort data A).
Proof. intros d. reflexivity. Qed.
Lemma b_fuel {A} : blind (fun _ => @Fuel data A).
Proof. intros d. reflexivity. Qed.
Lemma b_lift {A} (r : res A) : blind (lift r).
Proof. intros d. destruct r; reflexivity. Qed.
Lemma b_bind {A B} (m : PM A) (k : A -> PM B) : blind m -> (forall a, blind (k a)) -> blind (bind m k).
Proof. intros Hm Hk d. unfold bind. rewrite Hm. destruct (m d); cbn; auto. apply Hk. Qed.
Lemma b_finally {A} (m : PM A) f : blind m -> (forall d, f (blur d) = blur (f d)) -> blind (finally m f).
Proof. intros Hm Hf d. unfold finally. rewrite Hm. destruct (m d); cbn; rewrite ?Hf; auto. Qed.
Lemma b_if {A} (b : bool) (m k : PM A) : blind m -> blind k -> blind (if b then m else k).
Proof. destruct b; auto. Qed.
Lemma b_next : blind next_.
Proof. intros d. unfold next_. cbn. now rewrite next_blur. Qed.
Lemma b_require ty : blind (require ty).
Proof. intros d. unfold require. rewrite is_type_blur. destruct (is_type ty d); reflexivity. Qed.
Lemma b_attest_string b : blind (attest_is_string b).
Proof. intros d. unfold attest_is_string. rewrite !is_type_blur. destruct (negb (is_type TString d)), b, (negb (is_type TNull d)); reflexivity. Qed.
Lemma b_enter {A} b (m : PM A) : blind m -> blind (auto_enter b m).
Proof.
  intros H d. unfold auto_enter. rewrite w_enter_blur. destruct b.
  - rewrite next_blur. apply b_finally; [exact H|exact exit_blur].
  - apply b_finally; [exact H|exact exit_blur].
Qed.
Lemma b_auto_next {A} (m : PM A) : blind m -> blind (auto_next m).
Proof. intros H. apply b_finally; [exact H|exact next_blur]. Qed.
Lemma b_list_enter {A} b (m : nat -> PM A) : (forall n, blind (m n)) -> blind (auto_list_enter b m).
Proof.
  intros H d. unfold auto_list_enter. rewrite get_list_blur, enter_blur. destruct b.
  - rewrite next_blur. apply b_finally; [apply H|exact exit_blur].
  - apply b_finally; [apply H|exact exit_blur].
Qed.
Lemma b_map_enter {A} b (m : nat -> PM A) : (forall n, blind (m n)) -> blind (auto_map_enter b m).
Proof.
  intros H d. unfold auto_map_enter. rewrite get_map_blur, enter_blur. destruct b.
  - rewrite next_blur. apply b_finally; [apply H|exact exit_blur].
  - apply b_finally; [apply H|exact exit_blur].
Qed.
Lemma b_read {A} (get : data -> A) : (forall d, get (blur d) = get d) -> blind (read_raw get).
Proof. intros H d. unfold read_raw. cbn. now rewrite H, next_blur. Qed.
Lemma b_get_string b : blind (get_string b).
Proof.
  intros d. unfold get_string. rewrite atom_blur. destruct (cur_atom d) as [a|]; [|reflexivity]. cbn [option_map].
  destruct (g_cases a) as [-> |(s & s' & -> & ->)]; [|reflexivity]. destruct a; try reflexivity. destruct b; reflexivity.
Qed.
Lemma b_get_symbol : blind get_symbol.
Proof.
  intros d. unfold get_symbol. rewrite atom_blur. destruct (cur_atom d) as [a|]; [|reflexivity]. cbn [option_map].
  destruct (g_cases a) as [-> |(s & s' & -> & ->)]; [|reflexivity]. destruct a; reflexivity.
Qed.
Lemma b_get_boolean : blind get_boolean.
Proof.
  intros d. unfold get_boolean. rewrite atom_blur. destruct (cur_atom d) as [a|]; [|reflexivity]. cbn [option_map].
  destruct (g_cases a) as [-> |(s & s' & -> & ->)]; [|reflexivity]. destruct a; reflexivity.
Qed.
Lemma b_read_string b : blind (readAndNext_string b).
Proof.
  apply b_auto_next. intros d. rewrite atom_blur. destruct (cur_atom d) as [a|]; [|reflexivity]. cbn [option_map].
  destruct (g_cases a) as [-> |(s & s' & -> & ->)]; [|reflexivity]. destruct a; try reflexivity. destruct b; reflexivity.
Qed.
Lemma b_while_loop {A} (body : A -> PM A) : (forall a, blind (body a)) -> forall n a, blind (while_loop n body a).
Proof.
  intros H. induction n as [|n IH]; intros a d; cbn [while_loop]; rewrite next_ok_blur; destruct (pn_next_ok d); try reflexivity.
  rewrite next_blur. apply b_bind; auto.
Qed.
Lemma b_while {A} (body : A -> PM A) a : (forall a, blind (body a)) -> blind (while_next body a).
Proof. intros H d. unfold while_next. rewrite length_blur. now apply b_while_loop. Qed.
Lemma b_fun {A} (F : data -> PM A) : (forall d, F (blur d) = F d) -> (forall d, blind (F d)) -> blind (fun d => F d d).
Proof. intros H1 H2 d. cbn beta. rewrite H1. apply H2. Qed.

Ltac dec_blind := repeat (
  match goal with
  | |- SpecBlind.blind _ (bind _ _) => apply b_bind; [|intros]
  | |- SpecBlind.blind _ (ret _) => apply b_ret
  | |- SpecBlind.blind _ (throw _) => apply b_throw
  | |- SpecBlind.blind _ ub => apply b_ub
  | |- SpecBlind.blind _ abort => apply b_abort
  | |- SpecBlind.blind _ (lift _) => apply b_lift
  | |- SpecBlind.blind _ next_ => apply b_next
  | |- SpecBlind.blind _ (auto_enter _ _) => apply b_enter
  | |- SpecBlind.blind _ (auto_next _) => apply b_auto_next
  | |- SpecBlind.blind _ (auto_list_enter _ _) => apply b_list_enter; intros
  | |- SpecBlind.blind _ (auto_map_enter _ _) => apply b_map_enter; intros
  | |- SpecBlind.blind _ (while_next _ _) => apply b_while; intros
  | |- SpecBlind.blind _ (get_string _) => apply b_get_string
  | |- SpecBlind.blind _ get_symbol => apply b_get_symbol
  | |- SpecBlind.blind _ get_boolean => apply b_get_boolean
  | |- SpecBlind.blind _ (readAndNext_string _) => apply b_read_string
  | |- SpecBlind.blind _ readAndNext_ulong => apply b_read, get_ulong_blur
  | |- SpecBlind.blind _ (attest_is_string _) => apply b_attest_string
  | |- SpecBlind.blind _ (match ?x with (_, _) => _ end) => destruct x
  | |- SpecBlind.blind _ (if ?x then _ else _) => destruct x
  | |- SpecBlind.blind _ (push_string _) => unfold push_string
  | |- SpecBlind.blind _ _ => first [assumption | apply b_require]
  end).

(** ** Parsing the schema *)
Section Build.
Context (rec : PM element).
Hypothesis Hrec : blind rec.
Lemma b_validate v : blind (validateAndNext v).
Proof.
  intros d. unfold validateAndNext. rewrite is_type_blur, get_ulong_blur, next_blur. destruct (negb (is_type TULong d)); [reflexivity|].
  destruct v; [|reflexivity]. match goal with |- context[if ?b then _ else _] => destruct b end; reflexivity.
Qed.
Lemma b_as_descriptor e : blind (as_descriptor e).
Proof. destruct e; intros d; reflexivity. Qed.
Lemma b_as_field e : blind (as_field e).
Proof. destruct e; intros d; reflexivity. Qed.
Lemma b_as_type e : blind (as_type e).
Proof. destruct e; intros d; reflexivity. Qed.
Lemma b_as_choice e : blind (as_choice e).
Proof. destruct e; intros d; reflexivity. Qed.
Lemma b_as_schema e : blind (as_schema e).
Proof. destruct e; intros d; reflexivity. Qed.
Ltac parts := repeat (dec_blind; first [apply b_validate | apply b_as_descriptor | apply b_as_field | apply b_as_type | apply b_as_choice | apply b_as_schema]).
Lemma b_build_field v : blind (build_field v). Proof. unfold build_field. parts. Qed.
Lemma b_build_object v : blind (build_object v). Proof. unfold build_object. parts; dec_blind. Qed.
Lemma b_build_choice v : blind (build_choice v). Proof. unfold build_choice. parts; dec_blind. Qed.
Lemma b_build_composite v : blind (build_composite rec v). Proof. unfold build_composite. parts; dec_blind. Qed.
Lemma b_build_restricted v : blind (build_restricted rec v). Proof. unfold build_restricted. parts; dec_blind. Qed.
Lemma b_build_schema v : blind (build_schema rec v). Proof. unfold build_schema. parts; dec_blind. Qed.
Lemma b_build_envelope v : blind (build_envelope rec v). Proof. unfold build_envelope, consumeBlob. parts; dec_blind. Qed.
Lemma b_build_ignored v : blind (build_ignored v). Proof. unfold build_ignored. parts; dec_blind. Qed.
Lemma b_build_id id : blind (build_id rec id).
Proof.
  unfold build_id. destruct (registered id) as [desc|]; [|apply b_ub]. unfold build.
  destruct (d_kind desc); auto using b_throw, b_build_field, b_build_object, b_build_choice, b_build_composite, b_build_restricted, b_build_schema,
    b_build_envelope, b_build_ignored.
Qed.
End Build.
Lemma b_dispatch fuel : blind (dispatchDescribed fuel).
Proof.
  induction fuel as [|fuel IH]; [apply b_fuel|]. cbn [dispatchDescribed]. dec_blind.
  apply (b_fun (fun d => build_id (dispatchDescribed fuel) (pn_get_ulong d))); intros d; [now rewrite get_ulong_blur|now apply b_build_id].
Qed.
Lemma b_envelope fuel : blind (read_envelope fuel).
Proof.
  intros d. unfold read_envelope, is_described. rewrite is_type_blur. destruct (is_type TDescribed d); [|reflexivity].
  apply b_bind.
  - apply b_enter. apply (b_fun (fun d => build_id (dispatchDescribed fuel) (pn_get_ulong d))); intros; [now rewrite get_ulong_blur|apply b_build_id, b_dispatch].
  - intros []; intros d'; reflexivity.
Qed.

(** ** The raw dump of the data *)
Section Raw.
Context (double float : N -> string).
Lemma b_dumpPrimitive : blind (dumpPrimitive double float).
Proof.
  intros d. unfold dumpPrimitive. rewrite dtype_blur, get_long_blur, get_ulong_blur, get_int_blur, get_uint_blur, get_float_blur, get_double_blur, get_bool_blur.
  destruct (pn_dtype d); try reflexivity. apply b_bind; [apply b_get_string|intros; apply b_ret].
Qed.
Section Rec.
Context (rl rm : PM (list ivalue)) (rd : PM ivalue).
Hypothesis Hl : blind rl.
Hypothesis Hm : blind rm.
Hypothesis Hd : blind rd.
Lemma b_by_type t : blind (dump_by_type double float rl rm rd t).
Proof. unfold dump_by_type. destruct t; dec_blind; apply b_dumpPrimitive. Qed.
Lemma b_list_loop n : blind (list_loop double float rl rm rd n).
Proof.
  induction n as [|n IH]; intros d; [reflexivity|]. cbn [list_loop]. rewrite dtype_blur.
  apply b_bind; [apply b_by_type|]. intros v d'. rewrite next_ok_blur, next_blur. destruct (pn_next_ok d'); [|reflexivity].
  apply b_bind; [apply IH|intros; apply b_ret].
Qed.
Lemma b_dumpList_ : blind (dumpList_ double float rl rm rd).
Proof.
  unfold dumpList_. dec_blind. intros d. rewrite is_type_blur, length_blur. destruct (is_type TInvalid d); [reflexivity|]. apply b_list_loop.
Qed.
Lemma b_type_and_next : blind type_and_next.
Proof. intros d. unfold type_and_next. cbn. now rewrite dtype_blur, next_blur. Qed.
Lemma b_map_loop n : blind (map_loop double float rl rm rd n).
Proof.
  enough (H : forall m, m <= n -> blind (map_loop double float rl rm rd m)) by now apply H.
  induction n as [|n IH]; intros m Hmn; [replace m with 0 by lia; apply b_ret|]. destruct m as [|m]; [apply b_ret|]. cbn [map_loop].
  apply b_bind; [|intros; apply b_bind; [apply IH; lia|intros; apply b_ret]].
  unfold dump_raw_entry. dec_blind; auto using b_type_and_next, b_by_type.
Qed.
Lemma b_dumpMap_ : blind (dumpMap_ double float rl rm rd).
Proof.
  unfold dumpMap_. dec_blind. intros d. rewrite is_type_blur. destruct (is_type TInvalid d); [reflexivity|]. apply b_map_loop.
Qed.
Lemma b_dumpDescribed_ : blind (dumpDescribed_ rl rm).
Proof.
  unfold dumpDescribed_. dec_blind. intros d. rewrite dtype_blur. destruct (pn_dtype d); try reflexivity.
  - apply b_bind; [exact Hl|intros; apply b_ret].
  - apply b_bind; [exact Hm|intros; apply b_ret].
Qed.
End Rec.
Lemma b_dump_all fuel : blind (dumpList double float fuel) /\ blind (dumpMap double float fuel) /\ blind (dumpDescribed double float fuel).
Proof.
  induction fuel as [|fuel (H1 & H2 & H3)]; [repeat split; intros d; reflexivity|].
  repeat split; cbn [dumpList dumpMap dumpDescribed]; auto using b_dumpList_, b_dumpMap_, b_dumpDescribed_.
Qed.
Lemma b_dumpData fuel : blind (dumpData double float fuel).
Proof.
  intros d. unfold dumpData, is_described. rewrite is_type_blur. destruct (is_type TDescribed d); [|reflexivity]. revert d.
  match goal with |- forall d, ?m (change_data g d) = _ => change (blind m) end. dec_blind.
  - intros d. destruct (N.eqb _ _); reflexivity.
  - apply b_dump_all.
Qed.
End Raw.

(** ** The schema dumps *)
Section Schema.
Context (type_name : pn_type -> string).
Lemma show_node_blur d : show_node type_name (blur d) = show_node type_name d.
Proof.
  unfold show_node. now rewrite dtype_blur, get_ulong_blur, get_list_blur, get_string_blur, get_int_blur, get_bool_blur, get_symbol_blur.
Qed.
Lemma symbol_size_blur d : symbol_size (blur d) = symbol_size d.
Proof. unfold symbol_size. now rewrite get_symbol_blur. Qed.
Section Rec.
Context (rec : string -> PM string).
Hypothesis Hrec : forall ai, blind (rec ai).
Lemma b_by ai : blind (by_type rec ai).
Proof. intros d. unfold by_type. rewrite dtype_blur. destruct (pn_dtype d); try reflexivity. apply Hrec. Qed.
Ltac parts := dec_blind; try apply b_by.
Lemma b_raw_of k ai : blind (raw_of type_name rec k ai).
Proof.
  destruct k; cbn [raw_of]; try apply Hrec.
  - unfold raw_envelope. parts.
  - unfold raw_schema. parts.
  - unfold raw_object. parts. intros d. cbn. now rewrite show_node_blur.
  - unfold raw_field. parts.
  - unfold raw_composite. parts.
  - unfold raw_restricted. parts.
Qed.
Lemma b_raw_described ai : blind (raw_described type_name rec ai).
Proof.
  unfold raw_described. dec_blind. intros d. rewrite dtype_blur, symbol_size_blur. destruct (pn_dtype d); try reflexivity.
  revert d. match goal with |- forall d, ?m (change_data g d) = _ => change (blind m) end. dec_blind. intros d. destruct (registered _) as [desc|]; [|reflexivity].
  rewrite get_list_blur. apply b_bind; [apply b_raw_of|intros; apply b_ret].
Qed.
Lemma b_avro_of k ai : blind (avro_of rec k ai).
Proof.
  destruct k; cbn [avro_of]; try apply Hrec.
  - unfold avro_envelope. parts.
  - unfold avro_schema. parts. intros d. destruct (Nat.eqb _ _); reflexivity.
  - unfold avro_object. parts.
  - unfold avro_field, avro_type. parts.
  - unfold avro_composite. parts.
  - apply b_ret.
Qed.
Lemma b_avro_described ai : blind (avro_described rec ai).
Proof.
  unfold avro_described. dec_blind. intros d. rewrite dtype_blur, symbol_size_blur. destruct (pn_dtype d); try reflexivity.
  revert d. match goal with |- forall d, ?m (change_data g d) = _ => change (blind m) end. dec_blind. destruct (registered _) as [desc|]; [|apply b_ub].
  apply b_avro_of.
Qed.
End Rec.
Lemma b_readRaw fuel : forall ai, blind (readRaw type_name fuel ai).
Proof. induction fuel as [|fuel IH]; intros ai; [intros d; reflexivity|]. cbn [readRaw]. now apply b_raw_described. Qed.
Lemma b_readAvro fuel : forall ai, blind (readAvro fuel ai).
Proof. induction fuel as [|fuel IH]; intros ai; [intros d; reflexivity|]. cbn [readAvro]. now apply b_avro_described. Qed.
Lemma b_dumpSchema fuel target : blind (dumpSchema type_name fuel target).
Proof.
  intros d. unfold dumpSchema, is_described. rewrite is_type_blur. destruct (is_type TDescribed d); [|reflexivity].
  destruct target; [apply b_readRaw|reflexivity|apply b_readAvro].
Qed.
End Schema.

(** ** Inspection *)
Hypothesis g_length : forall s s', g (ABinary s) = ABinary s' -> String.length s' = String.length s.
Section Inspect.
Context (fmt : N -> string) (custom : nat -> option string -> PM ivalue) (kf : bool) (f : factory) (sch : schema).
Hypothesis Hc : forall which name, blind (custom which name).
Lemma binary_length_blur d :
  String.length (match pn_get_binary (blur d) with Some s => s | None => "" end) = String.length (match pn_get_binary d with Some s => s | None => "" end).
Proof.
  unfold pn_get_binary. rewrite atom_blur. destruct (cur_atom d) as [a|]; [|reflexivity]. cbn [option_map].
  destruct (g_cases a) as [-> |(s & s' & -> & E)]; [reflexivity|]. rewrite E. now apply g_length.
Qed.
Lemma b_property p name : blind (dump_property fmt p name).
Proof.
  destruct p; cbn [dump_property].
  - apply b_bind; [apply b_read, get_int_blur|intros; apply b_ret].
  - apply b_bind; [apply b_read, get_long_blur|intros; apply b_ret].
  - apply b_bind; [apply b_read, get_double_blur|intros; apply b_ret].
  - apply b_bind; [apply b_read, get_bool_blur|intros; apply b_ret].
  - apply b_bind; [apply b_read_string|intros; apply b_ret].
  - apply b_bind; [apply b_throw|intros; apply b_ret].
  - intros d. unfold bind, readAndNext_binary, read_raw, ret. cbn. now rewrite binary_length_blur, next_blur.
Qed.
Lemma b_enum name : blind (dump_enum name).
Proof.
  unfold dump_enum, enum_value. dec_blind. intros d. rewrite is_type_blur, get_ulong_blur. destruct (_ && _)%bool; reflexivity.
Qed.
Lemma b_public_key name : blind (dump_public_key name).
Proof.
  destruct name as [n|]; [|intros d; reflexivity]. cbn [dump_public_key].
  apply b_auto_next, b_bind; [apply b_require|intros _]. apply b_enter, b_bind; [apply b_next|intros _]. apply b_bind; [apply b_require|intros _].
  intros d. unfold bind, readAndNext_binary, read_raw, ret. cbn. now rewrite next_blur.
Qed.
Section Rec.
Context (rec : reader -> option string -> PM ivalue).
Hypothesis Hrec : forall r name, blind (rec r name).
Lemma b_fields fs : forall ks, blind (dump_fields f rec fs ks).
Proof.
  induction fs as [|fd fs IH]; intros [|k ks]; try (intros d; reflexivity). cbn [dump_fields]. destruct (lock f k); [|intros d; reflexivity].
  apply b_bind; [apply Hrec|]. intros v. apply b_bind; [apply IH|]. intros; apply b_ret.
Qed.
Lemma b_composite ks name : blind (dump_composite f sch rec ks name).
Proof.
  unfold dump_composite. apply b_auto_next. intros d. unfold is_null. rewrite is_type_blur. destruct (is_type TNull d); [reflexivity|].
  apply b_bind; [|intros; apply b_ret]. unfold composite_dump_. dec_blind. match goal with x : notation |- _ => destruct x end; [|apply b_throw].
  dec_blind. apply b_fields.
Qed.
Lemma b_elements n r : blind (dump_elements rec n r).
Proof.
  induction n as [|n IH]; [apply b_ret|]. cbn [dump_elements]. destruct r; [|apply b_ub].
  apply b_bind; [apply Hrec|]. intros v. apply b_bind; [apply IH|]. intros; apply b_ret.
Qed.
Lemma b_list k name : blind (dump_list f sch rec k name).
Proof. unfold dump_list, list_dump_. dec_blind. apply b_elements. Qed.
Lemma b_entries n k v : blind (dump_entries kf rec n k v).
Proof.
  enough (H : forall m, m <= n -> blind (dump_entries kf rec m k v)) by now apply H.
  induction n as [|n IH]; intros m Hm; [replace m with 0 by lia; apply b_ret|]. destruct m as [|m]; [apply b_ret|]. cbn [dump_entries].
  assert (Ht : forall r, blind (dump_through rec r)) by (intros [r|]; [apply Hrec|apply b_ub]).
  apply b_bind; [|intros; apply b_bind; [apply IH; lia|intros; apply b_ret]].
  unfold dump_entry. destruct kf; dec_blind; apply Ht.
Qed.
Lemma b_map k v name : blind (dump_map kf f sch rec k v name).
Proof. unfold dump_map, map_dump_. dec_blind. apply b_entries. Qed.
End Rec.
Lemma b_dump fuel : forall r name, blind (dump fmt custom kf f sch fuel r name).
Proof.
  induction fuel as [|fuel IH]; intros r name; [intros d; reflexivity|]. cbn [dump].
  destruct r; auto using b_property, b_composite, b_list, b_map, b_enum, b_public_key.
Qed.
Lemma b_payload fuel r : blind (dump_payload fmt custom kf fuel f sch r).
Proof.
  unfold dump_payload. dec_blind.
  - intros d. rewrite get_list_blur. destruct (Nat.eqb _ _); reflexivity.
  - apply b_dump.
Qed.
End Inspect.

Definition blur_both {A} (o : outcome (data * factory) A) : outcome (data * factory) A :=
  match o with
  | Ok a (d, f) => Ok a (blur d, f)
  | Throw e (d, f) => Throw e (blur d, f)
  | Abort => Abort | UB => UB | Fuel => Fuel
  end.
Lemma on_data_blur {A} (m : PM A) d f : blind m -> on_data m (blur d, f) = blur_both (on_data m (d, f)).
Proof. intros H. unfold on_data. rewrite H. destruct (m d); reflexivity. Qed.
Lemma b_dumpContents fmt custom mo kf fuel d f : (forall which name, blind (custom which name)) ->
  dumpContents fmt custom mo kf fuel (blur d, f) = blur_both (dumpContents fmt custom mo kf fuel (d, f)).
Proof.
  intros Hc. unfold dumpContents, bind. rewrite on_data_blur by apply b_envelope.
  destruct (on_data (read_envelope fuel) (d, f)) as [e [d1 f1]|e [d1 f1]| | |]; try reflexivity. cbn [blur_both on_factory].
  destruct (process mo (e_schema e) f1) as [a f2|x f2| | |]; try reflexivity. cbn [snd].
  destruct (byDescriptor f2 (e_descriptor e)) as [i|]; [|reflexivity]. destruct (reader_at i f2) as [r|]; [|reflexivity].
  apply on_data_blur. now apply b_payload.
Qed.
End Blind.

(** ** The two ways to change a blob *)
Lemma zeros_length s : String.length (zeros s) = String.length s.
Proof. induction s; cbn; auto. Qed.
Lemma zeroed_binary s : exists s', zeroed (ABinary s) = ABinary s'.
Proof. cbn. eauto. Qed.
Lemma zeroed_other a : (forall s, a <> ABinary s) -> zeroed a = a.
Proof. destruct a; try reflexivity. intros H. elim (H s eq_refl). Qed.
Lemma zeroed_length s s' : zeroed (ABinary s) = ABinary s' -> String.length s' = String.length s.
Proof. cbn. intros H. assert (zeros s = s') as <- by congruence. apply zeros_length. Qed.
Lemma wiped_binary s : exists s', wiped (ABinary s) = ABinary s'.
Proof. cbn. eauto. Qed.
Lemma wiped_other a : (forall s, a <> ABinary s) -> wiped a = a.
Proof. destruct a; try reflexivity. intros H. elim (H s eq_refl). Qed.

Lemma answer_change {A} g (o : outcome data A) : answer_of (change_outcome g o) = answer_of o.
Proof. destruct o; reflexivity. Qed.
Lemma blind_answer {A} g (m : PM A) d d' : blind g m -> change_data g d = change_data g d' -> answer_of (m d) = answer_of (m d').
Proof. intros H E. now rewrite <- (answer_change g (m d)), <- (answer_change g (m d')), <- !H, E. Qed.

Theorem inspection_blind : forall fmt custom mo kf fuel d d' f,
  (forall which name, blind zeroed (custom which name)) -> same_but_binary d d' ->
  answer_of (dumpContents fmt custom mo kf fuel (d, f)) = answer_of (dumpContents fmt custom mo kf fuel (d', f)).
Proof.
  intros fmt custom mo kf fuel d d' f Hc H.
  assert (A : forall o : outcome (data * factory) string, answer_of (blur_both zeroed o) = answer_of o) by (intros [? [? ?]|? [? ?]| | |]; reflexivity).
  rewrite <- A, <- (A (dumpContents _ _ _ _ _ (d', f))).
  rewrite <- !b_dumpContents by auto using zeroed_binary, zeroed_other, zeroed_length. now rewrite H.
Qed.
Theorem dump_blind : forall double float fuel d d', same_but_binaries d d' ->
  answer_of (dumpData double float fuel d) = answer_of (dumpData double float fuel d').
Proof. intros double float fuel d d' H. apply (blind_answer wiped); [|exact H]. apply b_dumpData; auto using wiped_binary, wiped_other. Qed.
Theorem schema_dump_blind : forall tn fuel target d d', same_but_binaries d d' ->
  answer_of (dumpSchema tn fuel target d) = answer_of (dumpSchema tn fuel target d').
Proof. intros tn fuel target d d' H. apply (blind_answer wiped); [|exact H]. apply b_dumpSchema; auto using wiped_binary, wiped_other. Qed.

(** ** The command-line tools *)
From Verif Require Import CordaFile SpecFile CordaFileProofs Tools SpecTools ToolsProofs.
Lemma decoded_change g t t' : change g t = change g t' -> change_data g (decoded t) = change_data g (decoded t').
Proof. intros H. unfold decoded, change_data. cbn. now rewrite H. Qed.
Lemma zeros_wiped t : forall t', change zeroed t = change zeroed t' -> change wiped t = change wiped t'.
Proof.
  assert (W : forall a, wiped (zeroed a) = wiped a) by (destruct a; reflexivity).
  assert (C : forall t, change wiped (change zeroed t) = change wiped t).
  { clear t. fix IH 1. intros [a cs]. cbn [change]. rewrite W, map_map. f_equal. induction cs as [|c cs IHc]; cbn [map]; [reflexivity|]. f_equal; [apply IH|exact IHc]. }
  intros t' H. now rewrite <- (C t), H.
Qed.
Definition ends (thrown : exn -> result) (a : answer string) : result :=
  match a with
  | Returns s => printed_line s | Throws e => thrown e | Crashes => Aborted | SpecBlind.Undefined => Tools.Undefined | Endless => Unended
  end.
Lemma finish_answer {S} thrown (o : outcome S string) : finish thrown o = ends thrown (answer_of o).
Proof. destruct o; reflexivity. Qed.
Theorem tools_blind : forall decode fmt custom mo kf double float tn fuel fs fs' prog name mode body body' t t', In mode ["avro"; "raw"] ->
  (forall which name, blind zeroed (custom which name)) ->
  fs name = File (magic ++ String "000" body) -> fits (magic ++ String "000" body) -> decode body = Some t ->
  fs' name = File (magic ++ String "000" body') -> fits (magic ++ String "000" body') -> decode body' = Some t' ->
  change zeroed t = change zeroed t' ->
  blob_inspector decode fmt custom mo kf fuel fs [prog; name] = blob_inspector decode fmt custom mo kf fuel fs' [prog; name] /\
  data_dumper decode double float fuel fs [prog; name] = data_dumper decode double float fuel fs' [prog; name] /\
  schema_dumper decode tn fuel fs [prog; name; mode] = schema_dumper decode tn fuel fs' [prog; name; mode].
Proof.
  intros decode fmt custom mo kf double float tn fuel fs fs' prog name mode body body' t t' Hm Hc E Hf Hd E' Hf' Hd' H.
  destruct (good_file decode fmt custom mo kf double float tn fuel fs prog name mode body t Hm E Hf Hd) as (-> & -> & ->).
  destruct (good_file decode fmt custom mo kf double float tn fuel fs' prog name mode body' t' Hm E' Hf' Hd') as (-> & -> & ->).
  rewrite !finish_answer. split; [|split; f_equal].
  - f_equal. unfold inspector_dump, bind, on_factory. destruct (installCustomSerialiser RPublicKey new_factory) as [? f|? f| | |]; try reflexivity. cbn [fst snd].
    apply inspection_blind; [exact Hc|]. now apply decoded_change.
  - apply dump_blind. now apply decoded_change, zeros_wiped.
  - apply schema_dump_blind. now apply decoded_change, zeros_wiped.
Qed.
