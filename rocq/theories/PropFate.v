(** Property theorems C93: how inspecting a blob ends, for every blob.
    Specification: SpecFate.v. *)
From Coq Require Import Lia.
From Verif Require Import Base Proton ProtonProofs CordaFile SpecFile CordaFileProofs TypeNames TypeNamesProofs Schema SpecSchema SchemaProofs Descriptors SpecDescriptors Factory SpecFactory FactoryProofs
  Readers SpecReaders Blob SchemaDump SpecSchemaDump Tools SpecTools ToolsProofs SpecAccept SpecDisplay SpecReadScript SpecParse SpecFate FateBlobProofs.
Import List ListNotations.
Open Scope string_scope.

(** C93: with a factory in which serialisers for distinct types have been installed,
    what inspection shows, throws or aborts on is a function of the decoded tree, and
    the cursor of the blob is back at the start. *)
Theorem C93_exactly : forall double custom answers map_order entry_order rs cf t fuel,
  answers_as rs custom answers -> run map_order (map Install rs) new_factory cf -> own_names rs t = true -> height t < fuel ->
  turns_out t (dumpContents double custom map_order entry_order fuel (decoded t, cf)) (inspected double answers map_order entry_order rs t).
Proof.
  intros double custom answers mo kf rs cf t fuel Ha R Ho Hf. apply own_names_spec in Ho as [H1 H2]. now apply inspected_exactly.
Qed.
Print Assumptions C93_exactly.

Section Consequences.
Context (double : N -> string) (custom : nat -> option string -> PM ivalue) (answers : nat -> bool -> option tree -> fate string).
Context (map_order entry_order : bool) (rs : list reader) (cf : factory) (t : tree) (fuel : nat).
Hypothesis Ha : answers_as rs custom answers.
Hypothesis Hr : run map_order (map Install rs) new_factory cf.
Hypothesis Ho : own_names rs t = true.
Hypothesis Hf : height t < fuel.
Lemma inspected_as : turns_out t (dumpContents double custom map_order entry_order fuel (decoded t, cf)) (inspected double answers map_order entry_order rs t).
Proof. now apply C93_exactly. Qed.
Lemma all_custom : Forall is_custom rs.
Proof. apply (installs_state _ _ _ _ Hr). Qed.
End Consequences.

(** Where every element of the schema is of a known kind and in its place, and names
    are clear (C92), inspection shows something, throws or aborts: reading values has
    no undefined behaviour, whatever the payload is. *)
Theorem C93_defined : forall double custom answers map_order entry_order rs cf t fuel,
  answers_as rs custom answers -> run map_order (map Install rs) new_factory cf -> own_names rs t = true -> height t < fuel ->
  (forall ty which, In (RCustom ty which) rs -> forall b o, answers which b o <> Wild) ->
  described_by t = Some (vendor 1) -> everywhere placed t = true ->
  let o := dumpContents double custom map_order entry_order fuel (decoded t, cf) in
  (exists x cf', o = Ok x (decoded t, cf')) \/ (exists e cf', o = Throw e (decoded t, cf')) \/ o = Abort.
Proof.
  intros double custom answers mo kf rs cf t fuel Ha R Ho Hf Hw Hd Hp. cbv zeta. pose proof (inspected_as double custom answers mo kf rs cf t fuel Ha R Ho Hf) as T.
  pose proof (placed_defined double answers mo kf rs t (all_custom _ _ _ R) Hw Hd Hp) as D. unfold turns_out in T.
  destruct (inspected double answers mo kf rs t) as [x|e| |]; [left|right; left|right; right|congruence]; [destruct T as [cf' T]; eauto..|exact T].
Qed.
Print Assumptions C93_defined.

(** In any case it is not reading values that is undefined. *)
Theorem C93_undefined : forall double custom answers map_order entry_order rs cf t fuel,
  answers_as rs custom answers -> run map_order (map Install rs) new_factory cf -> own_names rs t = true -> height t < fuel ->
  (forall ty which, In (RCustom ty which) rs -> forall b o, answers which b o <> Wild) ->
  (dumpContents double custom map_order entry_order fuel (decoded t, cf) = UB <->
   envelope_of t = Wild \/ exists e, envelope_of t = Gives e /\ prepare map_order (map reader_type rs) (List.concat (s_types (e_schema e))) = Wild).
Proof.
  intros double custom answers mo kf rs cf t fuel Ha R Ho Hf Hw. pose proof (inspected_as double custom answers mo kf rs cf t fuel Ha R Ho Hf) as T.
  pose proof (inspected_defined double answers mo kf rs t (all_custom _ _ _ R) Hw) as D. split.
  - intros E. apply D. unfold turns_out in T. rewrite E in T. destruct (inspected double answers mo kf rs t) as [x|e| |]; [destruct T as [cf' T]..| |]; congruence.
  - intros H. assert (W : inspected double answers mo kf rs t = Wild); [|rewrite W in T; exact T]. unfold inspected. destruct H as [->|(e & -> & P)]; [reflexivity|].
    cbn [onward]. now rewrite P.
Qed.
Print Assumptions C93_undefined.

(** Three exceptions are thrown, and what the user's serialisers throw. *)
Theorem C93_exceptions : forall double custom answers map_order entry_order rs cf t fuel e s,
  answers_as rs custom answers -> run map_order (map Install rs) new_factory cf -> own_names rs t = true -> height t < fuel ->
  dumpContents double custom map_order entry_order fuel (decoded t, cf) = Throw e s ->
  e = RuntimeError \/ e = OutOfRange \/ e = BadCast \/ exists ty which b o, In (RCustom ty which) rs /\ answers which b o = Raises e.
Proof.
  intros double custom answers mo kf rs cf t fuel e s Ha R Ho Hf E. pose proof (inspected_as double custom answers mo kf rs cf t fuel Ha R Ho Hf) as T.
  rewrite E in T. apply (inspected_raises double answers mo kf rs t e). destruct (inspected double answers mo kf rs t) as [x|e'| |]; cbn in T; try discriminate; destruct T as [cf' T]; congruence.
Qed.
Print Assumptions C93_exceptions.

(** An assertion fails only if no type of the schema has the fingerprint of the
    payload, the envelope does not have three parts, or an object somewhere has the
    fingerprint of a class with more or fewer properties than the one expected. *)
Theorem C93_aborts : forall double custom answers map_order entry_order rs cf t fuel,
  answers_as rs custom answers -> run map_order (map Install rs) new_factory cf -> own_names rs t = true -> height t < fuel ->
  dumpContents double custom map_order entry_order fuel (decoded t, cf) = Abort ->
  exists e, envelope_of t = Gives e /\ let ts := List.concat (s_types (e_schema e)) in
  (~ (exists n, In n ts /\ n_descriptor n = e_descriptor e) \/
   (exists cs, part 1 t = Some (Node AList cs) /\ length cs <> 3) \/
   (exists o fp ty c c', somewhere t o /\ tree_atom o = ADescribed /\ symbol_of (part 0 o) = Got fp /\
      type_called ts ty = Some (TComposite c) /\ type_printed ts fp = Some (TComposite c') /\ length (c_fields c') <> length (c_fields c)) \/
   exists ty which b o, In (RCustom ty which) rs /\ answers which b o = Stops).
Proof.
  intros double custom answers mo kf rs cf t fuel Ha R Ho Hf E. pose proof (inspected_as double custom answers mo kf rs cf t fuel Ha R Ho Hf) as T.
  rewrite E in T. destruct (inspected_stops double answers mo kf rs t) as (e & He & H).
  { destruct (inspected double answers mo kf rs t) as [x|e'| |]; cbn in T; try discriminate; try reflexivity; destruct T; discriminate. }
  exists e. split; [exact He|]. cbv zeta in *. destruct H as [H|H]; [left|right; exact H]. intros (n & Hn & K). unfold payload_type in H.
  apply (find_none _ _) with (x := n) in H; [|now apply -> in_rev]. rewrite K, String.eqb_refl in H. discriminate.
Qed.
Print Assumptions C93_aborts.

(** ** The tool *)
(** blob-inspector, given a file with plain data that decodes: exactly one of four
    endings, decided by the tree. *)
Theorem C93_tool : forall decode double custom map_order entry_order fuel fs prog name h body t,
  fs name = File (h ++ String "000" body) -> String.length h = 7 -> fits (h ++ String "000" body) -> decode body = Some t ->
  own_names [RPublicKey] t = true -> height t < fuel ->
  blob_inspector decode double custom map_order entry_order fuel fs [prog; name] =
    match inspected double (fun _ _ _ => Wild) map_order entry_order [RPublicKey] t with
    | Gives x => Exit 0 (x ++ newline) false
    | Raises _ => Terminated
    | Stops => Aborted
    | Wild => Tools.Undefined
    end.
Proof.
  intros decode double custom mo kf fuel fs prog name h body t Hn Hh Hf Hd Ho Hfu.
  assert (E : with_blob decode uncaught (File (h ++ String "000" body)) lenient (fun d => finish uncaught (inspector_dump double custom mo kf fuel d)) =
              finish uncaught (inspector_dump double custom mo kf fuel (decoded t))).
  { unfold with_blob. destruct (open_unchecked lenient _ lenient_good eq_refl Hf) as [(e' & body' & cb & (h' & Hl & Hb) & H1 & H2)|[H _]].
    - rewrite TypeNamesProofs.length_app_s, Hh. cbn. lia.
    - apply app_len_inj in Hb as [<- Hb]; [|congruence]. injection Hb as Hm <-. rewrite H1. destruct H2 as (H2 & H3 & _). 
      assert (e' = DATA_AND_STOP) as -> by (destruct e'; [reflexivity|discriminate..]).
      unfold decodable. rewrite H2. unfold AMQPBlob_. rewrite H3, Hd. reflexivity.
    - exfalso. apply (H DATA_AND_STOP body). exists h. split; [exact Hh|reflexivity]. }
  rewrite inspector_spec, Hn, E. destruct (install_key mo) as (cf & E1 & E2). destruct (successes_clean _ _ _ E2) as [E3 _].
  unfold inspector_dump. unfold bind. unfold on_factory at 1. rewrite E1.
  assert (HA : answers_as [RPublicKey] custom (fun _ _ _ => Wild)) by (intros ty which [X|[]]; discriminate).
  pose proof (inspected_as double custom _ mo kf [RPublicKey] cf t fuel HA E3 Ho Hfu) as T.
  destruct (inspected double _ mo kf [RPublicKey] t) as [x|e| |]; cbn in T; [destruct T as [cf' ->]..|rewrite T|rewrite T]; reflexivity.
Qed.
Print Assumptions C93_tool.

(** ** Examples *)
Definition a_prop (n ty : string) : wire_field :=
  {| w_name := n; w_type := ty; w_requires := []; w_default := None; w_label := None; w_mandatory := true; w_multiple := false |}.
Definition a_cls (n fp : string) (fs : list wire_field) : tree :=
  class_tree {| wc_name := n; wc_label := None; wc_provides := []; wc_fingerprint := fp; wc_fields := fs |}.
Definition a_list (n fp : string) : tree :=
  container_tree {| wr_name := n; wr_label := None; wr_provides := []; wr_source := "list"; wr_fingerprint := fp; wr_choices := [] |}.
Definition blob (payload : tree) (types more : list tree) : tree := described 1 (list_of (payload :: described 2 (list_of [list_of types]) :: more)).
Definition obj (fp : string) (ps : list tree) : tree := Node ADescribed [leaf (ASymbol fp); list_of ps].
Definition ex_types : list tree :=
  [ a_cls "net.P" "p" [a_prop "x" "int"; a_prop "s" "string"]; a_cls "net.Q" "q" [a_prop "x" "int"]; a_list "java.util.List<net.P>" "l";
    a_cls "net.O" "o" [a_prop "p" "net.P"; a_prop "l" "java.util.List<net.P>"] ].
Definition ex_p (n : Z) : tree := obj "p" [leaf (AInt n); str "yes"].
Definition fate_of (t : tree) : fate string := inspected (fun _ => "?") (fun _ _ _ => Wild) true true [RPublicKey] t.
Definition ex_blob (payload : tree) : tree := blob payload ex_types [leaf ANull].

Example C93_ex : Forall (fun c => own_names [RPublicKey] (fst c) = true /\ fate_of (fst c) = snd c)
  [ (* as it should be *)
    (ex_blob (obj "o" [ex_p 1; obj "l" [ex_p 2; ex_p 3]]),
     Gives "{ Parsed : { p : { x : 1, s : ""yes"" }, l : [ { x : 2, s : ""yes"" }, { x : 3, s : ""yes"" } ] } }");
    (* a null reference, an empty list *)
    (ex_blob (obj "o" [leaf ANull; obj "l" []]), Gives "{ Parsed : { p : <<NULL>>, l : [  ] } }");
    (* a string where a number should be is shown as zero, *)
    (ex_blob (obj "q" [str "17"]), Gives "{ Parsed : { x : 0 } }");
    (* but not the other way round *)
    (ex_blob (obj "p" [leaf (AInt 1); leaf (AInt 2)]), Raises RuntimeError);
    (* an object of another class with fewer properties *)
    (ex_blob (obj "o" [obj "q" [leaf (AInt 1)]; obj "l" []]), Stops);
    (* a list in place of an object *)
    (ex_blob (obj "o" [obj "l" []; obj "l" []]), Raises BadCast);
    (* an unknown object *)
    (ex_blob (obj "o" [obj "z" []; obj "l" []]), Raises RuntimeError);
    (* a payload of a class the schema does not have *)
    (ex_blob (obj "z" []), Stops);
    (* an envelope with two or four parts *)
    (blob (ex_p 1) ex_types [], Stops); (blob (ex_p 1) ex_types [leaf ANull; leaf ANull], Stops);
    (* classes in an order in which one comes before what it needs, which does not matter here (C14); one that needs what is not there; one that needs itself *)
    (blob (ex_p 1) (rev ex_types) [leaf ANull], Gives "{ Parsed : { x : 1, s : ""yes"" } }");
    (blob (ex_p 1) (a_cls "net.N" "n" [a_prop "z" "net.Z"] :: ex_types) [leaf ANull], Raises RuntimeError);
    (blob (obj "r" [obj "r" [leaf ANull]]) [a_cls "net.R" "r" [a_prop "next" "net.R"]] [leaf ANull], Gives "{ Parsed : { next : { next : <<NULL>> } } }");
    (* two classes of the same name: the types of the one, the names of the other *)
    (blob (obj "p1" [str "a"]) [a_cls "net.P" "p1" [a_prop "x" "int"]; a_cls "net.P" "p2" [a_prop "y" "string"]] [leaf ANull], Gives "{ Parsed : { x : ""a"" } }");
    (* a code that is not known *)
    (blob (ex_p 1) [described 12 (list_of [])] [leaf ANull], Wild) ].
Proof. repeat (constructor; [split; vm_compute; reflexivity|]). constructor. Qed.

(** The conditions of the theorems hold of these, for the tool and for the library. *)
Example C93_ex_conditions : everywhere placed (ex_blob (ex_p 1)) = true /\ described_by (ex_blob (ex_p 1)) = Some (vendor 1) /\
  exists cf, run true (map Install [RPublicKey; RCustom "net.Key" 0]) new_factory cf.
Proof.
  split; [vm_compute; reflexivity|]. split; [reflexivity|]. eexists. eapply run_cons; [split; [exact I|reflexivity]|left; reflexivity|].
  eapply run_cons; [split; [exact I|reflexivity]|left; reflexivity|]. apply run_nil.
Qed.
(** A serialiser that shows whatever it finds as a word, and refuses nulls. *)
Definition ex_custom (which : nat) (name : option string) : PM ivalue := fun d =>
  match view d with
  | Some (Node ANull _) => Throw RuntimeError d
  | _ => Ok (IText name "key") (pn_next d)
  end.
Definition ex_answers (which : nat) (named : bool) (o : option tree) : fate string := match o with Some (Node ANull _) => Raises RuntimeError | _ => Gives "key" end.
Example C93_ex_custom : answers_as [RCustom "net.Key" 0] ex_custom ex_answers /\
  inspected (fun _ => "?") ex_answers true true [RCustom "net.Key" 0]
    (blob (obj "k" [str "?"]) [a_cls "net.K" "k" [a_prop "key" "net.Key"]] [leaf ANull]) = Gives "{ Parsed : { key : key } }".
Proof.
  split; [|vm_compute; reflexivity]. intros ty which _ name d _. unfold ex_answers, ex_custom.
  destruct (view d) as [[[] ?]|]; try (eexists; split; [reflexivity|destruct name; reflexivity]). exists d. split; [reflexivity|split; reflexivity].
Qed.
