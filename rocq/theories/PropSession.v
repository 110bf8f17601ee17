(** Property theorems C94: inspecting one blob after another with the same factory.
    Specification: SpecSession.v. *)
From Coq Require Import Lia.
From Verif Require Import Base Proton ProtonProofs TypeNames Schema SpecSchema Descriptors SpecDescriptors Factory SpecFactory
  Readers SpecReaders Blob SpecAccept SpecDisplay SpecReadScript SpecParse SpecFate FateBlobProofs SpecSession SessionProofs PropFate.
Import List ListNotations.
Open Scope string_scope.

(** C94: whatever was inspected before, with whatever result, and whichever
    serialisers were installed in between, each inspection ends as the story says: it
    depends on the blobs only through what the factory remembers of them. *)
Theorem C94_exactly : forall double custom answers map_order entry_order fuel es,
  answers_as (added es) custom answers -> orderly double answers map_order entry_order nothing es = true ->
  (forall t, In (Look t) es -> height t < fuel) ->
  Forall2 (fun o p => turns_out (fst p) o (snd p)) (sitting double custom map_order entry_order fuel es new_factory) (story double answers map_order entry_order nothing es).
Proof.
  intros double custom answers mo kf fuel es Ha Ho Hl. apply story_right; [exact Ha|exact remembers_nothing|exact Ho|exact Hl].
Qed.
Print Assumptions C94_exactly.

(** Blobs whose schemas are complete and do not contradict each other are each shown
    as with a new factory. *)
Theorem C94_like_new : forall double custom answers map_order entry_order fuel rs ts,
  answers_as rs custom answers -> Forall is_custom rs -> NoDup (map reader_type rs) ->
  forallb own_name (map reader_type rs) = true -> (forall t, In t ts -> own_names rs t = true /\ self_contained map_order rs t /\ height t < fuel) ->
  ForallOrdPairs (fun t t' => agree (types_of_blob t) (types_of_blob t')) ts ->
  Forall2 (fun o p => turns_out (fst p) o (snd p)) (sitting double custom map_order entry_order fuel (map Equip rs ++ map Look ts) new_factory)
    (to_the_end (map (fun t => (t, inspected double answers map_order entry_order rs t)) ts)).
Proof.
  intros double custom answers mo kf fuel rs ts Ha Hc Hd Hn Ht Hp.
  destruct (story_adds double answers mo kf rs (map Look ts) nothing Hc Hn Hd (fun _ _ X => X) eq_refl) as (m & E1 & E2 & E3 & E4 & E5). cbn in E1, E2.
  destruct (story_new double answers mo kf ts m) as [S1 S2]; rewrite ?E1; try assumption; try (intros t X; now apply Ht).
  { intros t _. rewrite E2. intros u v []. }
  rewrite E1 in S2. rewrite <- S2, <- E5. apply C94_exactly.
  - assert (X : added (map Equip rs ++ map Look ts) = rs); [|now rewrite X]. unfold added. rewrite map_app, concat_app, !map_map. clear.
    assert (Y : List.concat (map (fun x : tree => @nil reader) ts) = []) by (induction ts; auto). rewrite Y, app_nil_r. induction rs as [|r rs IH]; [reflexivity|]. cbn. now f_equal.
  - congruence.
  - intros t X. apply in_app_iff in X as [X|X]; apply in_map_iff in X as (q & X & Y); [discriminate|]. injection X as ->. now apply Ht.
Qed.
Print Assumptions C94_like_new.

(** ** Examples *)
Definition ex_enum : tree :=
  container_tree {| wr_name := "net.E"; wr_label := None; wr_provides := []; wr_source := "list"; wr_fingerprint := "e"; wr_choices := ["A"; "B"] |}.
Definition ex_told (es : list event) : list (fate string) := map snd (story (fun _ => "?") ex_answers true true nothing es).
Definition ex_orderly (es : list event) : bool := orderly (fun _ => "?") ex_answers true true nothing es.
(** A class that needs a type that is not there; that type; that class again, with it. *)
Definition ex_without : tree := blob (obj "n" [obj "z" [leaf (AInt 1)]]) [a_cls "net.N" "n" [a_prop "z" "net.Z"]] [leaf ANull].
Definition ex_z : tree := blob (obj "z" [leaf (AInt 1)]) [a_cls "net.Z" "z" [a_prop "i" "int"]] [leaf ANull].
Definition ex_with : tree := blob (obj "n" [obj "z" [leaf (AInt 1)]]) [a_cls "net.Z" "z" [a_prop "i" "int"]; a_cls "net.N" "n" [a_prop "z" "net.Z"]] [leaf ANull].
(** Two versions of a class. *)
Definition ex_old : tree := blob (obj "v1" [leaf (AInt 7)]) [a_cls "net.V" "v1" [a_prop "x" "int"]] [leaf ANull].
Definition ex_new : tree := blob (obj "v2" [str "seven"]) [a_cls "net.V" "v2" [a_prop "y" "string"]] [leaf ANull].
(** A constant, with its type and without. *)
Definition ex_constant (types : list tree) : tree := blob (Node ADescribed [leaf (ASymbol "e"); list_of [str "B"; leaf (AInt 1)]]) types [leaf ANull].

Example C94_ex : Forall (fun c => ex_orderly (fst c) = true /\ ex_told (fst c) = snd c)
  [ (* after a failure for want of a type, a blob that has the type is undefined behaviour *)
    ([Look ex_without; Look ex_with; Look ex_z], [Raises RuntimeError; Wild]);
    (* the failed blob fails the same way again *)
    ([Look ex_without; Look ex_without], [Raises RuntimeError; Raises RuntimeError]);
    (* a serialiser installed for the type helps *)
    ([Look ex_without; Equip (RCustom "net.Z" 0); Look ex_without; Look ex_with], [Raises RuntimeError; Gives "{ Parsed : { z : key } }"; Gives "{ Parsed : { z : key } }"]);
    (* with the type seen before: it is known, but the object is looked for in the schema of its own blob *)
    ([Look ex_z; Look ex_without], [Gives "{ Parsed : { i : 1 } }"; Raises RuntimeError]);
    ([Look ex_z; Look ex_with], [Gives "{ Parsed : { i : 1 } }"; Gives "{ Parsed : { z : { i : 1 } } }"]);
    (* the later version of a class with the types of the earlier one, and the other way round *)
    ([Look ex_old; Look ex_new], [Gives "{ Parsed : { x : 7 } }"; Gives "{ Parsed : { y : 0 } }"]);
    ([Look ex_new; Look ex_old], [Gives "{ Parsed : { y : ""seven"" } }"; Raises RuntimeError]);
    (* a constant of a type that only an earlier blob describes *)
    ([Look (ex_constant [])], [Stops]);
    ([Look (ex_constant [ex_enum]); Look (ex_constant [])], [Gives "{ Parsed : B }"; Gives "{ Parsed : B }"]) ].
Proof. repeat (constructor; [split; vm_compute; reflexivity|]). constructor. Qed.

(** The conditions of [C94_like_new] hold of these five. *)
Example C94_ex_conditions : let ts := [ex_z; ex_with; ex_z; ex_old; ex_constant [ex_enum]] in
  Forall is_custom [RPublicKey] /\ NoDup (map reader_type [RPublicKey]) /\
  (forall t, In t ts -> own_names [RPublicKey] t = true /\ self_contained true [RPublicKey] t /\ height t < 20) /\
  ForallOrdPairs (fun t t' => agree (types_of_blob t) (types_of_blob t')) ts /\
  map snd (to_the_end (map (fun t => (t, inspected (fun _ => "?") ex_answers true true [RPublicKey] t)) ts)) =
    [Gives "{ Parsed : { i : 1 } }"; Gives "{ Parsed : { z : { i : 1 } } }"; Gives "{ Parsed : { i : 1 } }"; Gives "{ Parsed : { x : 7 } }"; Gives "{ Parsed : B }"].
Proof.
  cbv zeta. split; [repeat constructor|]. split; [repeat constructor; intros []|]. split; [|split; [|vm_compute; reflexivity]].
  - assert (H : Forall (fun t => own_names [RPublicKey] t = true /\ self_contained true [RPublicKey] t /\ height t < 20) [ex_z; ex_with; ex_z; ex_old; ex_constant [ex_enum]]).
    { repeat (constructor; [split; [vm_compute; reflexivity|split; [unfold self_contained; vm_compute; split; [reflexivity|discriminate]|vm_compute; lia]]|]). constructor. }
    intros t X. rewrite Forall_forall in H. now apply H.
  - repeat constructor; intros u v X Y E; vm_compute in X, Y; repeat (destruct X as [X|X]; [|]); repeat (destruct Y as [Y|Y]; [|]); try contradiction; subst; try reflexivity; discriminate.
Qed.
