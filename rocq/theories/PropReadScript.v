(** Property theorems C91: classes that decide what to read by what they have read,
    that throw while they read, and that catch exceptions.
    Specification: SpecReadScript.v.  [cs] gives the program of each class; [fuel]
    bounds the nesting that is explored, any number from the height of the blob on
    will do. *)
From Coq Require Import Lia.
From Verif Require Import Base Proton ProtonProofs SpecDescriptors Writer SpecWriter WriterProofs Deserialise SpecAccept SpecDeserialise DeserialiseProofs SpecReadBack
  ReadBackProofs SpecTools ToolsProofs ReadScript SpecReadScript ReadScriptProofs.
Import List ListNotations.
Open Scope string_scope.

(** How deserialising ends, for all programs, exactly. *)
Theorem C91_exactly : forall cs fuel ty t p r, height t <= fuel -> payload t p -> tidy p ->
  ends_as (deserialise_with cs fuel ty (decoded t)) r <-> exists moves, meets cs ty (Some p) r moves.
Proof. exact deserialise_with_exactly. Qed.
Print Assumptions C91_exactly.

(** There is one way in which it ends. *)
Theorem C91_one_ending : forall cs ty o r moves r' moves', meets cs ty o r moves -> meets cs ty o r' moves' -> r' = r /\ moves' = moves.
Proof. intros cs ty o r moves r' moves' H H'. exact (meets_once cs ty o r moves H r' moves' H'). Qed.
Print Assumptions C91_one_ending.

(** For every object without maps that the library has serialised. *)
Theorem C91_written : forall root blob w, well_formed root -> is_target root = true -> no_clash root -> without_maps root ->
  serialise_blob root new_writer = Ok blob w ->
  forall cs fuel ty r, heights (forest blob) <= fuel ->
  ends_as (deserialise_with cs fuel ty blob) r <-> exists moves, meets cs ty (Some (wire root)) r moves.
Proof.
  intros root blob w W T N M E cs fuel ty r H. destruct (written root blob w W T N E) as (ws & _ & ->).
  rewrite forest_decoded in H. apply deserialise_with_exactly.
  - unfold heights in H. cbn [fold_right] in H. lia.
  - apply envelope_payload. destruct root; try discriminate T; reflexivity.
  - apply tidy_wire, M.
Qed.
Print Assumptions C91_written.

(** Classes that read one property after the other are a special case (C70). *)
Theorem C91_straight : forall cs fuel ty d, deserialise_with (fun c => straight [] (cs c)) fuel ty d = deserialise cs fuel ty d.
Proof. exact deserialise_straight. Qed.
Print Assumptions C91_straight.

(** After an exception that was caught the next property is read, if it was thrown
    for a primitive or while an object was read, ... *)
Theorem C91_caught_partial : forall cs body i t k h e u r, part i body = Some u ->
  (exists p ptr, t = RPrim p ptr) \/ tree_atom u = ADescribed ->
  (exists moves, meets cs t (Some u) (Thrown e) moves) ->
  follows cs body i (Attempt t k h) r <-> follows cs body (S i) (h e) r.
Proof.
  intros cs body i t k h e u r P D (moves & M).
  assert (moves = true) as ->.
  { inversion M as [| | | |? ? N1 N2| | | | | |]; subst; try reflexivity. destruct D as [(p & ptr & ->)|D]; [now elim (N1 p ptr)|now elim (N2 u eq_refl)]. }
  split.
  - intros F. inversion F as [| | | | |? ? ? ? ? x m ? K1 K2|? ? ? ? ? e' m ? K1 K2|? ? ? ? ? m K1]; subst; rewrite P in K1;
      destruct (meets_once _ _ _ _ _ M _ _ K1) as [Q1 Q2]; try discriminate. injection Q1 as ->. subst m. exact K2.
  - intros F. eapply follows_catch; [rewrite P; exact M|]. exact F.
Qed.
Print Assumptions C91_caught_partial.

(** ... but not for a null pointer: that is read again, *)
Theorem C91_null_refuted : forall cs body i t k h u r, part i body = Some u -> tree_atom u = ANull -> (forall p ptr, t <> RPrim p ptr) ->
  follows cs body i (Attempt t k h) r <-> follows cs body i (h RuntimeError) r.
Proof.
  intros cs body i t k h u r P A T.
  assert (M : meets cs t (Some u) (Thrown RuntimeError) false).
  { constructor; [exact T|]. intros v [= <-]. rewrite A. discriminate. }
  split.
  - intros F. inversion F as [| | | | |? ? ? ? ? x m ? K1 K2|? ? ? ? ? e' m ? K1 K2|? ? ? ? ? m K1]; subst; rewrite P in K1;
      destruct (meets_once _ _ _ _ _ M _ _ K1) as [Q1 Q2]; try discriminate. injection Q1 as ->. subst m. exact K2.
  - intros F. eapply follows_catch; [rewrite P; exact M|]. exact F.
Qed.
Print Assumptions C91_null_refuted.

(** so a class that takes an exception for a null pointer loses the next pointer
    although it is not null. *)
Definition careful (a b : string) : program :=
  Attempt (RClass a true)
    (fun x => Attempt (RClass b true) (fun y => Make [x; y]) (fun _ => Make [x]))
    (fun _ => Attempt (RClass b true) (fun y => Make [y]) (fun _ => Make [])).
Theorem C91_lost_refuted : forall cs fuel c a b fp v groups more, cs c = careful a b -> tidy v ->
  let blob := envelope_tree (payload_tree fp [list_of [leaf ANull; v]]) groups more in
  height blob <= fuel -> exists d, deserialise_with cs fuel (RClass c false) (decoded blob) = Ok (OClass c []) d.
Proof.
  intros cs fuel c a b fp v groups more E V blob H.
  assert (K : ends_as (deserialise_with cs fuel (RClass c false) (decoded blob)) (Got (OClass c []))); [|exact K].
  apply (C91_exactly cs fuel (RClass c false) blob (payload_tree fp [list_of [leaf ANull; v]]) _ H).
  - apply envelope_payload. reflexivity.
  - apply tidy_described. repeat constructor; [discriminate|exact V].
  - exists true. eapply meets_object; [reflexivity|reflexivity|reflexivity|]. rewrite E. unfold careful.
    apply (C91_null_refuted cs _ 0 (RClass a true) _ _ (leaf ANull)); [reflexivity|reflexivity|discriminate|].
    apply (C91_null_refuted cs _ 0 (RClass b true) _ _ (leaf ANull)); [reflexivity|reflexivity|discriminate|]. constructor.
Qed.
Print Assumptions C91_lost_refuted.

(** Nor for a map: an object with a map whose class catches the exception is not
    closed, and what comes after it cannot be read. *)
Theorem C91_map_refuted : forall cs fuel c inner x fp fp' fp'' entries n groups more,
  cs c = Get (RClass inner false) (fun o => Get (RPrim CInt false) (fun i => Make [o; i])) ->
  cs inner = Attempt (RClass x false) (fun o => Make [o]) (fun _ => Make []) ->
  let blob := envelope_tree (payload_tree fp [list_of [payload_tree fp' [list_of [payload_tree fp'' [Node AMap entries]]]; leaf (AInt n)]]) groups more in
  3 <= fuel -> exists d, deserialise_with cs fuel (RClass c false) (decoded blob) = Throw RuntimeError d.
Proof.
  intros cs fuel c inner x fp fp' fp'' entries n groups more E E' blob H.
  destruct fuel as [|[|[|fuel]]]; try lia. unfold deserialise_with, bind at 1. cbn [read_with]. rewrite E. cbn [follow read_with]. rewrite E'.
  eexists. vm_compute. reflexivity.
Qed.
Print Assumptions C91_map_refuted.

(** A class that reads an int and then, if it is positive, a name, and throws if it
    is negative; and one that reads two of those and does without the second if that
    throws. *)
Definition example_programs : programs := fun c =>
  if String.eqb c "net.Item" then
    Get (RPrim CInt false) (fun x => match x with
                                     | OPrim (OfInt z) => if (z <? 0)%Z then Fail LogicError
                                                          else if (0 <? z)%Z then Get (RPrim CString false) (fun s => Make [x; s]) else Make [x]
                                     | _ => Fail BadCast end)
  else Get (RClass "net.Item" false) (fun x =>
         Attempt (RClass "net.Item" false)
           (fun y => Get (RPrim CInt false) (fun n => Make [x; y; n]))
           (fun _ => Get (RPrim CInt false) (fun n => Make [x; n]))).
Definition an_item (z : Z) : item := IObject "net.Item" "f:i" [("n", ("int", IPrim (OfInt z))); ("name", ("string", IPrim (OfString "Ann")))].
Definition two (x y : Z) : item :=
  IObject "net.Two" "f:t" [("a", ("net.Item", an_item x)); ("b", ("net.Item", an_item y)); ("c", ("int", IPrim (OfInt 7)))].
Definition read_two (x y : Z) : outcome data object :=
  match serialise_blob (two x y) new_writer with
  | Ok blob _ => deserialise_with example_programs 20 (RClass "net.Two" false) blob
  | _ => UB
  end.
Example C91_ex : 
  (exists d, read_two 1 0 = Ok (OClass "net.Two" [OClass "net.Item" [OPrim (OfInt 1); OPrim (OfString "Ann")]; OClass "net.Item" [OPrim (OfInt 0)]; OPrim (OfInt 7)]) d) /\
  (exists d, read_two 1 (-1) = Ok (OClass "net.Two" [OClass "net.Item" [OPrim (OfInt 1); OPrim (OfString "Ann")]; OPrim (OfInt 7)]) d) /\
  (exists d, read_two (-1) 1 = Throw LogicError d).
Proof. split; [|split]; eexists; vm_compute; reflexivity. Qed.
Example C91_ex2 : well_formed (two 1 (-1)) /\ is_target (two 1 (-1)) = true /\ no_clash (two 1 (-1)) /\ without_maps (two 1 (-1)) /\
  exists blob w, serialise_blob (two 1 (-1)) new_writer = Ok blob w /\ heights (forest blob) <= 20.
Proof.
  split; [vm_compute; tauto|]. split; [reflexivity|]. split.
  - intros k s H1 H2. vm_compute in H1, H2. decompose [or] H2; try contradiction; discriminate.
  - split; [vm_compute; tauto|]. do 2 eexists. split; [vm_compute; reflexivity|]. vm_compute. repeat constructor.
Qed.
(** Each kind of exception that is caught occurs, as do null pointers. *)
Example C91_ex3 : forall cs,
  (exists moves, meets cs (RPrim CInt false) (Some (leaf (ALong 3))) (Thrown RuntimeError) moves) /\
  (cs "net.Bad" = Fail LogicError -> exists moves, meets cs (RClass "net.Bad" false) (Some (payload_tree "f" [list_of []])) (Thrown LogicError) moves) /\
  part 0 (list_of [leaf ANull; leaf (AInt 1)]) = Some (leaf ANull).
Proof.
  intros cs. split; [|split].
  - exists true. constructor; [|discriminate]. intros t v [= <-] H. inversion H.
  - intros E. exists true. eapply meets_failing; [reflexivity|reflexivity|reflexivity|]. rewrite E. constructor.
  - reflexivity.
Qed.
