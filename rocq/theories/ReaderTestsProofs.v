(** What the programs in bin/reader-tests print. *)
From Coq Require Import Lia.
From Verif Require Import Base Proton ProtonProofs TypeNames SpecTypes TypeNamesProofs CordaFile SpecFile CordaFileProofs Readers SpecReaders
  Writer SpecWriter WriterProofs SpecWriteRead Programs SpecPrograms ProgramsProofs ProgramChecks DecideProofs Deserialise SpecDeserialise DeserialiseProofs
  SpecDescriptors SpecSchema Blob SpecAccept SpecDisplay SpecReadBack ReadBackProofs Tools SpecTools ToolsProofs
  WriterTests SpecWriterTests WriterTestsProofs SpecFrame FrameProofs FrameObjects ReaderTests SpecReaderTests.
Import List ListNotations.
Open Scope string_scope.

(** ** The first *)
Definition cls := "DeSerialiseMe".
Lemma integers_read t a b : integers t a b <->
  exists p, payload t p /\ reads_as reader_classes1 (RClass cls false) (Some p) (OClass cls [OPrim (OfInt a); OPrimPtr (OfInt b)]).
Proof.
  split.
  - intros (p & body & Hp & Hb & Ha & (x & Hx & Ex) & (y & Hy & Ey)). exists p. split; [exact Hp|].
    assert (Hd : tree_atom p = ADescribed) by (destruct Hp as (_ & ? & _ & _ & _ & ?); assumption).
    apply (reads_class _ _ _ body); [exact Hd|exact Hb|exact Ha|]. cbn. constructor; [|constructor; [|constructor]]; cbn [fst snd].
    + rewrite Hx. constructor. rewrite Ex. constructor.
    + rewrite Hy. constructor. rewrite Ey. constructor.
  - intros (p & Hp & R). inversion R as [| |c t' body xs Hd Hb Ha F|]; subst. exists p, body. split; [exact Hp|]. split; [exact Hb|]. split; [exact Ha|].
    cbn in F. inversion F as [|? ? ? ? F1 F2]; subst. inversion F2 as [|? ? ? ? F3 _]; subst. cbn [fst snd] in *. split.
    + inversion F1 as [? ? ? H| | |]; subst. inversion H; subst. eexists. split; [symmetry; eassumption|congruence].
    + inversion F3 as [|? ? ? H| |]; subst. inversion H; subst. eexists. split; [symmetry; eassumption|congruence].
Qed.
Lemma never_undefined o : ~ undefined reader_classes1 (RClass cls false) o.
Proof.
  intros H. inversion H; subst. match goal with E : reader_classes1 _ = _ |- _ => unfold reader_classes1 in E end.
  match goal with E : _ = (?bf ++ _)%list, U : undefined _ _ _ |- _ => clear - E U; destruct bf as [|? [|? [|]]]; cbn in E; try discriminate; injection E; intros; subst; inversion U end.
Qed.
Lemma read_shape o x : reads_as reader_classes1 (RClass cls false) o x -> exists a b, x = OClass cls [OPrim (OfInt a); OPrimPtr (OfInt b)].
Proof.
  intros R. inversion R as [| |c t' body xs Hd Hb Ha F|]; subst. cbn in F. inversion F as [|? ? ? ? F1 F2]; subst. inversion F2 as [|? ? ? ? F3 F4]; subst. inversion F4; subst.
  cbn [fst snd] in *. inversion F1 as [? ? ? H| | |]; subst. inversion H; subst. inversion F3 as [|? ? ? H'| |]; subst. inversion H'; subst. eauto.
Qed.

Section First.
Context (decode : string -> option tree) (fuel : nat) (fs : string -> file) (prog name : string).
Lemma first_opened cb : open_ (fs name) default_config = Ret cb ->
  (decode (cb_bytes cb) = None -> reader_test1 decode fuel fs [prog; name] = Aborted) /\
  (forall t, decode (cb_bytes cb) = Some t -> height t <= fuel ->
   (forall a b, integers t a b -> reader_test1 decode fuel fs [prog; name] = Exit 0 (lines [dec a ++ ", " ++ dec b; "Fingerprint = DSM123"]) false) /\
   ((forall a b, ~ integers t a b) -> reader_test1 decode fuel fs [prog; name] = Terminated)).
Proof.
  intros E. unfold reader_test1. rewrite E. unfold AMQPBlob_. split; [now intros ->|]. intros t -> H. split.
  - intros a b I. apply integers_read in I. apply (deserialised_exactly _ fuel _ _ _ H) in I as [d I]. unfold cls in I. rewrite I.
    unfold goodbye, lines. f_equal. cbn [String.concat map]. rewrite !app_assoc_s. reflexivity.
  - intros N. pose proof (deserialise_cases reader_classes1 fuel (RClass cls false) t H) as C. unfold cls in C.
    destruct (deserialise _ _ _ _) as [x d|e d| | |]; try contradiction; try reflexivity.
    + destruct C as (p & Hp & _ & C). assert (R := proj2 (C x) eq_refl). destruct (read_shape _ _ R) as (a & b & ->).
      elim (N a b). apply integers_read. eauto.
    + destruct C as (p & _ & U & _). now elim (never_undefined (Some p)).
Qed.

Theorem first_stream bytes e body : fs name = File bytes -> fits bytes -> corda_stream bytes e body ->
  (decode body = None -> reader_test1 decode fuel fs [prog; name] = Aborted) /\
  (forall t, decode body = Some t -> height t <= fuel ->
   (forall a b, integers t a b -> reader_test1 decode fuel fs [prog; name] = Exit 0 (lines [dec a ++ ", " ++ dec b; "Fingerprint = DSM123"]) false) /\
   ((forall a b, ~ integers t a b) -> reader_test1 decode fuel fs [prog; name] = Terminated)).
Proof.
  intros E F S. assert (O : exists cb, open_ (fs name) default_config = Ret cb /\ cb_bytes cb = body).
  { red in S. subst bytes. rewrite E. rewrite open_long by (auto using default_good; reflexivity).
    replace (existsb (String.eqb magic) AMQP_HEADERS) with true by reflexivity. cbn [orb].
    rewrite (proj2 (section_marker _ e) eq_refl). eexists. split; reflexivity. }
  destruct O as (cb & O & <-). now apply first_opened.
Qed.
Theorem first_other bytes : fs name = File bytes -> fits bytes -> 8 <= String.length bytes -> (forall e body, ~ corda_stream bytes e body) ->
  reader_test1 decode fuel fs [prog; name] = Terminated.
Proof.
  intros E F L N. destruct (open_checked default_config bytes (default_good) eq_refl F L) as [(e & body & cb & S & _)|[_ O]]; [now elim (N e body)|].
  unfold reader_test1. rewrite E, O. reflexivity.
Qed.
Theorem first_missing : fs name = NoFile -> reader_test1 decode fuel fs [prog; name] = Terminated.
Proof. intros E. unfold reader_test1. rewrite E. reflexivity. Qed.
Theorem first_arguments argv : length argv <> 2 -> reader_test1 decode fuel fs argv = Exit 1 "" true.
Proof. destruct argv as [|? [|? [|]]]; cbn; intros; try reflexivity. lia. Qed.

(** Objects *)
Lemma first_object encode root a b blob w : well_formed root -> is_target root = true -> no_clash root ->
  back reader_classes1 (RClass cls false) root (OClass cls [OPrim (OfInt a); OPrimPtr (OfInt b)]) ->
  serialise_blob root new_writer = Ok blob w -> decodes decode encode blob -> fs name = saved encode blob ->
  fits (magic ++ String nul (encode (forest blob))) -> heights (forest blob) <= fuel ->
  reader_test1 decode fuel fs [prog; name] = Exit 0 (lines [dec a ++ ", " ++ dec b; "Fingerprint = DSM123"]) false.
Proof.
  intros W T N B E (t & Ef & Hd) Hs Hf Hh. pose proof (saved_file encode fs _ _ _ Ef Hs) as Hn.
  rewrite Ef in Hf, Hh. rewrite heights_cons in Hh. cbn in Hh.
  destruct (first_stream _ DATA_AND_STOP (encode [t]) Hn Hf eq_refl) as [_ K]. destruct (K t Hd) as [K' _]; [lia|]. apply K'.
  apply integers_read. apply (deserialised_exactly _ (height t)); [lia|].
  destruct (written root blob w W T N E) as (ws & _ & Eb). subst blob. rewrite forest_decoded in Ef. injection Ef as Et.
  assert (height (wire root) <= height t).
  { rewrite <- Et. unfold envelope_tree, described, list_of. rewrite height_node, !heights_cons, height_node, heights_cons. lia. }
  destruct (round_trip _ _ _ _ _ B W N H) as (blob & w' & d & E' & D). rewrite E in E'. injection E' as E' _. subst blob.
  rewrite Et in D. eauto.
Qed.
End First.

(** ** The others *)
Section Others.
Context (encode : list tree -> string) (fuel : nat).
Lemma returned prog cs c root o use : back cs (RClass c false) (cut_item root) o -> well_formed root -> no_clash root -> height (wire root) <= fuel ->
  exists blob w, serialise_blob root new_writer = Ok blob w /\ there_and_back encode fuel [prog] cs c root use = (Some (saved encode blob), use o).
Proof.
  intros B W N H. destruct (strings_cut cs c root o fuel B W N H) as (blob & w & d & E & D). exists blob, w. split; [exact E|].
  unfold there_and_back. rewrite E, D. reflexivity.
Qed.
Lemma arguments argv cs c root use : length argv <> 1 -> there_and_back encode fuel argv cs c root use = (None, Exit 1 "" false).
Proof. destruct argv as [|? [|]]; cbn; intros; try reflexivity. lia. Qed.
End Others.

(** All are objects of orderly programs. *)
Ltac simple_type := cbn; intuition (auto; discriminate).
Ltac reading prog n := apply (placed_in prog (class n)); [reflexivity|showing|cbn; tauto| |vm_compute; intuition discriminate].
Lemma placed1 v : placed (reader_object1 v). Proof. reading reader_program1 "DeSerialiseMe". simple_type. Qed.
Lemma placed2 v : placed (reader_object2 v). Proof. reading reader_program2 "Outer". simple_type. Qed.
Lemma placed3 a b c d : placed (reader_object3 a b c d). Proof. reading reader_program3 "Outer". simple_type. Qed.
Lemma placed4 a b c d e f : placed (reader_object4 a b c d e f). Proof. reading reader_program4 "Outer". simple_type. Qed.
Lemma placed5 a b c d e f : placed (reader_object5 a b c d e f).
Proof.
  exists reader_program5, (class "Outer"). split; [apply orderlyb_ok; reflexivity|]. split; [cbn; tauto|]. split; [simple_type|].
  split; [cbn; tauto|]. apply not_spoken. vm_compute. intuition discriminate.
Qed.
Lemma placed6 l : placed (reader_object6 l). Proof. reading reader_program6 "DeSerialiseMe". cbn. repeat split. elements. now split. Qed.
Lemma placed_fine root : placed root -> well_formed root /\ is_target root = true /\ no_clash root.
Proof. intros (P & T & H1 & H2 & H3 & H4 & _). split; [exact H4|]. split; [eapply root_target; eauto|eapply root_no_clash; eauto]. Qed.
Lemma placed_file fmt custom root result : placed root -> inspection fmt custom root result -> file_inspection fmt custom root result.
Proof. intros (P & T & H1 & H2 & H3 & H4 & H5) HI. eapply object_file; eauto. Qed.

(** Test 1 *)
Lemma back1 v : back reader_classes1 (RClass cls false) (reader_object1 v) (OClass cls [OPrim (OfInt v); OPrimPtr (OfInt v)]).
Proof. apply back_class. apply back_cons; [exact (back_prim _ (OfInt v) I)|]. apply back_cons; [exact (back_prim_ptr _ (OfInt v) I)|constructor]. Qed.
Lemma back1w v : back reader_classes1 (RClass cls false) (object1 v) (OClass cls [OPrim (OfInt v); OPrimPtr (OfInt (v + 50))]).
Proof. apply back_class. apply back_cons; [exact (back_prim _ (OfInt v) I)|]. apply back_cons; [exact (back_prim_ptr _ (OfInt (v + 50)) I)|constructor]. Qed.

Theorem own_file v : read_from_file (reader_object1 v) (lines [dec v ++ ", " ++ dec v; "Fingerprint = DSM123"]).
Proof. intros decode encode fuel fs prog name blob w. destruct (placed_fine _ (placed1 v)) as (W & T & N). apply first_object; auto using back1. Qed.
Theorem writers_file v : read_from_file (object1 v) (lines [dec v ++ ", " ++ dec (v + 50); "Fingerprint = DSM123"]).
Proof.
  intros decode encode fuel fs prog name blob w. destruct (placed_fine (object1 v)) as (W & T & N); [apply sample_typed; constructor|].
  apply first_object; auto using back1w.
Qed.

Lemma ints_height l : heights (map wire (map int l)) <= 1.
Proof. induction l as [|x l IH]; [cbn; lia|]. cbn [map]. rewrite heights_cons. cbn [wire int prim_tree]. change (height (leaf (AInt x))) with 1. lia. Qed.
Section Texts.
Context (encode : list tree -> string) (fuel : nat) (cout_double cout_float : N -> string) (prog : string).
Lemma shown_back cs c root o use r : placed root -> back cs (RClass c false) (cut_item root) o -> height (wire root) <= fuel -> use o = r ->
  exists blob w, serialise_blob root new_writer = Ok blob w /\ there_and_back encode fuel [prog] cs c root use = (Some (saved encode blob), r).
Proof. intros P B H <-. destruct (placed_fine _ P) as (W & _ & N). now apply returned. Qed.
Ltac values := repeat match goal with
  | |- back _ (RClass _ false) _ _ => apply back_class
  | |- back _ (RClass _ true) _ _ => apply back_class_ptr
  | |- back_all _ [] _ _ => apply back_nil
  | |- back_all _ _ [] _ => apply back_nil
  | |- back_all _ _ _ _ => apply back_cons
  | |- back _ (RPrim _ _) ?i _ => let j := eval cbn in i in match j with IPrim ?v => apply (back_prim _ v) end
  end.
Ltac said := unfold goodbye, lines, indented; f_equal; cbn [String.concat map]; rewrite !app_assoc_s; reflexivity.
Theorem text2 val : 20 <= fuel -> exists blob w, serialise_blob (reader_object2 val) new_writer = Ok blob w /\
  reader_test2 encode fuel [prog] val = (Some (saved encode blob), Exit 0 (lines ["Inner::deserialiseImple:1"; "Outer:: " ++ dec val]) false).
Proof. intros H. eapply shown_back; [apply placed2|values; exact I|cbn; lia|said]. Qed.
Theorem text3 a b c d : 20 <= fuel -> exists blob w, serialise_blob (reader_object3 a b c d) new_writer = Ok blob w /\
  reader_test3 encode fuel [prog] a b c d = (Some (saved encode blob),
    Exit 0 (lines ["Inner::deserialiseImpl:2"; "Inner::deserialiseImpl:2"; dec a ++ " " ++ dec b ++ " " ++ dec c ++ " " ++ dec d]) false).
Proof. intros H. eapply shown_back; [apply placed3|values; exact I|cbn; lia|said]. Qed.
Theorem text4 a b c d e f : 20 <= fuel -> exists blob w, serialise_blob (reader_object4 a b c d e f) new_writer = Ok blob w /\
  reader_test4 encode fuel [prog] a b c d e f = (Some (saved encode blob),
    Exit 0 (lines ["Inner::deserialiseImpl:6"; "Outer:: "; "  " ++ dec a; "  " ++ dec b; "  " ++ dec c; "  " ++ dec d; "  " ++ dec e; "  " ++ dec f]) false).
Proof. intros H. eapply shown_back; [apply placed4|values; exact I|cbn; lia|said]. Qed.
Lemma c_str_up_to s : c_str s = up_to_nul s.
Proof. induction s as [|x s IH]; [reflexivity|]. cbn [c_str up_to_nul]. change nul with "000"%char. destruct (Ascii.eqb x "000"); [reflexivity|now rewrite IH]. Qed.
Lemma up_to_nul_free s : nul_free (up_to_nul s).
Proof.
  unfold nul_free. induction s as [|x s IH]; cbn; [tauto|]. destruct (Ascii.eqb x "000") eqn:E; cbn; [tauto|]. intros [->|K]; [discriminate|tauto].
Qed.
Theorem text5 a b c d e f : 20 <= fuel -> exists blob w, serialise_blob (reader_object5 a b c d e f) new_writer = Ok blob w /\
  reader_test5 encode fuel cout_double cout_float [prog] a b c d e f = (Some (saved encode blob),
    Exit 0 (lines ["Inner::deserialiseImpl:6"; "Outer:: "; "  " ++ dec a; "  " ++ up_to_nul b; "  " ++ cout_double c; "  " ++ dec d;
                   "  " ++ (if e then "1" else "0"); "  " ++ cout_float f]) false).
Proof.
  intros H. eapply shown_back; [apply placed5| |cbn; lia|].
  - values. all: try exact I. cbn. rewrite c_str_up_to. apply up_to_nul_free.
  - rewrite c_str_up_to. said.
Qed.
Theorem text6 l : 20 <= fuel -> exists blob w, serialise_blob (reader_object6 l) new_writer = Ok blob w /\
  reader_test6 encode fuel [prog] l = (Some (saved encode blob), Terminated).
Proof.
  intros H. destruct (placed_fine _ (placed6 l)) as (W & T & N).
  destruct (vectors_throw reader_classes6 (RClass "DeSerialiseMe" false) (reader_object6 l) fuel) as (blob & w & d & E & D); auto.
  - eapply (wrong_inside _ _ _ _ _ _ [] (RVector false) [] [] _ []); [reflexivity|reflexivity|constructor|].
    apply wrong_here. split; [reflexivity|eauto].
  - pose proof (ints_height l). change (wire (reader_object6 l)) with
      (payload_tree "DSMe-123" [list_of [payload_tree "IntVector" [list_of (map wire (map int l))]]]).
    unfold payload_tree, list_of, leaf. rewrite !height_node, !heights_cons, !height_node, !heights_cons, !height_node, !heights_cons, !height_node.
    change (heights []) with 0. lia.
  - exists blob, w. split; [exact E|]. unfold reader_test6, there_and_back. rewrite E, D. reflexivity.
Qed.
End Texts.

(** What the blob-inspector makes of the files. *)
Ltac whole_text v := match goal with |- context [shown ?r] => change (shown r) with v end;
  cbn [printed map fst snd String.concat append]; repeat (progress (rewrite ?app_assoc_s; cbn [append])); reflexivity.
Ltac program_type prog n ts := eapply shown_decided with (P := prog) (T := class n) (us := ts);
  [ apply orderlyb_ok; reflexivity | showing | cbn; tauto | simple_type | simple_type
   | apply all_occur; [intros u; cbn; tauto|reflexivity|cbn; intuition (subst; cbn; auto)] | outcomes |].
Theorem inspect1 fmt custom v : inspection fmt custom (reader_object1 v) (inl ("{ Parsed : { m_val : " ++ dec v ++ ", m_val2 : " ++ dec v ++ " } }")).
Proof. program_type reader_program1 "DeSerialiseMe" [class "DeSerialiseMe"]. whole_text (VObject "DSM123" [("m_val", VInt v); ("m_val2", VInt v)]). Qed.
Theorem inspect2 fmt custom v : inspection fmt custom (reader_object2 v) (inl ("{ Parsed : { m_a : { m_val : " ++ dec v ++ " } } }")).
Proof.
  program_type reader_program2 "Outer" [class "Inner"; class "Outer"].
  whole_text (VObject "Outer123" [("m_a", VObject "Inner123" [("m_val", VInt v)])]).
Qed.
Theorem inspect3 fmt custom a b c d : inspection fmt custom (reader_object3 a b c d)
  (inl ("{ Parsed : { m_a : { m_val1 : " ++ dec a ++ ", m_val2 : " ++ dec b ++ " }, m_b : { m_val1 : " ++ dec c ++ ", m_val2 : " ++ dec d ++ " } } }")).
Proof.
  program_type reader_program3 "Outer" [class "Inner"; class "Outer"].
  whole_text (VObject "Outer123" [("m_a", VObject "Inner123" [("m_val1", VInt a); ("m_val2", VInt b)]); ("m_b", VObject "Inner123" [("m_val1", VInt c); ("m_val2", VInt d)])]).
Qed.
Theorem inspect4 fmt custom a b c d e f : inspection fmt custom (reader_object4 a b c d e f)
  (inl ("{ Parsed : { m_a : { m_val1 : " ++ dec a ++ ", m_val2 : " ++ dec b ++ ", m_val3 : " ++ dec c ++
        ", m_val4 : " ++ dec d ++ ", m_val5 : " ++ dec e ++ ", m_val6 : " ++ dec f ++ " } } }")).
Proof.
  program_type reader_program4 "Outer" [class "Inner"; class "Outer"].
  whole_text (VObject "Outer123" [("m_a", VObject "Inner123" [("m_val1", VInt a); ("m_val2", VInt b); ("m_val3", VInt c); ("m_val4", VInt d); ("m_val5", VInt e); ("m_val6", VInt f)])]).
Qed.
Theorem inspect5 fmt custom a b c d e f : inspection fmt custom (reader_object5 a b c d e f) (inr RuntimeError).
Proof.
  intros mo kf _. do 2 eexists. split; [vm_compute; reflexivity|]. exists 30. intros fuel Hf.
  do 31 (destruct fuel as [|fuel]; [lia|]). eexists. destruct mo, kf; vm_compute; reflexivity.
Qed.
Theorem inspect6 fmt custom l : inspection fmt custom (reader_object6 l) (inl ("{ Parsed : { m_val : [ " ++ String.concat ", " (map dec l) ++ " ] } }")).
Proof.
  head reader_program6 "DeSerialiseMe" [class "DeSerialiseMe"; Vector (Prim CInt)].
  - cbn. repeat split. elements. now split.
  - cbn. repeat split; try discriminate. elements. exact I.
  - everything. cbn. intuition (subst; cbn; auto).
  - change (shown (reader_object6 l)) with (VObject "DSMe-123" [("m_val", VList "IntVector" (map shown (map int l)))]).
    cbn [printed map fst snd String.concat]. rewrite !map_map. change (fun x => printed fmt dec (shown (int x))) with dec.
    cbn [append]. rewrite ?app_assoc_s. reflexivity.
Qed.
