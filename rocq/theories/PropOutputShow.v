(** Property theorems C105: what showing the payload of a blob writes to standard output.
    Specification: SpecOutputShow.v.  Model: OutputShow.v. *)
From Coq Require Import Lia.
From Verif Require Import Base OutputWriter SpecOutputWriter PropOutputWriter Proton SpecCursor ProtonProofs TypeNames Schema SpecSchema Descriptors SpecDescriptors Factory SpecFactory FactoryProofs
  Readers SpecReaders Blob SpecAccept SpecDisplay SpecInstalled SpecParse SpecFate FateProofs FateBlobProofs PropFate Output SpecOutput OutputProofs OutputReader SpecOutputReader
  OutputShow SpecOutputShow OutputShowProofs OutputShowBlobProofs OutputShowHideProofs.
Import List ListNotations.
Open Scope string_scope.

(** Writing to standard output changes nothing else: the text that is returned, or the
    exception or whatever happens, the position and the factory are those of Blob.v; what
    was there is kept. *)
Theorem C105_same_result : forall env double custom custom' map_order entry_order preface fuel d cf before,
  same_serialisers custom custom' ->
  same_contents (dumpContents_said env double custom map_order entry_order preface fuel (d, cf, before)) (before ++ preface d cf)
    (dumpContents double custom' map_order entry_order fuel (d, cf)).
Proof. intros. now apply contents_same. Qed.
Print Assumptions C105_same_result.

(** What is written, to the letter, and how it ends, for every blob. *)
Theorem C105_exactly : forall env double custom answers map_order entry_order preface rs cf t fuel before,
  answers_aloud rs custom answers -> run map_order (map Install rs) new_factory cf -> own_names rs t = true -> height t < fuel ->
  turns_out_aloud t (before ++ preface (decoded t) cf) (dumpContents_said env double custom map_order entry_order preface fuel (decoded t, cf, before))
    (inspected_aloud env double answers map_order entry_order rs t).
Proof.
  intros env double custom answers mo kf preface rs cf t fuel before Ha R Ho Hf. apply own_names_spec in Ho as [H1 H2]. now apply inspected_aloud_exactly.
Qed.
Print Assumptions C105_exactly.

(** C105 fails whenever a text is returned and somewhere in the payload, inside objects and
    lists, an object has a property that is an integer: there is a line that says which. *)
Theorem C105_silent_refuted : forall env double custom answers map_order entry_order preface rs cf t fuel before e n body payload z x s,
  answers_aloud rs custom answers -> run map_order (map Install rs) new_factory cf -> own_names rs t = true -> height t < fuel ->
  dumpContents_said env double custom map_order entry_order preface fuel (decoded t, cf, before) = Ok x s ->
  envelope_of t = Gives e -> payload_type e = Some n -> part 1 t = Some body -> part 0 body = Some payload ->
  integer_in (List.concat (s_types (e_schema e))) (map reader_type rs) (n_name n) payload z ->
  exists text, snd s = before ++ preface (decoded t) cf ++ text /\ within (at_line env "IntPropertyReader.cxx" 43 ("    -> " ++ number z)) text.
Proof.
  intros env double custom answers mo kf preface rs cf t fuel before e n body payload z x s Ha R Ho Hf E He Hn Hb Hp Hz.
  pose proof (C105_exactly env double custom answers mo kf preface rs cf t fuel before Ha R Ho Hf) as T. rewrite E in T. unfold turns_out_aloud in T.
  destruct (snd (inspected_aloud env double answers mo kf rs t)) as [y|y| |] eqn:Ey; try discriminate; destruct T as (cf' & T); try discriminate. injection T as -> ->.
  exists (fst (inspected_aloud env double answers mo kf rs t)). cbn [snd]. split; [apply append_assoc3|]. eapply (inspected_integers env double answers mo kf rs t e n body payload z y); eauto.
Qed.
Print Assumptions C105_silent_refuted.

(** But texts, long and floating-point numbers, truth values and bytes are not given away:
    if a payload differs from another in nothing else, what is written while it is shown is the
    same, and so is how that ends. *)
Theorem C105_hidden_partial : forall env double custom answers map_order entry_order preface rs cf payload payload' schema after fuel before,
  let t := described 1 (list_of (payload :: schema :: after)) in
  let t' := described 1 (list_of (payload' :: schema :: after)) in
  veiled payload payload' -> discreet answers ->
  answers_aloud rs custom answers -> run map_order (map Install rs) new_factory cf -> own_names rs t = true -> height t < fuel ->
  exists h h', fst h = fst h' /\ same_end (snd h) (snd h') /\
    turns_out_aloud t (before ++ preface (decoded t) cf) (dumpContents_said env double custom map_order entry_order preface fuel (decoded t, cf, before)) h /\
    turns_out_aloud t' (before ++ preface (decoded t') cf) (dumpContents_said env double custom map_order entry_order preface fuel (decoded t', cf, before)) h'.
Proof.
  intros env double custom answers mo kf preface rs cf payload payload' schema after fuel before t t' V D Ha R Ho Hf.
  exists (inspected_aloud env double answers mo kf rs t), (inspected_aloud env double answers mo kf rs t').
  pose proof (inspected_alike payload payload' schema after V env double answers mo kf rs D) as A. apply alike_end in A as [A1 A2]. fold t t' in A1, A2.
  split; [exact A1|]. split; [exact A2|]. split; [now apply C105_exactly|]. apply C105_exactly; auto.
  - unfold own_names in *. unfold t'. now rewrite (same_envelope payload payload' schema after V).
  - unfold t'. now rewrite (same_height payload payload' schema after V).
Qed.
Print Assumptions C105_hidden_partial.

(** ** Examples *)
(** An object with another and a list with a third. *)
Definition owned (words : string) : tree := obj "o" [obj "p" [leaf (AInt 1); str words]; obj "l" [obj "p" [leaf (AInt 27); str words]]].
Definition said_of (payload : tree) : heard string := inspected_aloud PropOutputWriter.here (fun _ => "?") (fun _ _ _ => silent Wild) true true [RPublicKey] (ex_blob payload).
Example C105_ex : said_of (owned "yes") = (PropOutputWriter.lines
  [ "[proton_wrapper.cxx::299] YEP! it's a list";
    "[CompositeReader.cxx::46] Read Composite: "; "[proton_wrapper.cxx::299] YEP! it's a list";
    "[CompositeReader.cxx::74] p true";
    "[CompositeReader.cxx::46] Read Composite: "; "[proton_wrapper.cxx::299] YEP! it's a list";
    "[CompositeReader.cxx::74] x true";
    "[IntPropertyReader.cxx::37] IntPropertyReader::dump - x"; "[IntPropertyReader.cxx::39] FUCK 1"; "[IntPropertyReader.cxx::43]     -> 1";
    "[CompositeReader.cxx::74] s true"; "[StringPropertyReader.cxx::36] StringPropertyReader::dump - s"; "STRING";
    "[CompositeReader.cxx::74] l true"; "STRING";
    "[CompositeReader.cxx::46] Read Composite: "; "[proton_wrapper.cxx::299] YEP! it's a list";
    "[CompositeReader.cxx::74] x true";
    "[IntPropertyReader.cxx::37] IntPropertyReader::dump - x"; "[IntPropertyReader.cxx::39] FUCK 1"; "[IntPropertyReader.cxx::43]     -> 27";
    "[CompositeReader.cxx::74] s true"; "[StringPropertyReader.cxx::36] StringPropertyReader::dump - s"; "STRING" ],
  Gives "{ Parsed : { p : { x : 1, s : ""yes"" }, l : [ { x : 27, s : ""yes"" } ] } }").
Proof. vm_compute. reflexivity. Qed.
(** A map has no lines of its own but these; an exception comes after what has been written. *)
Definition a_map (n fp : string) : tree :=
  container_tree {| wr_name := n; wr_label := None; wr_provides := []; wr_source := "map"; wr_fingerprint := fp; wr_choices := [] |}.
Example C105_ex_map :
  inspected_aloud PropOutputWriter.here (fun _ => "?") (fun _ _ _ => silent Wild) true true []
    (blob (obj "c" [Node ADescribed [leaf (ASymbol "m"); Node AMap [str "k"; leaf (AInt 3); str "j"; str "no"]]; leaf ANull])
       [a_map "java.util.Map<string, int>" "m"; a_cls "net.C" "c" [a_prop "m" "java.util.Map<string, int>"; a_prop "s" "string"]] [leaf ANull]) =
  (PropOutputWriter.lines
  [ "[proton_wrapper.cxx::299] YEP! it's a list"; "[CompositeReader.cxx::46] Read Composite: "; "[proton_wrapper.cxx::299] YEP! it's a list";
    "[CompositeReader.cxx::74] m true"; "[MapReader.cxx::78] MapReader::dump m"; "STRING"; "[MapReader.cxx::44]   4";
    "[StringPropertyReader.cxx::50] StringPropertyReader::dump - no-name"; "STRING"; "[IntPropertyReader.cxx::63] IntPropertyReader::dump - no-name";
    "[StringPropertyReader.cxx::50] StringPropertyReader::dump - no-name"; "STRING"; "[IntPropertyReader.cxx::63] IntPropertyReader::dump - no-name";
    "[CompositeReader.cxx::74] s true"; "[StringPropertyReader.cxx::36] StringPropertyReader::dump - s"; "STRING" ], Raises RuntimeError).
Proof. vm_compute. reflexivity. Qed.
(** The conditions of C105_silent_refuted hold of the integer in the list. *)
(** A public key: its bytes are not written. *)
Example C105_ex_key :
  key_aloud PropOutputWriter.here (Some "owner") (Some (Node ADescribed [leaf (ASymbol "net.corda:java.security.PublicKey"); leaf (ABinary "secret")])) =
  (PropOutputWriter.lines ["[PublicKeySerialiser.cxx::64] dump"], Gives "<<<Public Key>>>").
Proof. vm_compute. reflexivity. Qed.
Example C105_ex_integer : exists e n body, own_names [RPublicKey] (ex_blob (owned "yes")) = true /\ envelope_of (ex_blob (owned "yes")) = Gives e /\ payload_type e = Some n /\
  part 1 (ex_blob (owned "yes")) = Some body /\ part 0 body = Some (owned "yes") /\
  integer_in (List.concat (s_types (e_schema e))) (map reader_type [RPublicKey]) (n_name n) (owned "yes") 27.
Proof.
  do 3 eexists. split; [vm_compute; reflexivity|]. split; [vm_compute; reflexivity|]. split; [vm_compute; reflexivity|]. split; [reflexivity|]. split; [reflexivity|].
  eapply integer_deeper with (k := 1); [repeat split; vm_compute; reflexivity|reflexivity|vm_compute; reflexivity|reflexivity|reflexivity|reflexivity|].
  eapply integer_listed; [split; [vm_compute; reflexivity|]; split; [vm_compute; reflexivity|]; eexists; split; [vm_compute; reflexivity|]; split; [left; reflexivity|reflexivity]|reflexivity|reflexivity|left; reflexivity|].
  eapply integer_here with (k := 0); [repeat split; vm_compute; reflexivity|reflexivity|vm_compute; reflexivity|reflexivity|reflexivity|reflexivity|reflexivity].
Qed.
(** And these differ in nothing but texts. *)
Example C105_ex_hidden : veiled (owned "yes") (owned "no") /\ owned "yes" <> owned "no" /\ fst (said_of (owned "yes")) = fst (said_of (owned "no")) /\
  discreet (fun _ _ _ => silent Wild) /\ (forall custom, answers_aloud [RPublicKey] custom (fun _ _ _ => silent Wild)) /\
  exists cf, run true (map Install [RPublicKey]) new_factory cf.
Proof.
  assert (P : forall z a b, veiled (obj "p" [leaf (AInt z); str a]) (obj "p" [leaf (AInt z); str b])).
  { intros z a b. apply veiled_described. constructor; [|constructor]. apply veiled_plain; [discriminate|reflexivity|]. constructor; [apply veiled_same|]. constructor; [|constructor].
    apply veiled_plain; [discriminate|exact I|constructor]. }
  split; [|split; [discriminate|split; [vm_compute; reflexivity|split; [|split]]]].
  - apply veiled_described. constructor; [|constructor]. apply veiled_plain; [discriminate|reflexivity|]. constructor; [apply P|]. constructor; [|constructor].
    apply veiled_described. constructor; [|constructor]. apply veiled_plain; [discriminate|reflexivity|]. constructor; [apply P|constructor].
  - now split.
  - intros custom ty which [X|[]]. discriminate.
  - eexists. eapply run_cons; [split; [exact I|reflexivity]|left; reflexivity|]. apply run_nil.
Qed.
