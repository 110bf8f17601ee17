(** C96: what data-dumper writes to standard output, debug lines and all. *)
From Coq Require Import Lia.
From Verif Require Import Base Proton ProtonProofs CordaFile Descriptors SpecDescriptors Factory Readers SpecReaders Blob SpecAccept SpecSchemaDump SpecDisplay SpecRaw SpecParse SpecFate SchemaDump
  SpecFile CordaFileProofs Tools ToolsProofs Output SpecOutput OutputProofs PropRaw.
Import List ListNotations.
Open Scope string_scope.

(** Dumping the data of any blob: how it ends, and what has been written by then. *)
Theorem C96_exactly : forall blob_file wrapper_file type_name type_number double float fuel t out, height t <= fuel ->
  outputs t out (dumpData_said blob_file wrapper_file type_name type_number double float fuel (decoded t, out))
    (data_dump blob_file wrapper_file type_name type_number double float dec fuel t).
Proof. intros. now apply dumpData_keeps. Qed.
Print Assumptions C96_exactly.

(** It is [dumpData] (C47, C52, C72) with something written on the way: from any state
    of the cursor it ends in the same way, with the cursor at the same place. *)
Theorem C96_same_result : forall blob_file wrapper_file type_name type_number double float fuel d out,
  same_but_for_output (dumpData_said blob_file wrapper_file type_name type_number double float fuel (d, out)) out (dumpData double float fuel d).
Proof. intros. apply erases_dumpData. Qed.
Print Assumptions C96_same_result.

(** The tool, given a file with plain data that decodes. *)
Theorem C96_tool : forall blob_file wrapper_file type_name type_number double float decode fuel fs prog name body t,
  fs name = File (magic ++ String "000" body) -> fits (magic ++ String "000" body) -> decode body = Some t -> height t <= fuel ->
  data_dumper_said blob_file wrapper_file type_name type_number double float decode fuel fs [prog; name] =
    match data_dump blob_file wrapper_file type_name type_number double float dec fuel t with
    | (s, Gives x) => Exit 0 (s ++ x ++ newline) false
    | (s, Raises _) => Exit 1 s true
    | (_, Stops) => Aborted
    | (_, Wild) => Tools.Undefined
    end.
Proof.
  intros bf wf tn tnum fd ff decode fuel fs prog name body t Hn Hf Hd Hh. unfold data_dumper_said. rewrite Hn.
  rewrite (with_blob_fine decode _ _ body t) by (auto using lenient_good, default_good).
  pose proof (C96_exactly bf wf tn tnum fd ff fuel t "" Hh) as E. pose proof (proj2 (good_dump bf wf tn tnum fd ff fuel t)) as G. unfold outputs in E.
  destruct (data_dump bf wf tn tnum fd ff dec fuel t) as [s [x|e| |]]; cbn [fst snd] in E, G; rewrite E; try reflexivity.
  now rewrite (G e eq_refl).
Qed.
Print Assumptions C96_tool.

(** Otherwise it is the tool of Tools.v: on any arguments and files it ends in the same
    way, with the result at the end of the output. *)
Theorem C96_result_at_the_end : forall blob_file wrapper_file type_name type_number double float decode fuel fs argv,
  match data_dumper_said blob_file wrapper_file type_name type_number double float decode fuel fs argv, data_dumper decode double float fuel fs argv with
  | Exit code out said, Exit code' out' said' => code = code' /\ said = said' /\ ends out out'
  | Terminated, Terminated | Aborted, Aborted | Tools.Undefined, Tools.Undefined | Unended, Unended => True
  | _, _ => False
  end.
Proof.
  intros bf wf tn tnum fd ff decode fuel fs argv.
  assert (R : forall (c : nat) s (said : bool), c = c /\ said = said /\ ends s s) by (intros; repeat split; now exists "").
  assert (F : forall d, match finish_said (dumpData_said bf wf tn tnum fd ff fuel (d, "")), finish caught (dumpData fd ff fuel d) with
    | Exit code out said, Exit code' out' said' => code = code' /\ said = said' /\ ends out out'
    | Terminated, Terminated | Aborted, Aborted | Tools.Undefined, Tools.Undefined | Unended, Unended => True
    | _, _ => False end).
  { intros d. pose proof (C96_same_result bf wf tn tnum fd ff fuel d "") as S. unfold same_but_for_output in S.
    destruct (dumpData_said bf wf tn tnum fd ff fuel (d, "")) as [x [d1 o1]|e [d1 o1]| | |], (dumpData fd ff fuel d) as [x' d1'|e' d1'| | |]; try contradiction; cbn; auto.
    - destruct S as (-> & _ & _). repeat split. now exists o1.
    - destruct S as (-> & _ & _). destruct e'; cbn; auto. repeat split. exists o1. now rewrite append_nil. }
  unfold data_dumper_said, data_dumper. destruct argv as [|a0 [|name [|]]]; try apply R.
  destruct (fs name) as [|size|bytes]; [apply R| |];
    (unfold with_blob; destruct (open_ _ _) as [cb|e| | |]; cbn; auto; [|destruct e; cbn; auto];
     destruct (decodable cb); cbn; auto; destruct (AMQPBlob_ decode cb) as [d|e| | |]; cbn; auto; [apply F|destruct e; cbn; auto]).
Qed.
Print Assumptions C96_result_at_the_end.

(** What comes before the result is whole lines. *)
Theorem C96_result_on_its_own_line : forall blob_file wrapper_file type_name type_number double float fuel t s x,
  data_dump blob_file wrapper_file type_name type_number double float dec fuel t = (s, Gives x) -> ends s newline.
Proof.
  intros bf wf tn tnum fd ff fuel t s x E. destruct (proj1 (good_dump bf wf tn tnum fd ff fuel t)) as [H|H]; rewrite E in H; cbn [fst] in H; [|exact H].
  destruct (dump_begins _ _ _ _ _ _ _ _ _ _ E) as [r ->]. discriminate H.
Qed.
Print Assumptions C96_result_on_its_own_line.

(** But there always is something before it, so what the tool writes is never the
    result alone; *)
Theorem C96_alone_refuted : forall blob_file wrapper_file type_name type_number double float decode fuel fs prog name body t out said,
  fs name = File (magic ++ String "000" body) -> fits (magic ++ String "000" body) -> decode body = Some t -> height t <= fuel ->
  data_dumper_said blob_file wrapper_file type_name type_number double float decode fuel fs [prog; name] = Exit 0 out said ->
  begins out ("[" ++ wrapper_file ++ "::299] YEP! it's a list" ++ newline) /\
  exists x, data_dumper decode double float fuel fs [prog; name] = Exit 0 (x ++ newline) false /\ out <> x ++ newline.
Proof.
  intros bf wf tn tnum fd ff decode fuel fs prog name body t out said Hn Hf Hd Hh E.
  pose proof (C96_result_at_the_end bf wf tn tnum fd ff decode fuel fs [prog; name]) as R. rewrite E in R.
  rewrite (C96_tool bf wf tn tnum fd ff decode fuel fs prog name body t Hn Hf Hd Hh) in E.
  pose proof (C96_exactly bf wf tn tnum fd ff fuel t "" Hh) as X. pose proof (C96_same_result bf wf tn tnum fd ff fuel (decoded t) "") as S.
  destruct (data_dump bf wf tn tnum fd ff dec fuel t) as [s [x|e| |]] eqn:Ed; try discriminate. apply dump_begins in Ed as [r ->]. injection E as <- <-. split.
  - exists (r ++ x ++ newline). now rewrite append_assoc3.
  - exists x. destruct (good_file decode (fun _ => "") (fun _ _ _ => UB) true true fd ff (fun _ => "") fuel fs prog name "raw" _ _ (or_intror (or_introl eq_refl)) Hn Hf Hd) as (_ & K & _).
    unfold outputs in X. cbn [snd fst] in X. rewrite X in S. unfold same_but_for_output in S.
    destruct (dumpData fd ff fuel (decoded t)) as [x' d'|e' d'| | |]; try contradiction. destruct S as (<- & _ & _). split; [exact K|].
    intros H. exact (longer _ _ _ H).
Qed.
Print Assumptions C96_alone_refuted.

(** and a run that fails can leave text on standard output, which one that has not
    decoded a blob does not. *)
Theorem C96_failure_silent_refuted : forall blob_file wrapper_file type_name type_number double float decode fuel fs prog name body t cs,
  fs name = File (magic ++ String "000" body) -> fits (magic ++ String "000" body) -> decode body = Some t -> height t <= fuel ->
  tree_atom t = ADescribed -> keyed t -> part 1 t = Some (Node AList cs) -> (forall p, part 0 (Node AList cs) = Some p -> tree_atom p <> ADescribed) ->
  data_dumper_said blob_file wrapper_file type_name type_number double float decode fuel fs [prog; name] =
    Exit 1 ("[" ++ wrapper_file ++ "::299] YEP! it's a list" ++ newline) true.
Proof.
  intros bf wf tn tnum fd ff decode fuel fs prog name body t cs Hn Hf Hd Hh Ha (k & K1 & n & K2 & K3) P1 P0.
  rewrite (C96_tool bf wf tn tnum fd ff decode fuel fs prog name body t Hn Hf Hd Hh). destruct t as [a ts]. cbn in Ha. subst a. unfold data_dump. rewrite K1.
  destruct k as [b bs]. cbn in K2. subst b. apply N.eqb_eq in K3. rewrite K3, P1.
  assert (E : match part 0 (Node AList cs) with Some (Node ADescribed ds) => dumped bf wf tn tnum fd ff dec fuel a_described (Node ADescribed ds) | _ => silent (Raises RuntimeError) end = silent (Raises RuntimeError)).
  { destruct (part 0 (Node AList cs)) as [[[] ?]|]; try reflexivity. now destruct (P0 _ eq_refl). }
  rewrite E. unfold and_then, list_line, from, line, silent. cbn [fst snd]. rewrite append_nil. f_equal. rewrite !append_assoc3. reflexivity.
Qed.
Print Assumptions C96_failure_silent_refuted.

(** The blob of C72, and one whose payload is a number. *)
Definition said_lines (l : list string) : string := fold_right (fun x s => x ++ newline ++ s) "" l.
Definition ex_file (name : string) : file := if String.eqb name "f" then File (magic ++ String "000" "inside") else if String.eqb name "n" then File (magic ++ String "000" "number") else NoFile.
Definition ex_decode (s : string) : option tree :=
  if String.eqb s "inside" then Some (around (vendor 1) payload_inside) else if String.eqb s "number" then Some (around (vendor 1) (Node (AInt 7) [])) else None.
Definition ex_type_name (t : pn_type) : string := match t with TList => "PN_LIST" | _ => "PN_OTHER" end.
Example C96_ex : forall double float,
  let run name := data_dumper_said "AMQPBlob.cxx" "proton_wrapper.cxx" ex_type_name (fun _ => 24%Z) double float ex_decode 7 ex_file ["data-dumper"; name] in
  height (around (vendor 1) payload_inside) <= 7 /\ fits (magic ++ String "000" "inside") /\ fits (magic ++ String "000" "number") /\
  run "f" = Exit 0 (said_lines
    [ "[proton_wrapper.cxx::299] YEP! it's a list"; "[AMQPBlob.cxx::212] dumpDescribed"; "STRING"; "[AMQPBlob.cxx::217]   FINGERPRINT: fp";
      "[proton_wrapper.cxx::299] YEP! it's a list"; "[proton_wrapper.cxx::299] YEP! it's a list"; "[AMQPBlob.cxx::170] MAP IS NOT EMPTY";
      "[AMQPBlob.cxx::179]   PN_LIST 24"; "[proton_wrapper.cxx::299] YEP! it's a list"; "[AMQPBlob.cxx::188]   PN_LIST 24"; "[proton_wrapper.cxx::299] YEP! it's a list";
      "fp : [ 7, [ <<<Empty List>>> ], [ [ x, true ] : [ x, true ] ] ]" ]) false /\
  keyed (around (vendor 1) (Node (AInt 7) [])) /\
  run "n" = Exit 1 (said_lines ["[proton_wrapper.cxx::299] YEP! it's a list"]) true.
Proof.
  intros double float run. split; [vm_compute; lia|]. split; [reflexivity|]. split; [reflexivity|]. split; [vm_compute; reflexivity|]. split; [|vm_compute; reflexivity].
  exists (Node (AULong (vendor 1)) []). split; [reflexivity|]. exists (vendor 1). split; reflexivity.
Qed.
