(** Proofs for C108: the text of making the readers where a blob is inspected. *)
From Coq Require Import Lia.
From Verif Require Import Base OutputWriter SpecOutputWriter Proton SpecCursor ProtonProofs TypeNames Schema SpecSchema Descriptors SpecDescriptors Factory SpecFactory FactoryProofs
  Readers SpecReaders Blob SpecAccept SpecDisplay SpecInstalled SpecReadScript SpecParse SpecFate FateProofs FateBlobProofs Output SpecOutput OutputProofs OutputReader SpecOutputReader
  OutputShow SpecOutputShow OutputShowProofs OutputShowBlobProofs OutputParse SpecOutputParse OutputParseProofs OutputParseBlobProofs OutputMake OutputProcess SpecOutputProcess OutputProcessProofs.
Import List ListNotations.
Open Scope string_scope.

Lemma installed_keeps called mo rs : forall f b cf, keeps_book called f b -> run mo (map Install rs) f cf -> keeps_book called cf (installed_book called rs ++ b)%list.
Proof.
  induction rs as [|r rs IH]; intros f b cf K R; cbn [map] in R; inversion R; subst; [exact K|].
  destruct (install_follows {| file := fun f => f; span := fun a b => b; type_id := fun _ => ""; allocator_id := fun _ => ""; null := ""; show_double := fun _ => ""; show_float := fun _ => ""; address := fun _ => ""; left_first := false |}
    called r f b "" K) as (f' & _ & E & K').
  unfold installed_book. cbn [map rev]. rewrite <- app_assoc. cbn [List.app]. eapply IH; [|eassumption].
  match goal with S : steps _ _ _ _ |- _ => unfold steps, effect in S; rewrite E in S; destruct S as [S|[? S]]; [injection S as <-|discriminate]; exact K' end.
Qed.

Lemma text_of_making env called mo s f b : keeps_book called f b ->
  process mo s f <> UB -> process_written env called mo s f = fst (making_aloud env mo b s).
Proof.
  intros K N. pose proof (process_follows env called mo s f b "" K) as H. pose proof (erases_process env called mo s f "") as E. unfold process_written, made_aloud in *.
  destruct (snd (making_aloud env mo b s)); [destruct H as (f' & -> & _); reflexivity|destruct H as (f' & ->); reflexivity|contradiction|].
  exfalso. unfold alike in E. rewrite H in E. destruct (process mo s f); try (destruct E; discriminate); try discriminate. now apply N.
Qed.

Lemma filled_in env tn tnum moved called double custom answers mo kf rs cf t fuel before :
  run mo (map Install rs) new_factory cf -> (forall r, In r rs -> typeIsPrimitive (reader_type r) = false) ->
  (forall e, envelope_of t = Gives e -> forall n, In n (List.concat (s_types (e_schema e))) -> typeIsPrimitive (n_name n) = false) -> height t < fuel ->
  turns_out_aloud t before
    (dumpContents_aloud env tn tnum (told_by_code env moved (process_written env called mo)) double custom mo kf fuel (decoded t, cf, before))
    (inspected_all_aloud env tn tnum (told_by_code env moved (process_written env called mo)) double answers mo kf rs cf t) ->
  turns_out_aloud t before
    (dumpContents_aloud env tn tnum (told_by_code env moved (process_written env called mo)) double custom mo kf fuel (decoded t, cf, before))
    (inspected_all_aloud env tn tnum (told_by_code env moved (fun s _ => fst (making_aloud env mo (installed_book called rs) s))) double answers mo kf rs cf t).
Proof.
  intros R Hrs Hn Hh. generalize (dumpContents_aloud env tn tnum (told_by_code env moved (process_written env called mo)) double custom mo kf fuel (decoded t, cf, before)). intros o.
  unfold inspected_all_aloud. set (p := told_by_code env moved (process_written env called mo)).
  change (envelope_aloud env tn tnum (told_by_code env moved (fun s _ => fst (making_aloud env mo (installed_book called rs) s))) t) with (envelope_aloud env tn tnum p t).
  pose proof (envelope_end env tn tnum p t) as Ee. pose proof (envelope_fate fuel t ltac:(lia)) as F.
  destruct (envelope_aloud env tn tnum p t) as [s he]. cbn [fst snd] in *. subst he. destruct (envelope_of t) as [e|x| |]; try (intros H; exact H).
  destruct F as [_ Hm]. set (ts := List.concat (s_types (e_schema e))) in *.
  assert (Hp : Forall proper ts). { rewrite Forall_forall in *. intros n X. split; [auto|]. eapply Hn; eauto. }
  pose proof (process_fate mo rs cf R Hrs (e_schema e) Hp) as P. fold ts in P. unfold and_then at 1 3. cbn [fst snd process_text told_by_code p].
  destruct (prepare mo (map reader_type rs) ts) as [[]|x| |] eqn:Pr.
  4:{ unfold turns_out_aloud, and_then. cbn [fst snd]. subst ts. rewrite Pr. intros H. exact H. }
  3:{ destruct P. }
  all: pose proof (installed_keeps called mo rs new_factory [] cf (fun _ => eq_refl) R) as K; rewrite app_nil_r in K;
    rewrite (text_of_making env called mo (e_schema e) cf _ K); [intros H; exact H|].
  - destruct P as (cf' & -> & _). discriminate.
  - destruct P as (cf' & ->). discriminate.
Qed.
