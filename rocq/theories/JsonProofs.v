(** Necessary conditions for being a JSON text. *)
From Coq Require Import Lia.
From Verif Require Import Base TypeNames TypeNamesProofs SpecJson.
Import List ListNotations.
Open Scope string_scope.

Inductive state : Type := Out (depth : nat) | In_ (depth : nat) | Esc (depth : nat).
Definition mem (c : ascii) (s : string) : bool := existsb (Ascii.eqb c) (list_ascii_of_string s).
Definition control (c : ascii) : bool := Nat.ltb (nat_of_ascii c) 32.
Definition loose_chars : string := String "009" (String "010" (String "013" " :aeflnrstu0123456789+-.E")).
Definition step (st : state) (c : ascii) : option state :=
  match st with
  | Out k =>
      if mem c loose_chars then Some (Out k)
      else if Ascii.eqb c "034" then Some (In_ k)
      else if mem c "{[" then Some (Out (S k))
      else if mem c "}]" then match k with 0 => None | S k' => Some (Out k') end
      else if Ascii.eqb c "," then match k with 0 => None | S _ => Some (Out k) end
      else None
  | In_ k => if Ascii.eqb c "034" then Some (Out k) else if Ascii.eqb c "\" then Some (Esc k)
             else if control c then None else Some (In_ k)
  | Esc k => if control c then None else Some (In_ k)
  end.
Fixpoint scan (st : state) (s : string) : option state :=
  match s with
  | EmptyString => Some st
  | String c s' => match step st c with Some st' => scan st' s' | None => None end
  end.
Lemma scan_app s1 s2 : forall st, scan st (s1 ++ s2) = match scan st s1 with Some st' => scan st' s2 | None => None end.
Proof. induction s1 as [|c s1 IH]; intros st; simpl; [reflexivity|]. destruct (step st c); auto. Qed.

Lemma scan_cons st c s st' : step st c = Some st' -> scan st (String c s) = scan st' s.
Proof. intros H. simpl. now rewrite H. Qed.

Lemma mem_In c s : List.In c (list_ascii_of_string s) -> mem c s = true.
Proof. intros H. apply existsb_exists. exists c. split; [exact H|apply Ascii.eqb_refl]. Qed.

Lemma scan_loose k s : Forall (fun c => mem c loose_chars = true) (list_ascii_of_string s) -> scan (Out k) s = Some (Out k).
Proof.
  induction s as [|c s IH]; simpl; intros H; [reflexivity|]. inversion H; subst. rewrite H2. auto.
Qed.
Lemma scan_space k w : space w -> scan (Out k) w = Some (Out k).
Proof.
  intros H. apply scan_loose. eapply Forall_impl; [|exact H]. intros c [->|[->|[->| ->]]]; reflexivity.
Qed.
Lemma step_plain k c : unescaped c -> step (In_ k) c = Some (In_ k).
Proof.
  intros (H & Hq & Hb). simpl. destruct (Ascii.eqb_spec c "034"); [contradiction|]. destruct (Ascii.eqb_spec c "\"); [contradiction|].
  unfold control. destruct (Nat.ltb_spec (nat_of_ascii c) 32); [lia|reflexivity].
Qed.
Lemma scan_chars k v t : chars_text v t -> scan (In_ k) t = Some (In_ k).
Proof.
  induction 1 as [|c v t Hc _ IH|c e v t Hi _ IH|u a b c d v t Ha Hb Hc Hd _ IH].
  - reflexivity.
  - cbn [scan]. now rewrite step_plain.
  - simpl in Hi. repeat destruct Hi as [Hi|Hi]; try contradiction; injection Hi as <- <-; exact IH.
  - rewrite (scan_cons (In_ k) "\" _ (Esc k) eq_refl), (scan_cons (Esc k) "u" _ (In_ k) eq_refl).
    rewrite (scan_cons _ _ _ _ (step_plain k a Ha)), (scan_cons _ _ _ _ (step_plain k b Hb)),
      (scan_cons _ _ _ _ (step_plain k c Hc)), (scan_cons _ _ _ _ (step_plain k d Hd)). exact IH.
Qed.
Lemma scan_string k v t : string_text v t -> scan (Out k) t = Some (Out k).
Proof.
  intros (b & -> & H). cbn [scan]. change (step (Out k) "034") with (Some (In_ k)). cbn iota.
  rewrite scan_app, (scan_chars k v b H). reflexivity.
Qed.

Lemma loose_app s1 s2 : Forall (fun c => mem c loose_chars = true) (list_ascii_of_string s1) -> Forall (fun c => mem c loose_chars = true) (list_ascii_of_string s2) ->
  Forall (fun c => mem c loose_chars = true) (list_ascii_of_string (s1 ++ s2)).
Proof. induction s1 as [|c s1 IH]; simpl; intros H1 H2; [exact H2|]. inversion H1; subst. constructor; auto. Qed.
Lemma digits_loose s : digits s -> Forall (fun c => mem c loose_chars = true) (list_ascii_of_string s).
Proof.
  intros [_ H]. eapply Forall_impl; [|exact H]. intros c Hc. cbn in Hc. repeat destruct Hc as [<-|Hc]; try reflexivity; contradiction.
Qed.
Lemma number_loose s : number s -> Forall (fun c => mem c loose_chars = true) (list_ascii_of_string s).
Proof.
  intros (m & i & f & e & -> & Hm & Hi & Hf & He). repeat apply loose_app.
  - destruct Hm as [->| ->]; repeat constructor.
  - destruct Hi as [->|[Hi _]]; [repeat constructor|now apply digits_loose].
  - destruct Hf as [->|(d & -> & Hd)]; [constructor|]. constructor; [reflexivity|now apply digits_loose].
  - destruct He as [->|(c & g & d & -> & Hc & Hg & Hd)]; [constructor|]. constructor; [destruct Hc as [->| ->]; reflexivity|].
    apply loose_app; [destruct Hg as [->|[->| ->]]; repeat constructor|now apply digits_loose].
Qed.
Lemma number_not_empty : ~ number "".
Proof.
  intros (m & i & f & e & E & _ & Hi & _). destruct m; [|discriminate]. destruct i; [|discriminate].
  destruct Hi as [Hi|[[Hi _] _]]; [discriminate|congruence].
Qed.

Scheme value_ind' := Minimality for value_text Sort Prop
  with elements_ind' := Minimality for elements_text Sort Prop
  with members_ind' := Minimality for members_text Sort Prop.
Combined Scheme json_ind3 from value_ind', elements_ind', members_ind'.

Lemma scan_then st s1 st' s2 : scan st s1 = Some st' -> scan st (s1 ++ s2) = scan st' s2.
Proof. intros H. now rewrite scan_app, H. Qed.
Ltac sc := erewrite scan_then by first [eassumption | apply scan_space; assumption | eapply scan_string; eassumption
  | match goal with H : forall k, scan _ _ = _ |- _ => apply H end | reflexivity].

Lemma scan_json :
  (forall v t, value_text v t -> forall k, scan (Out k) t = Some (Out k)) /\
  (forall l t, elements_text l t -> forall k, scan (Out (S k)) t = Some (Out (S k))) /\
  (forall l t, members_text l t -> forall k, scan (Out (S k)) t = Some (Out (S k))).
Proof.
  apply json_ind3; intros; try reflexivity.
  - now apply scan_loose, number_loose.
  - eapply scan_string; eassumption.
  - sc. sc. reflexivity.
  - sc. sc. reflexivity.
  - sc. sc. reflexivity.
  - sc. sc. reflexivity.
  - sc. sc. now apply scan_space.
  - do 4 sc. auto.
  - do 6 sc. now apply scan_space.
  - do 8 sc. auto.
Qed.

Theorem json_scans v s : json_text v s -> scan (Out 0) s = Some (Out 0).
Proof.
  intros (w1 & t & w2 & -> & H1 & H & H2). pose proof (proj1 scan_json v t H). sc. sc. now apply scan_space.
Qed.
Lemma not_json st s1 s2 : scan (Out 0) s1 = Some st -> scan st s2 = None -> forall v, ~ json_text v (s1 ++ s2).
Proof. intros H1 H2 v H. apply json_scans in H. rewrite scan_app, H1, H2 in H. discriminate. Qed.
Lemma scan_stuck st s1 s2 : scan st s1 = None -> scan st (s1 ++ s2) = None.
Proof. intros H. now rewrite scan_app, H. Qed.
