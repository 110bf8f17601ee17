(** Deciding whether a program is in order (SpecPrograms.v), for examples. *)
From Coq Require Import Sorting.Sorted.
From Verif Require Import Base TypeNames SpecTypes TypeNamesProofs MakePrimProofs Schema Descriptors SpecDescriptors DescriptorsProofs Factory SpecFactory Writer SpecWriter WriterProofs SpecWriteRead WriteReadProofs
  Programs SpecPrograms.
Import List ListNotations.
Open Scope string_scope.

Definition nobox (n : string) : bool :=
  forallb (fun b => negb (hits (rx_of b) n)) (map fst boxed_table) &&
  forallb (fun c => negb (Ascii.eqb c "010"%char) && negb (Ascii.eqb c "013"%char)) (list_ascii_of_string n) &&
  negb (starts_with "avaj" (string_of_list_ascii (rev (chars n)))) &&
  negb (starts_with "gnal" (string_of_list_ascii (rev (chars n)))).
Lemma nobox_ok n : nobox n = true -> unrelated n.
Proof.
  unfold nobox. intros H. apply andb_prop in H as [H H4]. apply andb_prop in H as [H H3]. apply andb_prop in H as [H1 H2].
  apply negb_true_iff in H3, H4. apply unrelated_dec; auto. rewrite forallb_forall in H2. intros c Hc. specialize (H2 c Hc).
  apply andb_prop in H2 as [A B]. apply negb_true_iff in A, B. apply Ascii.eqb_neq in A, B. auto.
Qed.
Definition identifierb (n : string) : bool :=
  forallb (fun c => negb (Ascii.eqb c ":"%char) && negb (Ascii.eqb c "("%char)) (list_ascii_of_string n).
Lemma identifierb_ok n : identifierb n = true -> identifier n.
Proof.
  unfold identifierb. intros H. rewrite forallb_forall in H.
  split; intros Hc; specialize (H _ Hc); discriminate.
Qed.
Definition classb (c : list (option string) * string) : bool :=
  identifierb (snd c) && forallb (fun o => match o with Some n => identifierb n | None => true end) (fst c) &&
  let n := java_name (fst c) (snd c) in
  match isArray n with Ret false => true | _ => false end && negb (typeIsPrimitive n) && negb (String.eqb n "*") &&
  plainb n && nobox n && negb (String.eqb n "char").
Lemma classb_ok c : classb c = true -> class_ok c.
Proof.
  unfold classb. intros H. cbn zeta in H. repeat match goal with X : _ && _ = true |- _ => apply andb_prop in X as [? ?] end.
  repeat match goal with X : negb _ = true |- _ => apply negb_true_iff in X end.
  repeat match goal with X : String.eqb _ _ = false |- _ => apply String.eqb_neq in X end.
  split; [split; [now apply identifierb_ok|]|].
  - match goal with X : forallb _ (fst c) = true |- _ => rewrite forallb_forall in X; apply Forall_forall; intros [n|] Hn; [|exact I]; specialize (X _ Hn); now apply identifierb_ok end.
  - cbn zeta. split; [split; [|now split]|]; [destruct (isArray _) as [[]| | | |]; try discriminate; reflexivity|].
    split; [now apply plainb_spec|]. split; [now apply nobox_ok|assumption].
Qed.
Fixpoint cpp_eqb (a b : cpp) : bool :=
  match a, b with
  | Prim p, Prim q | PrimPtr p, PrimPtr q => String.eqb (m_type p) (m_type q)
  | Obj c, Obj d => (if list_eq_dec (fun x y : option string => ltac:(decide equality; apply string_dec)) (fst c) (fst d) then true else false) && String.eqb (snd c) (snd d)
  | Vector x, Vector y => cpp_eqb x y
  | Map k v, Map k' v' => cpp_eqb k k' && cpp_eqb v v'
  | Pointer x, Pointer y => cpp_eqb x y
  | _, _ => false
  end.
Lemma cpp_eqb_eq a b : cpp_eqb a b = true -> a = b.
Proof.
  revert b. induction a as [p|p|c|e IH|k IHk v IHv|t IH]; intros [q|q|d|f|k' v'|u]; try discriminate; cbn.
  - destruct p, q; try discriminate; reflexivity.
  - destruct p, q; try discriminate; reflexivity.
  - destruct (list_eq_dec _ _ _) as [E|]; [|discriminate]. intros H. apply String.eqb_eq in H. destruct c, d. cbn in *. congruence.
  - intros H. f_equal. auto.
  - intros H. apply andb_prop in H as [H1 H2]. f_equal; auto.
  - intros H. f_equal. auto.
Qed.
Definition listedb (P : program) (t : cpp) : bool := existsb (cpp_eqb t) (types_of P).
Lemma listedb_ok P t : listedb P t = true -> In t (types_of P).
Proof. unfold listedb. intros H. apply existsb_exists in H as (u & Hu & E). apply cpp_eqb_eq in E. now subst. Qed.
Definition elementb (P : program) (t : cpp) : bool := match t with Prim _ => true | PrimPtr _ | Pointer _ => false | _ => listedb P t end.
Definition propertyb (P : program) (t : cpp) : bool := match t with Prim _ | PrimPtr _ => true | Pointer t' => listedb P t' | _ => listedb P t end.
Lemma elementb_ok P t : elementb P t = true -> element_ok P t.
Proof. destruct t; cbn; auto using listedb_ok; discriminate. Qed.
Lemma propertyb_ok P t : propertyb P t = true -> property_type_ok P t.
Proof. destruct t; cbn; auto using listedb_ok. Qed.
Fixpoint ascending (l : list string) : bool :=
  match l with
  | [] => true
  | a :: l' => forallb (fun b => match scmp a b with Lt => true | _ => false end) l' && ascending l'
  end.
Lemma ascending_ok l : ascending l = true -> StronglySorted before l.
Proof.
  induction l as [|a l IH]; cbn; [constructor|]. intros H. apply andb_prop in H as [H1 H2]. constructor; [auto|].
  apply Forall_forall. rewrite forallb_forall in H1. intros b Hb. specialize (H1 b Hb). apply scmp_lt. destruct (scmp a b) eqn:E; try discriminate; exact E.
Qed.
Definition typeb (P : program) (t : cpp) : bool :=
  match t with
  | Obj c => classb c && ascending (map fst (declared P c)) && forallb (fun d => propertyb P (snd d)) (declared P c)
  | Vector e => elementb P e
  | Map k v => elementb P k && elementb P v
  | _ => false
  end.
Lemma typeb_ok P t : typeb P t = true -> type_ok P t.
Proof.
  destruct t as [p|p|c|e|k v|t]; cbn; try discriminate.
  - intros H. apply andb_prop in H as [H H3]. apply andb_prop in H as [H1 H2]. split; [now apply classb_ok|]. split; [now apply ascending_ok|].
    rewrite forallb_forall in H3. apply Forall_forall. intros d Hd. now apply propertyb_ok, H3.
  - apply elementb_ok.
  - intros H. apply andb_prop in H as [H1 H2]. split; now apply elementb_ok.
Qed.
Fixpoint distinct (l : list string) : bool := match l with [] => true | a :: l' => negb (existsb (String.eqb a) l') && distinct l' end.
Lemma distinct_ok l : distinct l = true -> NoDup l.
Proof.
  induction l as [|a l IH]; cbn; [constructor|]. intros H. apply andb_prop in H as [H1 H2]. constructor; [|auto]. intros Hin.
  apply negb_true_iff in H1. assert (existsb (String.eqb a) l = true) by (apply existsb_exists; exists a; split; [assumption|apply String.eqb_refl]). congruence.
Qed.
Definition orderlyb (P : program) : bool :=
  forallb (typeb P) (types_of P) && distinct (map java_of (types_of P)) && distinct (map (fingerprint P) (types_of P)).
Theorem orderlyb_ok P : orderlyb P = true -> in_order P.
Proof.
  unfold orderlyb. intros H. apply andb_prop in H as [H H3]. apply andb_prop in H as [H1 H2]. split; [|split; now apply distinct_ok].
  apply Forall_forall. rewrite forallb_forall in H1. intros t Ht. now apply typeb_ok, H1.
Qed.
