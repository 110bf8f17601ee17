From Verif Require Import Base Proton ProtonProofs Descriptors SpecDescriptors Writer SpecWriter WriterProofs Script SpecScript.
Import List ListNotations.
Open Scope string_scope.

Scheme obj_rec_ := Induction for obj Sort Prop
  with acts_rec_ := Induction for acts Sort Prop
  with objs_rec_ := Induction for objs Sort Prop
  with pairs_rec_ := Induction for pairs Sort Prop.
Combined Scheme script_ind from obj_rec_, acts_rec_, objs_rec_, pairs_rec_.

Definition ends {A} (e : option exn) (a : A) (w : writer) : outcome writer A :=
  match e with None => Ok a w | Some e => Throw e w end.

(** What a property write is, given what the value does. *)
Definition exec_property (id : key) (pn ty : string) (v : obj) : WM unit :=
  match v with
  | OPrim p => writePrimitive (prim_atom p) (type_of p) false pn id
  | OPrimPtr t p => log_pointer t p ;; writePrimitive (prim_ptr_atom p) t true pn id
  | OObject _ _ _ => writeComposite pn ty id ;; exec v
  | OVector _ _ _ | OMap _ _ _ => writeRestricted pn ty id ;; exec v
  | OPointer o => writeComposite pn ty id ;; exec o
  | ONull => writeComposite pn ty id ;; writeNull pn ty id
  end.

Lemma bind_ok {S A B} (m : S -> outcome S A) (k : A -> S -> outcome S B) s b s' :
  bind m k s = Ok b s' -> exists a s1, m s = Ok a s1 /\ k a s1 = Ok b s'.
Proof. unfold bind. destruct (m s) as [a s1| | | |]; try discriminate. eauto. Qed.

Lemma bind_run {S A B} (m : S -> outcome S A) (k : A -> S -> outcome S B) s a s1 : m s = Ok a s1 -> bind m k s = k a s1.
Proof. unfold bind. now intros ->. Qed.

Lemma bind_thrown {S A B} (m : S -> outcome S A) (k : A -> S -> outcome S B) s e s1 : m s = Throw e s1 -> bind m k s = Throw e s1.
Proof. unfold bind. now intros ->. Qed.

Lemma finally_ok {S A} (m : S -> outcome S A) d s a s' : finally m d s = Ok a s' -> exists s1, m s = Ok a s1 /\ s' = d s1.
Proof. unfold finally. destruct (m s) as [x s1| | | |]; try discriminate. intros E. injection E as -> <-. eauto. Qed.

Lemma finally_ends {A} (m : WM A) d s e a s1 : m s = ends e a s1 -> finally m d s = ends e a (d s1).
Proof. unfold finally. intros ->. destruct e; reflexivity. Qed.

Lemma each_app {A} (f : A -> WM unit) l l' w : each f (l ++ l')%list w = (each f l ;; each f l') w.
Proof.
  revert w. induction l as [|a l IH]; intros w; [reflexivity|]. cbn [app each]. unfold bind.
  destruct (f a w) as [[] w1| | | |]; try reflexivity. exact (IH w1).
Qed.

Lemma cut_target : forall v, match v with OPointer _ | ONull => True | _ =>
  match fst (cut v) with IPointer _ => False | _ => True end end.
Proof. intros []; exact I. Qed.

Lemma script_run :
  (forall o, calm_keys o ->
     (forall w w', serialise (fst (cut o)) w = Ok tt w' -> exec o w = ends (snd (cut o)) tt w') /\
     (forall id pn ty w w', write_property id (pn, (ty, fst (cut o))) w = Ok tt w' -> exec_property id pn ty o w = ends (snd (cut o)) tt w')) /\
  (forall a, calm_acts a -> forall id w w', each (write_property id) (fst (cut_acts a)) w = Ok tt w' -> exec_acts id a w = ends (snd (cut_acts a)) tt w') /\
  (forall es, calm_objs es -> forall w w', each serialise (fst (cut_objs es)) w = Ok tt w' -> exec_objs es w = ends (snd (cut_objs es)) tt w') /\
  (forall kvs, calm_pairs kvs -> forall w w', each (fun kv => serialise (fst kv) ;; serialise (snd kv)) (fst (cut_pairs kvs)) w = Ok tt w' ->
     exec_pairs kvs w = ends (snd (cut_pairs kvs)) tt w').
Proof.
  apply script_ind.
  - intros v _. split; cbn; intros; assumption.
  - intros t v _. split; cbn; intros; assumption.
  - intros n fp body IH C. cbn [calm_keys] in C. specialize (IH C).
    assert (X : forall w w', serialise (fst (cut (OObject n fp body))) w = Ok tt w' -> exec (OObject n fp body) w = ends (snd (cut (OObject n fp body))) tt w').
    { intros w w' E. cbn [cut fst snd exec] in *. rewrite serialise_object in E.
      apply bind_ok in E as (u & w1 & E1 & E). rewrite (bind_run _ _ _ _ _ E1).
      apply finally_ok in E as (w2 & E2 & ->). apply finally_ends. exact (IH _ _ _ E2). }
    split; [exact X|]. intros id pn ty w w' E. cbn [cut fst write_property exec_property] in *.
    apply bind_ok in E as (u & w1 & E1 & E). rewrite (bind_run _ _ _ _ _ E1). apply X. exact E.
  - intros n fp es IH C. cbn [calm_keys] in C. specialize (IH C).
    assert (X : forall w w', serialise (fst (cut (OVector n fp es))) w = Ok tt w' -> exec (OVector n fp es) w = ends (snd (cut (OVector n fp es))) tt w').
    { intros w w' E. cbn [cut fst snd exec] in *. rewrite serialise_vector in E.
      apply bind_ok in E as (u & w1 & E1 & E). rewrite (bind_run _ _ _ _ _ E1).
      apply finally_ok in E as (w2 & E2 & ->). apply finally_ends. exact (IH _ _ E2). }
    split; [exact X|]. intros id pn ty w w' E. cbn [cut fst write_property exec_property] in *.
    apply bind_ok in E as (u & w1 & E1 & E). rewrite (bind_run _ _ _ _ _ E1). apply X. exact E.
  - intros n fp kvs IH C. cbn [calm_keys] in C. specialize (IH C).
    assert (X : forall w w', serialise (fst (cut (OMap n fp kvs))) w = Ok tt w' -> exec (OMap n fp kvs) w = ends (snd (cut (OMap n fp kvs))) tt w').
    { intros w w' E. cbn [cut fst snd exec] in *. rewrite serialise_map in E.
      apply bind_ok in E as (u & w1 & E1 & E). rewrite (bind_run _ _ _ _ _ E1).
      apply finally_ok in E as (w2 & E2 & ->). apply finally_ends. exact (IH _ _ E2). }
    split; [exact X|]. intros id pn ty w w' E. cbn [cut fst write_property exec_property] in *.
    apply bind_ok in E as (u & w1 & E1 & E). rewrite (bind_run _ _ _ _ _ E1). apply X. exact E.
  - intros o IH C. cbn [calm_keys] in C. destruct (IH C) as [IH1 _]. split.
    + intros w w' E. cbn in E. discriminate.
    + intros id pn ty w w' E. cbn [cut fst snd write_property exec_property] in *.
      apply bind_ok in E as (u & w1 & E1 & E). rewrite (bind_run _ _ _ _ _ E1). apply IH1. exact E.
  - intros _. split; [intros w w' E; cbn in E; discriminate|]. intros id pn ty w w' E. exact E.
  - intros _ id w w' E. exact E.
  - intros pn ty v IHv rest IHr [Cv Cr] id w w' E. destruct (IHv Cv) as [_ IHp]. specialize (IHr Cr).
    change (exec_acts id (AWrite pn ty v rest)) with (exec_property id pn ty v ;; exec_acts id rest).
    cbn [cut_acts] in *. destruct (snd (cut v)) as [e|] eqn:Ee; cbn [fst snd each] in *.
    + apply bind_ok in E as ([] & w1 & E1 & E). cbn in E. injection E as <-.
      apply bind_thrown. specialize (IHp _ _ _ _ _ E1). exact IHp.
    + apply bind_ok in E as ([] & w1 & E1 & E). specialize (IHp _ _ _ _ _ E1). cbn in IHp.
      rewrite (bind_run _ _ _ _ _ IHp). exact (IHr _ _ _ E).
  - intros e _ id w w' E. cbn in *. injection E as <-. reflexivity.
  - intros b IHb rest IHr [Cb Cr] id w w' E. cbn [cut_acts fst snd] in *. rewrite each_app in E.
    apply bind_ok in E as ([] & w1 & E1 & E). specialize (IHb Cb _ _ _ E1).
    cbn [exec_acts]. assert (Es : swallow (exec_acts id b) w = Ok tt w1) by (unfold swallow; rewrite IHb; destruct (snd (cut_acts b)); reflexivity).
    rewrite (bind_run _ _ _ _ _ Es). exact (IHr Cr _ _ _ E).
  - intros _ w w' E. exact E.
  - intros o IHo es IHe [Co Ce] w w' E. destruct (IHo Co) as [IH _]. specialize (IHe Ce).
    cbn [cut_objs exec_objs] in *. destruct (snd (cut o)) as [e|] eqn:Ee; cbn [fst snd each] in *.
    + apply bind_ok in E as ([] & w1 & E1 & E). cbn in E. injection E as <-. apply bind_thrown. exact (IH _ _ E1).
    + apply bind_ok in E as ([] & w1 & E1 & E). specialize (IH _ _ E1). cbn in IH.
      rewrite (bind_run _ _ _ _ _ IH). exact (IHe _ _ E).
  - intros _ w w' E. exact E.
  - intros k IHk v IHv kvs IH (Ek & Ck & Cv & Cs) w w' E. destruct (IHk Ck) as [IHk1 _]. destruct (IHv Cv) as [IHv1 _]. specialize (IH Cs).
    cbn [cut_pairs exec_pairs] in *. rewrite Ek in IHk1. destruct (snd (cut v)) as [e|] eqn:Ee; cbn [fst snd each] in *.
    + apply bind_ok in E as ([] & w1 & E1 & E). cbn in E. injection E as <-.
      apply bind_ok in E1 as ([] & w2 & E1 & E2). specialize (IHk1 _ _ E1). cbn in IHk1. rewrite (bind_run _ _ _ _ _ IHk1).
      apply bind_thrown. exact (IHv1 _ _ E2).
    + apply bind_ok in E as ([] & w1 & E1 & E).
      apply bind_ok in E1 as ([] & w2 & E1 & E2). specialize (IHk1 _ _ E1). cbn in IHk1. rewrite (bind_run _ _ _ _ _ IHk1).
      specialize (IHv1 _ _ E2). cbn in IHv1. rewrite (bind_run _ _ _ _ _ IHv1). exact (IH _ _ E).
Qed.

Lemma exec_cut : forall o w w', calm_keys o -> serialise (fst (cut o)) w = Ok tt w' -> exec o w = ends (snd (cut o)) tt w'.
Proof. intros o w w' C. apply (proj1 script_run o C). Qed.

Lemma exec_blob_cut : forall o w blob w', calm_keys o -> serialise_blob (fst (cut o)) w = Ok blob w' -> exec_blob o w = ends (snd (cut o)) blob w'.
Proof.
  intros o w blob w' C E. unfold serialise_blob, exec_blob in *. apply bind_ok in E as ([] & w1 & E1 & E).
  pose proof (exec_cut o _ _ C E1) as X. destruct (snd (cut o)); cbn in X |- *.
  - rewrite (bind_thrown _ _ _ _ _ X). unfold toBlob in E. injection E as _ <-. reflexivity.
  - rewrite (bind_run _ _ _ _ _ X). exact E.
Qed.

(** ** Objects that do not throw *)

Lemma calm_of_item : forall i, calm_keys (of_item i) /\ cut (of_item i) = (i, None).
Proof.
  induction i using item_induction; cbn [of_item].
  - split; reflexivity.
  - split; reflexivity.
  - match goal with |- context [OObject n fp (?f ps)] => set (go := f) end.
    assert (X : calm_acts (go ps) /\ cut_acts (go ps) = (ps, None)).
    { induction H as [|[pn [ty v]] l [Hc He] Hl IH]; [split; reflexivity|].
      cbn [snd] in Hc, He. destruct IH as [IH1 IH2].
      change (go ((pn, (ty, v)) :: l)) with (AWrite pn ty (of_item v) (go l)).
      cbn [calm_acts cut_acts]. rewrite He, IH2. auto. }
    destruct X as [X1 X2]. cbn [calm_keys cut]. rewrite X2. auto.
  - match goal with |- context [OVector n fp (?f es)] => set (go := f) end.
    assert (X : calm_objs (go es) /\ cut_objs (go es) = (es, None)).
    { induction H as [|e l [Hc He] Hl IH]; [split; reflexivity|]. destruct IH as [IH1 IH2].
      change (go (e :: l)) with (ECons (of_item e) (go l)). cbn [calm_objs cut_objs]. rewrite He, IH2. auto. }
    destruct X as [X1 X2]. cbn [calm_keys cut]. rewrite X2. auto.
  - match goal with |- context [OMap n fp (?f kvs)] => set (go := f) end.
    assert (X : calm_pairs (go kvs) /\ cut_pairs (go kvs) = (kvs, None)).
    { induction H as [|[k v] l [[Hkc Hke] [Hvc Hve]] Hl IH]; [split; reflexivity|]. cbn [fst snd] in *. destruct IH as [IH1 IH2].
      change (go ((k, v) :: l)) with (MCons (of_item k) (of_item v) (go l)). cbn [calm_pairs cut_pairs]. rewrite Hve, Hke, IH2. auto. }
    destruct X as [X1 X2]. cbn [calm_keys cut]. rewrite X2. auto.
  - split; reflexivity.
  - destruct IHi as [H1 H2]. cbn [calm_keys cut]. rewrite H2. auto.
Qed.

Lemma bind_ext {S A B} (m m' : S -> outcome S A) (k k' : A -> S -> outcome S B) s :
  m s = m' s -> (forall a s1, k a s1 = k' a s1) -> bind m k s = bind m' k' s.
Proof. unfold bind. intros -> E. destruct (m' s); auto. Qed.

Lemma finally_ext {S A} (m m' : S -> outcome S A) d s : m s = m' s -> finally m d s = finally m' d s.
Proof. unfold finally. now intros ->. Qed.

Lemma exec_of_item : forall i,
  (forall w, exec (of_item i) w = serialise i w) /\
  (forall id pn ty w, exec_property id pn ty (of_item i) w = write_property id (pn, (ty, i)) w).
Proof.
  induction i using item_induction; cbn [of_item].
  - split; reflexivity.
  - split; reflexivity.
  - match goal with |- context [OObject n fp (?f ps)] => set (go := f) end.
    assert (X : forall w id, exec_acts id (go ps) w = each (write_property id) ps w).
    { induction H as [|[pn [ty v]] l [_ He] Hl IH]; [reflexivity|]. intros w id. cbn [snd] in He.
      change (exec_acts id (go ((pn, (ty, v)) :: l))) with (exec_property id pn ty (of_item v) ;; exec_acts id (go l)).
      cbn [each]. apply bind_ext; auto. }
    assert (Y : forall w, exec (OObject n fp (go ps)) w = serialise (IObject n fp ps) w).
    { intros w. rewrite serialise_object. cbn [exec]. apply bind_ext; [reflexivity|]. intros _ w1. apply finally_ext. auto. }
    split; [exact Y|]. intros id pn ty w. cbn [exec_property write_property]. apply bind_ext; [reflexivity|auto].
  - match goal with |- context [OVector n fp (?f es)] => set (go := f) end.
    assert (X : forall w, exec_objs (go es) w = each serialise es w).
    { induction H as [|e l [He _] Hl IH]; [reflexivity|]. intros w.
      change (exec_objs (go (e :: l))) with (exec (of_item e) ;; exec_objs (go l)). cbn [each]. apply bind_ext; auto. }
    assert (Y : forall w, exec (OVector n fp (go es)) w = serialise (IVector n fp es) w).
    { intros w. rewrite serialise_vector. cbn [exec]. apply bind_ext; [reflexivity|]. intros _ w1. apply finally_ext. auto. }
    split; [exact Y|]. intros id pn ty w. cbn [exec_property write_property]. apply bind_ext; [reflexivity|auto].
  - match goal with |- context [OMap n fp (?f kvs)] => set (go := f) end.
    assert (X : forall w, exec_pairs (go kvs) w = each (fun kv => serialise (fst kv) ;; serialise (snd kv)) kvs w).
    { induction H as [|[k v] l [[Hk _] [Hv _]] Hl IH]; [reflexivity|]. intros w. cbn [fst snd] in Hk, Hv.
      change (exec_pairs (go ((k, v) :: l))) with (exec (of_item k) ;; exec (of_item v) ;; exec_pairs (go l)).
      cbn [each fst snd]. unfold bind. rewrite Hk. destruct (serialise k w) as [[] w1| | | |]; auto. rewrite Hv.
      destruct (serialise v w1) as [[] w2| | | |]; auto. }
    assert (Y : forall w, exec (OMap n fp (go kvs)) w = serialise (IMap n fp kvs) w).
    { intros w. rewrite serialise_map. cbn [exec]. apply bind_ext; [reflexivity|]. intros _ w1. apply finally_ext. auto. }
    split; [exact Y|]. intros id pn ty w. cbn [exec_property write_property]. apply bind_ext; [reflexivity|auto].
  - split; reflexivity.
  - destruct IHi as [IH1 _]. split; [reflexivity|]. intros id pn ty w. cbn [exec_property write_property].
    apply bind_ext; [reflexivity|auto].
Qed.

Lemma exec_blob_of_item : forall i w, exec_blob (of_item i) w = serialise_blob i w.
Proof. intros i w. unfold exec_blob, serialise_blob. apply bind_ext; [apply exec_of_item|reflexivity]. Qed.

Lemma cut_of_item : forall i, cut (of_item i) = (i, None).
Proof. intros i. apply calm_of_item. Qed.

Lemma exception_result : forall o, calm_keys o ->
  well_formed (fst (cut o)) -> is_pointer (fst (cut o)) = false -> no_clash (fst (cut o)) ->
  exists blob w, serialise_blob (fst (cut o)) new_writer = Ok blob w /\
    exec_blob o new_writer = match snd (cut o) with None => Ok blob w | Some e => Throw e w end.
Proof.
  intros o C W P N. destruct (serialise_correct (fst (cut o)) W P N) as (w & ts & E & _).
  exists (decoded (envelope_tree (wire (fst (cut o))) [ts] [leaf ANull])), w. split; [exact E|]. exact (exec_blob_cut o _ _ _ C E).
Qed.

(** ** Whatever is thrown, objects are closed *)

Lemma siblings_at l t r : siblings (At l t r) = (rev l ++ t :: r)%list.
Proof. cbn. apply rev_append_rev. Qed.

Lemma put_added t d : at_end d -> added d (pn_put_tree t d) [t] /\ exists l, here (pn_put_tree t d) = At l t [].
Proof.
  unfold at_end, added, pn_put_tree. destruct d as [[cs|l c r] u]; cbn [here ups]; intros ->; cbn [List.tl].
  - split; [|eexists; reflexivity]. repeat split.
  - split; [|eexists; reflexivity]. rewrite !siblings_at. cbn [rev]. rewrite <- app_assoc. repeat split.
Qed.

Lemma added_trans d1 d2 d3 a b : added d1 d2 a -> added d2 d3 b -> added d1 d3 (a ++ b)%list.
Proof.
  intros (S1 & U1 & _) (S2 & U2 & A2). split; [|split; [congruence|exact A2]]. rewrite S2, S1. symmetry. apply app_assoc.
Qed.

Lemma added_refl d : at_end d -> added d d [].
Proof. intros H. split; [symmetry; apply app_nil_r|]. split; [reflexivity|exact H]. Qed.

(** [m] adds something, [one] value exactly if asked for. *)
Definition adds (one : bool) (m : WM unit) : Prop :=
  forall w, at_end (m_payload w) ->
    match m w with
    | Ok _ w' | Throw _ w' => exists ts, added (m_payload w) (m_payload w') ts /\ (one = true -> exists t, ts = [t])
    | Abort | UB => True
    | Fuel => False
    end.

Lemma adds_weaken m : adds true m -> adds false m.
Proof.
  intros H w E. specialize (H w E). destruct (m w); auto; destruct H as (ts & H & _); exists ts; (split; [exact H|discriminate]).
Qed.

Lemma adds_nothing m : (forall w, match m w with Ok _ w' | Throw _ w' => m_payload w' = m_payload w | Abort | UB => True | Fuel => False end) -> adds false m.
Proof.
  intros H w E. specialize (H w). destruct (m w); auto; exists []; (split; [rewrite H; apply added_refl; exact E|discriminate]).
Qed.

Lemma adds_bind m1 m2 : adds false m1 -> adds false m2 -> adds false (m1 ;; m2).
Proof.
  intros H1 H2 w E. specialize (H1 w E). unfold bind. destruct (m1 w) as [[] w1|e w1| | |]; auto.
  destruct H1 as (ts & A1 & _). pose proof A1 as (_ & _ & E1). specialize (H2 w1 E1).
  destruct (m2 w1) as [? w2|? w2| | |]; auto; destruct H2 as (ts2 & A2 & _); exists (ts ++ ts2)%list; (split; [eapply added_trans; eauto|discriminate]).
Qed.

Lemma adds_swallow m : adds false m -> adds false (swallow m).
Proof. intros H w E. specialize (H w E). unfold swallow. destruct (m w); auto. Qed.

Lemma adds_put a : adds true (put a).
Proof.
  intros w E. cbn. unfold pn_put. destruct (put_added (Node a []) (m_payload w) E) as [A _].
  exists [Node a []]. split; [exact A|]. intros _. eexists. reflexivity.
Qed.

Lemma add_field_payload parent name f w :
  match add_field parent name f w with Ok _ w' | Throw _ w' => m_payload w' = m_payload w | Abort | UB => True | Fuel => False end.
Proof.
  unfold add_field. destruct (m_find kcmp parent (m_schemas w)) as [[fields|]|]; [|reflexivity|exact I].
  destruct (m_find scmp name fields); reflexivity.
Qed.

Lemma adds_field parent name f : adds false (add_field parent name f).
Proof. apply adds_nothing. apply add_field_payload. Qed.

Lemma adds_log t v : adds false (log_pointer t v).
Proof.
  apply adds_nothing. intros w. destruct t; cbn; try reflexivity. destruct v as [[]|]; try exact I. destruct z; try exact I. reflexivity.
Qed.

(** Opening a described list or map, a body, closing. *)
Lemma opened_closed (open_ : WM unit) (body : WM unit) a fp :
  (forall w, open_ w = Ok tt (Writer (pn_enter (pn_put a (pn_put (ASymbol fp) (pn_enter (pn_put ADescribed (m_payload w)))))) (m_schemas (match open_ w with Ok _ w' => w' | _ => w end)))) ->
  adds false body -> adds true (open_ ;; finally body ended).
Proof.
  intros HO HB w E. unfold bind. rewrite HO. cbv beta iota. set (ms := m_schemas _). clearbody ms. clear HO.
  set (d := pn_enter (pn_put a (pn_put (ASymbol fp) (pn_enter (pn_put ADescribed (m_payload w)))))).
  destruct (put_added (Node ADescribed []) (m_payload w) E) as [(S1 & U1 & _) (l & H1)].
  assert (Hd' : d = Data (Before []) (Frame [Node (ASymbol fp) []] a [] :: Frame l ADescribed [] :: ups (m_payload w))).
  { unfold d. unfold pn_put at 3. destruct (pn_put_tree (Node ADescribed []) (m_payload w)) as [h u] eqn:Ed.
    cbn [here ups] in H1, U1. subst h u. reflexivity. }
  clearbody d. subst d.
  specialize (HB (Writer (Data (Before []) (Frame [Node (ASymbol fp) []] a [] :: Frame l ADescribed [] :: ups (m_payload w))) ms) eq_refl).
  unfold finally. destruct (body _) as [? w'|? w'| | |]; auto.
  all: destruct HB as (ts & (S2 & U2 & _) & _); cbn [m_payload here ups] in S2, U2;
    exists [Node ADescribed [Node (ASymbol fp) []; Node a ts]]; split; [|intros _; eexists; reflexivity].
  all: cbn [ended m_payload]; destruct (m_payload w') as [h u]; cbn [here ups] in S2, U2; subst u; unfold pn_exit; cbn [here ups]; rewrite S2.
  all: unfold added; cbn [here ups at_end]; split; [|split; reflexivity].
  all: rewrite H1 in S1; rewrite siblings_at in S1 |- *; apply app_inj_tail in S1 as [S1 _]; rewrite S1; reflexivity.
Qed.

Lemma startComposite_opens id w :
  startComposite id w = Ok tt (Writer (pn_enter (pn_put AList (pn_put (ASymbol (snd id)) (pn_enter (pn_put ADescribed (m_payload w))))))
                                      (m_schemas (match startComposite id w with Ok _ w' => w' | _ => w end))).
Proof.
  unfold startComposite, bind, schema_if_absent, startSerializable, on_payload.
  destruct (m_find kcmp id (m_schemas w)); reflexivity.
Qed.
Lemma startRestricted_opens id (map_ : bool) w :
  let jt := if map_ then "map" else "list" in
  startRestricted id jt w = Ok tt (Writer (pn_enter (pn_put (if map_ then AMap else AList) (pn_put (ASymbol (snd id)) (pn_enter (pn_put ADescribed (m_payload w))))))
                                      (m_schemas (match startRestricted id jt w with Ok _ w' => w' | _ => w end))).
Proof.
  unfold startRestricted, bind, schema_if_absent, startSerializable, on_payload, put, on_payload.
  destruct (m_find kcmp id (m_schemas w)); destruct map_; reflexivity.
Qed.

Lemma script_adds :
  (forall o, adds true (exec o) /\ forall id pn ty, adds false (exec_property id pn ty o)) /\
  (forall a, forall id, adds false (exec_acts id a)) /\
  (forall es, adds false (exec_objs es)) /\
  (forall kvs, adds false (exec_pairs kvs)).
Proof.
  apply script_ind.
  - intros v. split; [apply adds_put|]. intros id pn ty. apply adds_bind; [apply adds_field|apply adds_weaken, adds_put].
  - intros t v. split.
    + intros w E. cbn [exec]. unfold bind. pose proof (adds_put (prim_ptr_atom v) w E) as H.
      assert (L : log_pointer t v w = Ok tt w \/ log_pointer t v w = UB).
      { destruct t; cbn; auto. destruct v as [[]|]; cbn; auto. destruct z; cbn; auto. }
      destruct L as [-> | ->]; [exact H|exact I].
    + intros id pn ty. apply adds_bind; [apply adds_log|]. apply adds_bind; [apply adds_field|apply adds_weaken, adds_put].
  - intros n fp body IH.
    assert (X : adds true (exec (OObject n fp body))) by (apply (opened_closed _ _ AList fp); [apply (startComposite_opens (n, fp))|apply IH]).
    split; [exact X|]. intros id pn ty. apply adds_bind; [apply adds_field|apply adds_weaken, X].
  - intros n fp es IH.
    assert (X : adds true (exec (OVector n fp es))) by (apply (opened_closed _ _ AList fp); [apply (startRestricted_opens (n, fp) false)|apply IH]).
    split; [exact X|]. intros id pn ty. apply adds_bind; [apply adds_field|apply adds_weaken, X].
  - intros n fp kvs IH.
    assert (X : adds true (exec (OMap n fp kvs))) by (apply (opened_closed _ _ AMap fp); [apply (startRestricted_opens (n, fp) true)|apply IH]).
    split; [exact X|]. intros id pn ty. apply adds_bind; [apply adds_field|apply adds_weaken, X].
  - intros o [IH _]. split; [intros w E; exact I|]. intros id pn ty. apply adds_bind; [apply adds_field|apply adds_weaken, IH].
  - split; [intros w E; exact I|]. intros id pn ty. apply adds_bind; [apply adds_field|]. apply adds_bind; [apply adds_field|apply adds_weaken, adds_put].
  - intros id. apply adds_nothing. reflexivity.
  - intros pn ty v [_ IHv] rest IHr id. change (exec_acts id (AWrite pn ty v rest)) with (exec_property id pn ty v ;; exec_acts id rest).
    apply adds_bind; auto.
  - intros e id. apply adds_nothing. reflexivity.
  - intros b IHb rest IHr id. cbn [exec_acts]. apply adds_bind; [apply adds_swallow|]; auto.
  - apply adds_nothing. reflexivity.
  - intros o [IHo _] es IHe. cbn [exec_objs]. apply adds_bind; [apply adds_weaken|]; auto.
  - apply adds_nothing. reflexivity.
  - intros k [IHk _] v [IHv _] kvs IH. cbn [exec_pairs]. apply adds_bind; [apply adds_weaken, IHk|]. apply adds_bind; [apply adds_weaken, IHv|exact IH].
Qed.

Lemma always_closed : forall o w, at_end (m_payload w) ->
  match exec o w with
  | Ok _ w' | Throw _ w' => exists t, added (m_payload w) (m_payload w') [t]
  | Abort | UB => True
  | Fuel => False
  end.
Proof.
  intros o w E. pose proof (proj1 (proj1 script_adds o) w E) as H.
  destruct (exec o w); auto; destruct H as (ts & A & T); destruct (T eq_refl) as (t & ->); exists t; exact A.
Qed.
