From Coq Require Import Lia.
From Verif Require Import Base TypeNames TypeNamesProofs Schema Readers Print SpecPrint.
Import List ListNotations.
Open Scope string_scope.

Lemma cut : forall c a b x y, lacks_char c a -> lacks_char c b ->
  a ++ String c x = b ++ String c y -> a = b /\ x = y.
Proof.
  intros c a. induction a as [|p a IH]; intros [|q b] x y Ha Hb E; cbn in *.
  - injection E as ->. auto.
  - injection E as E _. destruct Hb as [Hb _]. congruence.
  - injection E as E _. destruct Ha as [Ha _]. congruence.
  - injection E as -> E. destruct (IH b x y (proj2 Ha) (proj2 Hb) E) as [-> ->]. auto.
Qed.

Lemma cut_end : forall c a b x, lacks_char c b -> a ++ String c x <> b.
Proof.
  intros c a. induction a as [|p a IH]; intros [|q b] x Hb E; cbn in *; try discriminate.
  - injection E as E _. destruct Hb. congruence.
  - injection E as _ E. exact (IH b x (proj2 Hb) E).
Qed.

Lemma lacks_app : forall c a b, lacks_char c (a ++ b) <-> lacks_char c a /\ lacks_char c b.
Proof. intros c a b. induction a as [|p a IH]; cbn; [tauto|]. rewrite IH. tauto. Qed.

Lemma same_front : forall p x y, p ++ x = p ++ y -> x = y.
Proof. induction p as [|a p IH]; intros x y E; cbn in E; [exact E|]. injection E as E. auto. Qed.

Lemma same_back : forall x y p, x ++ p = y ++ p -> x = y.
Proof.
  assert (len : forall a b, String.length (a ++ b) = String.length a + String.length b).
  { induction a; intros; cbn; auto. }
  induction x as [|a x IH]; intros [|b y] p E.
  - reflexivity.
  - exfalso. apply (f_equal String.length) in E. rewrite !len in E. cbn in E. lia.
  - exfalso. apply (f_equal String.length) in E. rewrite !len in E. cbn in E. lia.
  - cbn in E. injection E as -> E. f_equal. exact (IH _ _ E).
Qed.

Lemma texts_concat : forall l, texts l = String.concat "" l.
Proof.
  induction l as [|a [|b l] IH]; [reflexivity| |].
  - cbn. induction a; cbn; congruence.
  - cbn [texts fold_right String.concat] in *. rewrite IH. reflexivity.
Qed.

Lemma texts_lacks : forall c l, Forall (lacks_char c) l -> lacks_char c (texts l).
Proof. induction 1; cbn; [exact I|]. apply lacks_app. auto. Qed.

Lemma texts_app : forall a b, texts (a ++ b)%list = texts a ++ texts b.
Proof. induction a; intros b; cbn; [reflexivity|]. rewrite IHa. symmetry. apply app_assoc_s. Qed.

(** ** Lines *)

Lemma has_lines_unique : forall s ls, has_lines s ls -> forall ls', has_lines s ls' -> ls = ls'.
Proof.
  induction 1 as [|l s ls Hl H IH]; intros ls' H'; inversion H' as [E|l' s' ls'' Hl' Hr E]; subst.
  - reflexivity.
  - exfalso. destruct l'; discriminate.
  - exfalso. destruct l; discriminate.
  - destruct (cut _ _ _ _ _ Hl' Hl E) as [-> ->]. f_equal. auto.
Qed.

Lemma lines_text : forall s s' ls, has_lines s ls -> has_lines s' ls -> s = s'.
Proof.
  intros s s' ls H. revert s'. induction H as [|l s ls Hl H IH]; intros s' H'; inversion H'; subst.
  - reflexivity.
  - f_equal. f_equal. auto.
Qed.

Lemma schema_flat : forall s, print_schema s =
  texts (map (fun t => n_name t ++ " " ++ dec (type_number t) ++ eol) (List.concat (s_types s))).
Proof.
  intros [g]. unfold print_schema. cbn [s_types]. induction g as [|l g IH]; [reflexivity|].
  cbn [map texts fold_right List.concat]. fold (texts (map (fun group => texts (map (fun t => n_name t ++ " " ++ dec (type_number t) ++ eol) group)) g)).
  rewrite IH, map_app, texts_app. reflexivity.
Qed.

Lemma entry_line : forall t, n_name t ++ " " ++ dec (type_number t) ++ eol = type_line t ++ eol.
Proof. intros [c|r]; unfold type_line; rewrite app_assoc_s; reflexivity. Qed.

Lemma schema_lines : forall s, Forall (fun t => one_line (n_name t)) (List.concat (s_types s)) ->
  has_lines (print_schema s) (map type_line (List.concat (s_types s))).
Proof.
  intros s. rewrite schema_flat. generalize (List.concat (s_types s)) as l. induction 1 as [|t l Ht H IH].
  - constructor.
  - cbn [map texts fold_right].
    replace ((n_name t ++ " " ++ dec (type_number t) ++ eol) ++ fold_right append "" (map (fun t0 => n_name t0 ++ " " ++ dec (type_number t0) ++ eol) l))
      with (type_line t ++ String "010" (texts (map (fun t0 => n_name t0 ++ " " ++ dec (type_number t0) ++ eol) l))).
    + constructor; [|exact IH]. unfold one_line, type_line. apply lacks_app. split; [exact Ht|].
      destruct t; cbn; repeat split; discriminate.
    + rewrite entry_line, app_assoc_s. reflexivity.
Qed.

Lemma type_line_inj : forall t u, type_line t = type_line u -> n_name t = n_name u /\ is_class t = is_class u.
Proof.
  assert (last : forall a b x y, a ++ " 0" = x -> b ++ " 1" = y -> x <> y).
  { induction a as [|p a IH]; intros b x y <- <- E.
    - destruct b as [|q [|q' [|q'' b]]]; cbn in E; try discriminate.
    - destruct b as [|q b]; cbn in E.
      + destruct a as [|p' [|p'' a]]; cbn in E; try discriminate.
      + injection E as _ E. exact (IH b _ _ eq_refl eq_refl E). }
  intros [c|r] [c'|r'] E; unfold type_line in E; cbn in E |- *.
  - split; [exact (same_back _ _ _ E)|reflexivity].
  - exfalso. exact (last _ _ _ _ eq_refl eq_refl E).
  - exfalso. exact (last _ _ _ _ eq_refl eq_refl (eq_sym E)).
  - split; [exact (same_back _ _ _ E)|reflexivity].
Qed.

Lemma lines_inj : forall l l', map type_line l = map type_line l' ->
  map (fun t => (n_name t, is_class t)) l = map (fun t => (n_name t, is_class t)) l'.
Proof.
  induction l as [|t l IH]; intros [|u l'] E; try discriminate; [reflexivity|].
  cbn [map] in *. injection E as E1 E2. destruct (type_line_inj _ _ E1) as [-> ->]. f_equal. auto.
Qed.

Lemma inj_lines : forall l l', map (fun t => (n_name t, is_class t)) l = map (fun t => (n_name t, is_class t)) l' ->
  map type_line l = map type_line l'.
Proof.
  induction l as [|t l IH]; intros [|u l'] E; try discriminate; [reflexivity|].
  cbn [map] in *. injection E as E1 E2 E3. f_equal; [|auto].
  unfold type_line. rewrite E1. destruct t, u; try discriminate; reflexivity.
Qed.

Lemma schema_same : forall s s',
  Forall (fun t => one_line (n_name t)) (List.concat (s_types s)) ->
  Forall (fun t => one_line (n_name t)) (List.concat (s_types s')) ->
  (print_schema s = print_schema s' <->
   map (fun t => (n_name t, is_class t)) (List.concat (s_types s)) =
   map (fun t => (n_name t, is_class t)) (List.concat (s_types s'))).
Proof.
  intros s s' H H'. pose proof (schema_lines s H) as L. pose proof (schema_lines s' H') as L'. split; intros E.
  - rewrite E in L. apply lines_inj. exact (has_lines_unique _ _ L _ L').
  - rewrite (inj_lines _ _ E) in L. exact (lines_text _ _ _ L L').
Qed.

(** ** Levels *)

Lemma eol_app : forall x, eol ++ x = String "010" x.
Proof. reflexivity. Qed.

Lemma level_same : forall {T} (name : T -> string) l l' x y,
  Forall (fun t => one_line (name t)) l -> Forall (fun t => one_line (name t)) l' ->
  texts (map (fun j => "    * " ++ name j ++ eol) l) ++ eol ++ x =
  texts (map (fun j => "    * " ++ name j ++ eol) l') ++ eol ++ y ->
  map name l = map name l' /\ x = y.
Proof.
  intros T name l. induction l as [|t l IH]; intros [|u l'] x y H H' E; cbn [map texts fold_right] in E.
  - cbn in E. injection E as ->. auto.
  - discriminate.
  - discriminate.
  - inversion_clear H as [|? ? Ht Hl]. inversion_clear H' as [|? ? Hu Hl'].
    rewrite !app_assoc_s in E. apply same_front in E. rewrite !eol_app in E.
    destruct (cut _ _ _ _ _ Ht Hu E) as [E1 E2].
    destruct (IH l' x y Hl Hl' E2) as [E3 ->]. cbn [map]. rewrite E1, E3. auto.
Qed.

Lemma levels_from_same : forall {T} (name : T -> string) l l' n,
  Forall (Forall (fun t => one_line (name t))) l -> Forall (Forall (fun t => one_line (name t))) l' ->
  print_levels_from name n l = print_levels_from name n l' -> map (map name) l = map (map name) l'.
Proof.
  intros T name l. induction l as [|t l IH]; intros [|u l'] n H H' E; cbn [print_levels_from] in E.
  - reflexivity.
  - discriminate.
  - discriminate.
  - inversion_clear H as [|? ? Ht Hl]. inversion_clear H' as [|? ? Hu Hl'].
    do 3 apply same_front in E. destruct (level_same name _ _ _ _ Ht Hu E) as [E1 E2].
    cbn [map]. rewrite E1. f_equal. exact (IH _ _ Hl Hl' E2).
Qed.

Lemma levels_from_names : forall {T} (name : T -> string) l l' n,
  map (map name) l = map (map name) l' -> print_levels_from name n l = print_levels_from name n l'.
Proof.
  intros T name l. induction l as [|t l IH]; intros [|u l'] n E; try discriminate; [reflexivity|].
  cbn [map] in E. injection E as E1 E2. cbn [print_levels_from]. rewrite (IH _ _ E2).
  rewrite <- (map_map name (fun s => "    * " ++ s ++ eol) t), <- (map_map name (fun s => "    * " ++ s ++ eol) u), E1.
  reflexivity.
Qed.

Lemma levels_same : forall {T} (name : T -> string) l l',
  Forall (Forall (fun t => one_line (name t))) l -> Forall (Forall (fun t => one_line (name t))) l' ->
  (print_levels name l = print_levels name l' <-> map (map name) l = map (map name) l').
Proof.
  intros T name l l' H H'. split; [apply levels_from_same; assumption|apply levels_from_names].
Qed.

(** ** Classes *)

Lemma property_same : forall f g x y, printable_property f -> printable_property g ->
  print_field f ++ x = print_field g ++ y -> property_seen f = property_seen g /\ x = y.
Proof.
  intros f g x y (Nf & Tf & Rf) (Ng & Tg & Rg) E. unfold print_field in E.
  rewrite !app_assoc_s in E.
  assert (split_ : forall a s, a ++ " : " ++ s = (a ++ " ") ++ String ":" (" " ++ s)).
  { intros. rewrite app_assoc_s. reflexivity. }
  assert (plain_sp : forall a, plain a -> lacks_char ":" (a ++ " ")).
  { intros a [_ H]. apply lacks_app. split; [exact H|]. cbn. split; [discriminate|exact I]. }
  rewrite !split_ in E. apply cut in E; [|apply plain_sp; assumption|apply plain_sp; assumption].
  destruct E as [E1 E]. apply same_back in E1. apply same_front in E.
  assert (split2 : forall a s, a ++ " : [" ++ s = (a ++ " ") ++ String ":" (" [" ++ s)).
  { intros. rewrite app_assoc_s. reflexivity. }
  rewrite !split2 in E. apply cut in E; [|apply plain_sp; assumption|apply plain_sp; assumption].
  destruct E as [E2 E]. apply same_back in E2. apply same_front in E.
  assert (split3 : forall a s, a ++ "]" ++ eol ++ s = (a ++ "]") ++ String "010" s).
  { intros. rewrite app_assoc_s. reflexivity. }
  rewrite !split3 in E.
  assert (req : forall l, Forall one_line l -> lacks_char "010" (texts l ++ "]")).
  { intros l H. apply lacks_app. split; [apply texts_lacks; exact H|]. cbn. split; [discriminate|exact I]. }
  apply cut in E; [|apply req; assumption|apply req; assumption].
  destruct E as [E3 E]. apply same_back in E3. unfold property_seen.
  rewrite <- !texts_concat, E1, E2, E3. auto.
Qed.

Lemma print_field_seen : forall f g, property_seen f = property_seen g -> print_field f = print_field g.
Proof.
  intros f g E. unfold property_seen in E. injection E as E1 E2 E3. unfold print_field.
  rewrite !texts_concat, E1, E2, E3. reflexivity.
Qed.

Lemma fields_same : forall l l', Forall printable_property l -> Forall printable_property l' ->
  (texts (map (fun f => print_field f ++ pad13) l) = texts (map (fun f => print_field f ++ pad13) l') <->
   map property_seen l = map property_seen l').
Proof.
  induction l as [|f l IH]; intros [|g l'] H H'; cbn [map texts fold_right]; split; intros E; try reflexivity; try discriminate.
  - exfalso. unfold print_field in E. destruct (f_name g); discriminate.
  - exfalso. unfold print_field in E. destruct (f_name f); discriminate.
  - inversion_clear H as [|? ? Hf Hl]. inversion_clear H' as [|? ? Hg Hl'].
    rewrite !app_assoc_s in E. destruct (property_same _ _ _ _ Hf Hg E) as [E1 E2].
    apply same_front in E2. rewrite E1. f_equal. apply (proj1 (IH l' Hl Hl')). exact E2.
  - inversion_clear H as [|? ? Hf Hl]. inversion_clear H' as [|? ? Hg Hl'].
    injection E as E1 E2 E3 E4.
    rewrite (print_field_seen f g) by (unfold property_seen; congruence).
    f_equal. apply (proj2 (IH l' Hl Hl')). exact E4.
Qed.

Lemma class_same : forall c d, printable_class c -> printable_class d ->
  (print_composite c = print_composite d <-> class_seen c = class_seen d).
Proof.
  intros c d (N & L & D & F) (N' & L' & D' & F'). unfold print_composite, class_seen. split; intros E.
  - apply same_front in E. rewrite !eol_app in E. apply cut in E; [|assumption|assumption]. destruct E as [-> E].
    apply same_front in E. apply cut in E; [|assumption|assumption]. destruct E as [-> E].
    apply same_front in E. apply cut in E; [|assumption|assumption]. destruct E as [-> E].
    apply same_front in E. apply fields_same in E; [|assumption|assumption]. rewrite E. reflexivity.
  - injection E as E1 E2 E3 E4. apply fields_same in E4; [|assumption|assumption]. rewrite E1, E2, E3, E4. reflexivity.
Qed.

(** ** Restricted types *)

Lemma provides_same : forall l l' x y, Forall one_line l -> Forall one_line l' ->
  texts (map (fun p => "              " ++ p ++ eol) l) ++ "             ]" ++ x =
  texts (map (fun p => "              " ++ p ++ eol) l') ++ "             ]" ++ y ->
  l = l' /\ x = y.
Proof.
  induction l as [|p l IH]; intros [|q l'] x y H H' E; cbn [map texts fold_right] in E.
  - cbn in E. injection E as ->. auto.
  - discriminate.
  - discriminate.
  - inversion_clear H as [|? ? Hp Hl]. inversion_clear H' as [|? ? Hq Hl'].
    rewrite !app_assoc_s in E. apply same_front in E. rewrite !eol_app in E.
    apply cut in E; [|assumption|assumption]. destruct E as [-> E].
    destruct (IH _ _ _ Hl Hl' E) as [-> ->]. auto.
Qed.

Lemma kind_one_line : forall k, one_line (print_kind k).
Proof. destruct k; cbn; repeat split; discriminate. Qed.

Lemma restricted_same : forall r r', printable_restricted r -> printable_restricted r' ->
  (print_restricted r = print_restricted r' <-> restricted_seen r = restricted_seen r').
Proof.
  intros r r' (N & L & D & P) (N' & L' & D' & P'). unfold print_restricted, restricted_seen. split; intros E.
  - apply same_front in E. rewrite !eol_app in E. apply cut in E; [|assumption|assumption]. destruct E as [-> E].
    apply same_front in E. apply cut in E; [|assumption|assumption]. destruct E as [-> E].
    apply same_front in E. apply cut in E; [|assumption|assumption]. destruct E as [-> E].
    apply same_front in E. apply cut in E; [|apply kind_one_line|apply kind_one_line]. destruct E as [E1 E].
    apply same_front in E. injection E as E. apply provides_same in E; [|assumption|assumption]. destruct E as [-> _].
    destruct (r_kind r), (r_kind r'); try discriminate; reflexivity.
  - injection E as E1 E2 E3 E4 E5. rewrite E1, E2, E3, E4, E5. reflexivity.
Qed.

Lemma kinds_apart : forall c r, printable_class c -> printable_restricted r -> print_composite c <> print_restricted r.
Proof.
  intros c r (N & L & D & F) (N' & L' & D' & P') E. unfold print_composite, print_restricted in E.
  apply same_front in E. rewrite !eol_app in E. apply cut in E; [|assumption|assumption]. destruct E as [_ E].
  apply same_front in E. apply cut in E; [|assumption|assumption]. destruct E as [_ E].
  apply same_front in E. apply cut in E; [|assumption|assumption]. destruct E as [_ E]. discriminate.
Qed.

Lemma notation_same : forall t u,
  match t with TComposite c => printable_class c | TRestricted r => printable_restricted r end ->
  match u with TComposite c => printable_class c | TRestricted r => printable_restricted r end ->
  (print_notation t = print_notation u <->
   match t, u with
   | TComposite c, TComposite d => class_seen c = class_seen d
   | TRestricted r, TRestricted r' => restricted_seen r = restricted_seen r'
   | _, _ => False
   end).
Proof.
  intros [c|r] [d|r'] H H'; cbn [print_notation].
  - apply class_same; assumption.
  - split; [|tauto]. intros E. exact (kinds_apart _ _ H H' E).
  - split; [|tauto]. intros E. exact (kinds_apart _ _ H' H (eq_sym E)).
  - apply restricted_same; assumption.
Qed.

(** ** The lines of the printed forms *)

Lemma line : forall l x ls, one_line l -> has_lines x ls -> has_lines (l ++ eol ++ x) (l :: ls).
Proof. intros. rewrite eol_app. constructor; assumption. Qed.

Lemma app_nil_s : forall x, x ++ "" = x.
Proof. induction x; cbn; congruence. Qed.

Lemma line2 : forall p l x ls, one_line p -> one_line l -> has_lines x ls -> has_lines (p ++ l ++ eol ++ x) ((p ++ l) :: ls).
Proof. intros. rewrite <- app_assoc_s. apply line; [apply lacks_app; split|]; assumption. Qed.

Ltac short := cbn; repeat split; discriminate.

Lemma property_text_one_line : forall f, printable_property f -> one_line (property_text f).
Proof.
  intros f ((N & _) & (T & _) & R). unfold one_line, property_text. rewrite !lacks_app.
  repeat (split; [first [assumption|short]|]). split; [|short].
  rewrite <- texts_concat. apply texts_lacks. exact R.
Qed.

Lemma print_field_text : forall f, print_field f = property_text f ++ eol.
Proof. intros f. unfold print_field, property_text. rewrite texts_concat, !app_assoc_s. reflexivity. Qed.

Lemma fields_lines : forall fs p, one_line p -> Forall printable_property fs ->
  has_lines (p ++ texts (map (fun f => print_field f ++ pad13) fs) ++ eol)
            (map (fun p => fst p ++ snd p)
                 (combine (p :: repeat pad13 (List.length fs)) (map property_text fs ++ [""])%list)).
Proof.
  induction fs as [|f fs IH]; intros p Hp H.
  - cbn [map texts fold_right List.length repeat app combine fst snd]. rewrite app_nil_s.
    cbn [String.append]. rewrite <- (app_nil_s eol). apply line; [exact Hp|constructor].
  - inversion_clear H as [|? ? Hf Hfs]. cbn [map texts fold_right List.length repeat app combine fst snd].
    rewrite print_field_text, !app_assoc_s. apply line2; [exact Hp|apply property_text_one_line; exact Hf|].
    apply (IH pad13); [short|exact Hfs].
Qed.

Lemma class_lines_ok : forall c, printable_class c -> has_lines (print_composite c ++ eol) (class_lines c).
Proof.
  intros c (N & L & D & F). unfold print_composite, class_lines. rewrite !app_assoc_s. cbn [app].
  repeat (apply line2; [short|assumption|]). apply fields_lines; [short|exact F].
Qed.

Lemma restricted_lines_ok : forall r, printable_restricted r -> has_lines (print_restricted r) (restricted_lines r).
Proof.
  intros r (N & L & D & P). unfold print_restricted, restricted_lines. cbn [app].
  do 3 (apply line2; [short|assumption|]). apply line2; [short|destruct (r_kind r); short|].
  apply line; [short|]. induction P as [|p l Hp Hl IH]; cbn [map texts fold_right app].
  - cbn [String.append]. rewrite <- (app_nil_s eol). apply (line "             ]"); [short|constructor].
  - rewrite !app_assoc_s. apply line2; [short|exact Hp|exact IH].
Qed.

Lemma type_lines_ok : forall t,
  match t with TComposite c => printable_class c | TRestricted r => printable_restricted r end ->
  match t with
  | TComposite c => has_lines (print_notation t ++ eol) (class_lines c)
  | TRestricted r => has_lines (print_notation t) (restricted_lines r)
  end.
Proof. intros [c|r] H; [apply class_lines_ok|apply restricted_lines_ok]; exact H. Qed.

Lemma dec_one_line : forall z, one_line (dec z).
Proof.
  assert (uint : forall u, one_line (DecimalString.NilEmpty.string_of_uint u)).
  { induction u; cbn; try (split; [discriminate|assumption]). exact I. }
  intros z. unfold dec, DecimalString.NilZero.string_of_int, DecimalString.NilZero.string_of_uint.
  assert (z0 : forall u, one_line match u with Decimal.Nil => "0" | _ => DecimalString.NilEmpty.string_of_uint u end).
  { intros [] ; try (apply uint). short. }
  destruct (Z.to_int z) as [u|u]; [apply z0|]. cbn. split; [discriminate|apply z0].
Qed.

Lemma level_text : forall {T} (name : T -> string) l x ls, Forall (fun t => one_line (name t)) l -> has_lines x ls ->
  has_lines (texts (map (fun j => "    * " ++ name j ++ eol) l) ++ eol ++ x)
            (map (String.append "    * ") (map name l) ++ "" :: ls)%list.
Proof.
  intros T name l x ls H Hx. induction H as [|t l Ht Hl IH]; cbn [map texts fold_right app].
  - apply (line ""); [exact I|exact Hx].
  - rewrite !app_assoc_s. apply line2; [short|exact Ht|exact IH].
Qed.

Lemma levels_lines_from : forall {T} (name : T -> string) l k, Forall (Forall (fun t => one_line (name t))) l ->
  has_lines (print_levels_from name (Z.of_nat k) l)
    (List.concat (map (fun p => ("level " ++ dec (Z.of_nat (fst p))) :: (map (String.append "    * ") (snd p) ++ [""])%list)
         (combine (seq (S k) (List.length (map (map name) l))) (map (map name) l)))).
Proof.
  intros T name l. induction l as [|t l IH]; intros k H; [constructor|].
  inversion_clear H as [|? ? Ht Hl]. cbn [print_levels_from map List.length seq combine List.concat fst snd].
  cbn [app]. rewrite <- app_assoc. cbn [app].
  replace (Z.of_nat k + 1)%Z with (Z.of_nat (S k)) by lia.
  apply line2; [short|apply dec_one_line|]. apply level_text; [exact Ht|]. apply (IH (S k) Hl).
Qed.

Lemma levels_lines : forall {T} (name : T -> string) l, Forall (Forall (fun t => one_line (name t))) l ->
  has_lines (print_levels name l) (level_lines (fun n => dec (Z.of_nat n)) (map (map name) l)).
Proof. intros. apply (levels_lines_from name l 0). assumption. Qed.
