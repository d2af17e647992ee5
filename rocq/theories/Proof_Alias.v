(** * Aliases in the table of types *)
From Coq Require Import Lia.
From Verif Require Import Base Model_Ident Model_Path Model_Import Model_Type Model_IntoRs Model_Out Model_Function Model_Property Model_Class Model_Module
  Spec_Path Spec_Names Spec_Type Spec_Rust Spec_Alias Proof_Base Proof_Ident Proof_Path Proof_Ann Proof_IntoRs Proof_Forest.

Lemma stands_segs : forall U p l, stands U p l -> leading_colon p = false /\ segs p = map (ident_from_py U) l.
Proof. intros U p l (_ & H & ->). rewrite segs_from_py_dotted by (intros s Hs; now apply H). split; reflexivity. Qed.
Lemma stands_text : forall U p l, stands U p l -> to_py p = join [c_dot] l.
Proof.
  intros U p l (Hn & H & ->). rewrite path_py_roundtrip; [reflexivity|intros s Hs; now apply H| |now left]. intros Hs. now apply (H _ Hs).
Qed.
Lemma map_from_py_inj : forall U l l', (forall s, In s l -> component s) -> (forall s, In s l' -> component s) ->
  map (ident_from_py U) l = map (ident_from_py U) l' -> l = l'.
Proof.
  intros U. induction l as [|x l IH]; intros [|y l'] H H' E; try discriminate; [reflexivity|]. cbn [map] in E. injection E as E1 E2. f_equal.
  - apply (from_py_inj U); [apply (H x); now left|apply (H' y); now left|exact E1].
  - apply IH; [intros s Hs; apply H; now right|intros s Hs; apply H'; now right|exact E2].
Qed.
Lemma stands_inj : forall U p l l', stands U p l -> stands U p l' -> l = l'.
Proof.
  intros U p l l' H H'. apply (map_from_py_inj U); [intros s Hs; now apply H|intros s Hs; now apply H'|].
  apply stands_segs in H as [_ H]. apply stands_segs in H' as [_ H']. congruence.
Qed.
Lemma stands_same : forall U p q l, stands U p l -> stands U q l -> p = q.
Proof. intros U p q l (_ & _ & ->) (_ & _ & ->). reflexivity. Qed.
Lemma stands_absolute : forall U p l, stands U p l -> absolute p.
Proof.
  intros U p l H. apply stands_segs in H as [H1 H2]. split; [exact H1|]. rewrite H2. intros s Hs. apply in_map_iff in Hs as (n & <- & _). apply from_py_not_path_kw.
Qed.
Lemma join_nonempty : forall l, l <> [] -> (forall s, In s l -> component s) -> join [c_dot] l <> [].
Proof.
  intros [|x l] Hn H E; [easy|]. destruct (H x (or_introl eq_refl)) as (Hx & _). destruct x as [|c x]; [easy|]. rewrite join_cons_char in E. discriminate.
Qed.

(** The key for a class at [o ++ t] in the import of [o] as [a] *)
Definition alias_name (a : str) (t : list str) : list str := a :: match t with [] => [] | _ :: r => r end.
Lemma alias_key_is : forall dbg U im p k o a tt P, stands U (im_origin im) o -> stands U (im_target im) (tt ++ [a]) -> stands U p P ->
  path_starts_with p (im_origin im) = true -> alias_key dbg U im p = Ok k ->
  exists t, P = o ++ t /\ k = mk_path false (map (ident_from_py U) (alias_name a t)).
Proof.
  intros dbg U im p k o a tt P Ho Ht Hp Hs Hk. apply path_starts_with_iff in Hs as (rest & Hs).
  destruct (stands_segs _ _ _ Ho) as [_ So]. destruct (stands_segs _ _ _ Ht) as [_ St]. destruct (stands_segs _ _ _ Hp) as [_ Sp]. rewrite So, Sp in Hs.
  apply map_eq_app in Hs as (l1 & t & -> & E1 & _).
  assert (l1 = o). { apply (map_from_py_inj U); [|intros s Hs; now apply Ho|exact E1]. intros s Hs. apply Hp. apply in_or_app. now left. } subst l1. clear E1. exists t. split; [reflexivity|].
  assert (Tn : path_name (im_target im) = Ok (ident_from_py U a)). { unfold path_name. rewrite St, map_app. cbn [map]. now rewrite last_opt_app. }
  unfold alias_key in Hk. rewrite (stands_text _ _ _ Ho), (stands_text _ _ _ Hp), Tn in Hk. cbn [obind] in Hk. destruct t as [|x r].
  - rewrite app_nil_r in Hk. destruct (strip_prefix _ _) as [s|] eqn:E; [|injection Hk as <-; reflexivity].
    apply strip_prefix_Some in E. apply (f_equal (@length _)) in E. rewrite !app_length in E. cbn in E. lia.
  - rewrite join_app in Hk; [|apply Ho|discriminate]. rewrite app_assoc, strip_prefix_app in Hk. unfold path_from_py_chk in Hk. destruct (_ && _); [discriminate|]. cbn [obind] in Hk.
    assert (C : forall s, In s (x :: r) -> component s) by (intros s Hs; apply Hp; apply in_or_app; now right).
    change (join [c_dot] (x :: r)) with (dotted 0 (x :: r)) in Hk. rewrite segs_from_py_dotted in Hk by exact C. cbn [repeat app map set_first segs leading_colon] in Hk. injection Hk as <-. reflexivity.
Qed.

(** What the table has for the name [n] *)
Definition listed_as (U : uni) (m : module) (ts : list path) (n P : list str) : Prop :=
  is_class U ts P /\ (P = n \/ exists a o t, bound_to U m a o /\ P = o ++ t /\ n = alias_name a t).

Section T.
Variables (dbg : bool) (U : uni) (m : module) (ts : list path) (lt : table).
Hypothesis Hlt : local_types dbg U m ts = Ok lt.
Hypothesis Hpy : python_names U m ts.

Lemma table_from : forall k v, In (k, v) lt -> exists n P p, k = mk_path false (map (ident_from_py U) n) /\ (forall s, In s n -> component s) /\
  In p ts /\ stands U p P /\ listed_as U m ts n P /\ relative_to (m_name m) p false = Ok v.
Proof.
  intros k v Hin. destruct Hpy as (_ & Hts & Him). pose proof Hlt as H. unfold local_types in H. apply bind_Ok in H as (own & Ho & H). apply bind_Ok in H as (al & Ha & H). injection H as H. subst lt.
  apply in_rev in Hin. apply in_app_or in Hin as [Hin|Hin].
  - destruct (mapM_In _ _ _ _ Ho Hin) as (p & Hp & E). apply bind_Ok in E as (r & Er & E). injection E as -> ->. destruct (Hts k Hp) as (P & SP). exists P, P, k.
    split. { destruct (stands_segs _ _ _ SP) as [E1 E2]. destruct k. cbn in *. congruence. }
    split; [intros s Hs; now apply SP|]. split; [exact Hp|]. split; [exact SP|]. split; [split; [now exists k|now left]|exact Er].
  - apply in_concat in Hin as (e & He & Hin). destruct (mapM_In _ _ _ _ Ha He) as (im & Hi & Em). unfold alias_entries in Em.
    destruct (mapM_In _ _ _ _ Em Hin) as (p & Hp & E). apply filter_In in Hp as [Hp Hs]. apply bind_Ok in E as (key & Ek & E). apply bind_Ok in E as (r & Er & E). injection E as -> ->.
    destruct (Hts p Hp) as (P & SP). destruct (Him im Hi) as ((o & So) & tt & a & St).
    destruct (alias_key_is _ _ _ _ _ _ _ _ _ So St SP Hs Ek) as (t & EP & Ekk). exists (alias_name a t), P, p.
    split; [exact Ekk|]. split.
    { intros s Hin'. unfold alias_name in Hin'. destruct Hin' as [<-|Hin']; [apply St; apply in_or_app; right; now left|].
      apply SP. rewrite EP. apply in_or_app. right. destruct t as [|x t]; [easy|now right]. }
    split; [exact Hp|]. split; [exact SP|]. split; [|exact Er]. split; [now exists p|]. right. exists a, o, t. split; [now exists im, tt|]. split; [exact EP|reflexivity].
Qed.
Lemma table_has : forall n P, listed_as U m ts n P -> exists v, In (mk_path false (map (ident_from_py U) n), v) lt.
Proof.
  intros n P ((p & Hp & SP) & H). pose proof Hlt as L. unfold local_types in L. apply bind_Ok in L as (own & Ho & L). apply bind_Ok in L as (al & Ha & L). injection L as L. subst lt.
  destruct H as [-> |(a & o & t & (im & tt & Hi & So & St) & EP & En)].
  - destruct (mapM_In_l _ _ _ _ Ho Hp) as ([k v] & Hb & E). apply bind_Ok in E as (r & Er & E). injection E as -> ->. exists v. rewrite <- in_rev. apply in_or_app. left.
    destruct (stands_segs _ _ _ SP) as [E1 E2]. rewrite <- E2. destruct k. cbn in E1. subst. exact Hb.
  - destruct (mapM_In_l _ _ _ _ Ha Hi) as (e & He & Em). unfold alias_entries in Em.
    assert (Hs : path_starts_with p (im_origin im) = true).
    { apply path_starts_with_iff. destruct (stands_segs _ _ _ So) as [_ E1]. destruct (stands_segs _ _ _ SP) as [_ E2]. exists (map (ident_from_py U) t). now rewrite E1, E2, EP, map_app. }
    assert (Hf : In p (filter (fun p => path_starts_with p (im_origin im)) ts)) by (apply filter_In; now split).
    destruct (mapM_In_l _ _ _ _ Em Hf) as ([k v] & Hb & E). apply bind_Ok in E as (key & Ek & E). apply bind_Ok in E as (r & Er & E). injection E as -> ->.
    destruct (alias_key_is _ _ _ _ _ _ _ _ _ So St SP Hs Ek) as (t' & EP' & Ekk). rewrite EP in EP'. apply app_inv_head in EP'. subst t'.
    exists v. rewrite <- in_rev. apply in_or_app. right. apply in_concat. exists e. split; [exact He|]. rewrite En, <- Ekk. exact Hb.
Qed.
Lemma get_from : forall n v, (forall s, In s n -> component s) -> lt_get lt (path_from_py U (dotted 0 n)) = Some v ->
  exists P, listed_as U m ts n P /\ resolve (segs (m_name m)) (segs v) = Some (map (ident_from_py U) P).
Proof.
  intros n v Hn H. rewrite segs_from_py_dotted in H by exact Hn. apply lt_get_In in H as (k & Hk & E). apply path_eqb_eq in E. subst k.
  destruct (table_from _ _ Hk) as (n' & P & p & E & Hn' & Hp & SP & HL & Hr). injection E as E. apply (map_from_py_inj U) in E; [|exact Hn|exact Hn']. subst n'.
  exists P. split; [exact HL|]. destruct Hpy as ((l & Sl) & _ & _).
  destruct (relative_to_correct _ _ _ _ (stands_absolute _ _ _ Sl) (stands_absolute _ _ _ SP) Hr) as [_ R]. rewrite R. f_equal. now apply stands_segs.
Qed.
Lemma get_some : forall n P, (forall s, In s n -> component s) -> listed_as U m ts n P -> lt_get lt (path_from_py U (dotted 0 n)) <> None.
Proof.
  intros n P Hn H E. destruct (table_has _ _ H) as (v & Hv). rewrite segs_from_py_dotted in E by exact Hn. unfold lt_get in E. destruct (find _ lt) eqn:F; [discriminate|].
  apply (find_none _ _ F) in Hv. cbn [fst repeat app] in Hv. rewrite path_eqb_refl in Hv. discriminate.
Qed.
End T.

(** ** Annotations *)
Section A.
Variables (c : ctx) (m : module) (ts : list path).
Hypothesis Hlt : local_types (cx_dbg c) (cx_uni c) m ts = Ok (cx_local c).
Hypothesis Hpy : python_names (cx_uni c) m ts.
Lemma just_read : forall n, just_name c n -> from_str (cx_dbg c) (dotted 0 n) = Ok (TOther (dotted 0 n)) /\
  into_rs c (TOther (dotted 0 n)) = match lt_get (cx_local c) (path_from_py (cx_uni c) (dotted 0 n)) with
    | Some rel => if syn_path_ok (cx_uni c) rel then Ok (RBound (RLocal rel), RRef (RBound (RLocal rel))) else Panic PUnwrap
    | None => Ok r_any end.
Proof.
  intros n (Hn & Hp & Ht & Hd & Hnp). split; [rewrite from_str_name by exact Hp; unfold name_meaning; now rewrite Ht|].
  rewrite <- (other_path c (dotted 0 n) [] Hd); [now rewrite app_nil_r| |now left|exact Hnp].
  destruct Hp as (_ & Hc & _). intros Hb. apply Hc in Hb as [_ Hb]. apply Hb. cbn. tauto.
Qed.
Lemma shows_from : forall n P, just_name c n -> shows c m (dotted 0 n) P -> (forall s, In s P -> component s) -> listed_as (cx_uni c) m ts n P.
Proof.
  intros n P Hn (t & rel & E1 & E2 & R) HP. destruct (just_read n Hn) as [F1 F2]. rewrite F1 in E1. injection E1 as <-. rewrite F2 in E2.
  destruct (lt_get _ _) as [v|] eqn:G; [|discriminate]. destruct (syn_path_ok _ v); [|discriminate]. injection E2 as ->.
  destruct (get_from _ _ _ _ _ Hlt Hpy n rel (proj1 Hn) G) as (P' & HL & R'). rewrite R in R'. injection R' as R'. apply (map_from_py_inj (cx_uni c)) in R'; [subst; exact HL|exact HP|].
  destruct HL as [(p & _ & Sp) _]. intros s Hs. now apply Sp.
Qed.
Lemma shows_any_iff : forall n, just_name c n -> (shows_any c (dotted 0 n) <-> forall P, ~ listed_as (cx_uni c) m ts n P).
Proof.
  intros n Hn. destruct (just_read n Hn) as [F1 F2]. split.
  - intros (t & E1 & E2) P HP. rewrite F1 in E1. injection E1 as <-. rewrite F2 in E2. apply (get_some _ _ _ _ _ Hlt n P (proj1 Hn)) in HP.
    destruct (lt_get _ _) as [v|]; [|easy]. destruct (syn_path_ok _ v); discriminate.
  - intros H. exists (TOther (dotted 0 n)). split; [exact F1|]. rewrite F2. destruct (lt_get _ _) as [v|] eqn:G; [|reflexivity].
    destruct (get_from _ _ _ _ _ Hlt Hpy n v (proj1 Hn) G) as (P & HL & _). now apply H in HL.
Qed.
Lemma shows_only : forall n P, just_name c n -> listed_as (cx_uni c) m ts n P -> (forall Q, listed_as (cx_uni c) m ts n Q -> Q = P) ->
  (forall o, into_rs c (TOther (dotted 0 n)) <> Panic o) -> shows c m (dotted 0 n) P.
Proof.
  intros n P Hn HP Hu Hok. destruct (just_read n Hn) as [F1 F2]. pose proof (get_some _ _ _ _ _ Hlt n P (proj1 Hn) HP) as G.
  destruct (lt_get _ _) as [v|] eqn:G' in F2; [|easy]. destruct (syn_path_ok _ v) eqn:Sv; [|now apply Hok in F2]. exists (TOther (dotted 0 n)), v.
  split; [exact F1|]. split; [exact F2|]. destruct (get_from _ _ _ _ _ Hlt Hpy n v (proj1 Hn) G') as (Q & HL & R). now rewrite <- (Hu Q HL).
Qed.
End A.
