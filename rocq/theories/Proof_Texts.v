(** * Lemmas: what Python says only ends up in literals (C67) *)
From Verif Require Import Base Spec_Lex Model_Ident Model_Path Model_Import Model_Type Model_IntoRs Model_Out Model_Token Model_Print Spec_Items Spec_Print
  Proof_Base Proof_Lex Proof_Print.

(** ** Other texts, same code *)
Notation same a b := (map blank a = map blank b).
Lemma same_app : forall a b c d, same a b -> same c d -> same (a ++ c) (b ++ d).
Proof. intros a b c d H1 H2. rewrite !map_app. now rewrite H1, H2. Qed.
Lemma same_each : forall {A} (f : A -> list tok) (h : A -> A) l, (forall a, In a l -> same (f (h a)) (f a)) -> same (each f (map h l)) (each f l).
Proof. intros A f h l H. induction l as [|a l IH]; [easy|]. cbn. apply same_app; [apply H; now left|apply IH; intros; apply H; now right]. Qed.
Lemma same_lit : forall a b, same (lit a) (lit b). Proof. easy. Qed.
Ltac same_all := repeat match goal with |- same (_ ++ _) (_ ++ _) => apply same_app end; try reflexivity.

Section texts.
  Variable f : str -> str.
  Lemma lookup_same : forall l, same (lookup_tokens (retext_lookup f l)) (lookup_tokens l).
  Proof.
    intros [i l]. unfold lookup_tokens, retext_lookup. cbn [lk_import lk_attrs].
    assert (H0 : same (rs "py.import_bound(::pyo3::intern!(py, " ++ lit (f i) ++ rs "))?") (rs "py.import_bound(::pyo3::intern!(py, " ++ lit i ++ rs "))?")) by same_all.
    revert H0. generalize (rs "py.import_bound(::pyo3::intern!(py, " ++ lit (f i) ++ rs "))?"), (rs "py.import_bound(::pyo3::intern!(py, " ++ lit i ++ rs "))?").
    induction l as [|a l IH]; intros x y H; [exact H|]. cbn [fold_left map]. apply IH. same_all. exact H.
  Qed.
  Lemma disp_same : forall d, same (disp_tokens (retext_disp f d)) (disp_tokens d).
  Proof. intros [|l]; [easy|]. apply lookup_same. Qed.
  Lemma kw_same : forall k, same (kw_tokens (retext_kw f k)) (kw_tokens k).
  Proof.
    assert (H : forall l, same (each item_tokens (map (retext_entry f) l)) (each item_tokens l)) by (intros l; apply same_each; intros [a b] _; unfold item_tokens; cbn [retext_entry fst snd]; same_all).
    intros [v|v l| |l]; cbn [retext_kw kw_tokens]; try reflexivity; same_all; apply H.
  Qed.
  Lemma body_same : forall d b, same (body_tokens (retext_disp f d) (retext_body f b)) (body_tokens d b).
  Proof.
    intros d b. pose proof (disp_same d) as Hd. destruct b as [[p k|p|]|m [p k|p|]|n|n v]; cbn [retext_body retext_args body_tokens call_tokens call_method_tokens];
      try pose proof (kw_same k) as Hk; try (same_all; assumption).
    destruct d; cbn [retext_disp] in *; same_all; assumption.
  Qed.
  Lemma fn_same : forall d, same (fn_tokens (retext_fn f d)) (fn_tokens d).
  Proof. intros d. unfold fn_tokens, retext_fn. cbn [f_contract f_let_py f_prep f_disp f_body]. same_all. apply body_same. Qed.
  Lemma frag_same : forall x, same (frag_tokens (retext f x)) (frag_tokens x).
  Proof.
    fix IH 1. intros x.
    assert (HL : forall l, (forall y, In y l -> same (frag_tokens (retext f y)) (frag_tokens y)) -> same (each frag_tokens (map (retext f) l)) (each frag_tokens l)) by (intros l; apply same_each).
    destruct x as [|s|a|d|k|i|l|n|n|n s|n l|n l|t n l|n l|m fl s]; cbn [retext frag_tokens]; try reflexivity;
      try (same_all; apply HL; clear HL; induction l as [|a l IHl]; intros y Hy; [destruct Hy|]; destruct Hy as [<- | Hy]; [apply IH|now apply IHl]).
    all: first [apply fn_same | unfold embed_tokens; same_all; fail].
  Qed.
  Lemma tokens_same : forall l, same (tokens (map (retext f) l)) (tokens l).
  Proof. intros l. apply same_each. intros; apply frag_same. Qed.

  Lemma retext_names : forall x, frag_names (retext f x) = frag_names x.
  Proof.
    fix IH 1. intros x. assert (HL : forall l, (forall y, In y l -> frag_names (retext f y) = frag_names y) -> flat_map frag_names (map (retext f) l) = flat_map frag_names l).
    { intros l Hl. induction l as [|a l IHl]; [easy|]. cbn. rewrite (Hl a) by now left. f_equal. apply IHl. intros; apply Hl; now right. }
    destruct x as [|s|a|d|k|i|l|n|n|n s|n l|n l|t n l|n l|m fl s]; cbn [retext frag_names]; try reflexivity;
      try (first [apply (f_equal (cons n)) | apply (f_equal (fun r => t :: n :: r))]; apply HL; clear HL; induction l as [|a l IHl]; intros y Hy; [destruct Hy|]; destruct Hy as [<- | Hy]; [apply IH|now apply IHl]).
    unfold fn_names, retext_fn. cbn [f_contract f_prep f_body]. do 2 f_equal.
    assert (Hk : forall k, kw_names (retext_kw f k) = kw_names k) by (intros [v|v l| |l]; cbn; rewrite ?map_map; reflexivity).
    destruct (f_body d) as [[p k|p|]|m [p k|p|]|n|n v]; cbn; now rewrite ?Hk.
  Qed.
  Lemma retext_all_names : forall l, flat_map frag_names (map (retext f) l) = flat_map frag_names l.
  Proof. induction l as [|x l IH]; [easy|]. cbn. now rewrite retext_names, IH. Qed.
End texts.

(** ** The test for [PyAny] on printed types *)
Definition tok_mentions (w : str) (t : tok) : bool := match t with TWord s | TNum s | TLit s => contains_str w s | _ => false end.
Definition no_lit (t : tok) : bool := match t with TLit _ => false | _ => true end.
Lemma contains_cut : forall w a c b, ~ In c w -> w <> [] -> contains_str w (a ++ c :: b) = contains_str w a || contains_str w b.
Proof.
  intros w a c b Hc Hw. apply eq_true_iff_eq. rewrite orb_true_iff, !contains_str_iff. split.
  - intros (p & q & E). revert a E. induction p as [|x p IH]; intros a E.
    + destruct (Nat.le_gt_cases (length w) (length a)) as [Hl | Hl].
      * left. exists [], (skipn (length w) a). cbn in E |- *. assert (E' : firstn (length w) (a ++ c :: b) = w) by (rewrite E, firstn_app, firstn_all, Nat.sub_diag; cbn; apply app_nil_r).
        rewrite firstn_app in E'. replace (length w - length a) with 0 in E' by lia. cbn in E'. rewrite app_nil_r in E'. rewrite <- E' at 1. symmetry. apply firstn_skipn.
      * exfalso. apply Hc. assert (E' : nth_error (a ++ c :: b) (length a) = Some c) by (rewrite nth_error_app2, Nat.sub_diag by lia; reflexivity).
        cbn in E. rewrite E, nth_error_app1 in E' by lia. now apply nth_error_In in E'.
    + destruct a as [|y a].
      * injection E as -> E. right. now exists p, q.
      * injection E as -> E. destruct (IH a E) as [(p' & q' & ->) | H]; [left; now exists (x :: p'), q'|now right].
  - intros [(p & q & ->) | (p & q & ->)].
    + exists p, (q ++ c :: b). now rewrite <- !app_assoc.
    + exists (a ++ c :: p), q. now rewrite <- app_assoc.
Qed.
Section mentions.
  Variable odd : char -> bool.
  Variable w : str.
  Hypothesis Hw : w <> [].
  Hypothesis Hs : forall c, In c w -> ascii_letter c = true.

  Lemma cut : forall a c b, ascii_letter c = false -> contains_str w (a ++ c :: b) = contains_str w a || contains_str w b.
  Proof. intros a c b H. apply contains_cut; [|exact Hw]. intros Hc. apply Hs in Hc. congruence. Qed.
  Lemma none : contains_str w [] = false.
  Proof. destruct w; [now destruct Hw|reflexivity]. Qed.
  Definition plain_tok (t : tok) : bool := match t with TLit _ => false | TPunct c _ => negb (ascii_letter c) | _ => true end.
  Lemma mention_from : forall l a, forallb plain_tok (a :: l) = true -> contains_str w (tok_text odd a ++ text_from odd a l) = existsb (tok_mentions w) (a :: l).
  Proof.
    induction l as [|b l IH]; intros a H; cbn [text_from].
    - rewrite app_nil_r. cbn [existsb]. rewrite orb_false_r. destruct a as [s|c j|s|s|d|d]; cbn [tok_text tok_mentions]; try reflexivity; try discriminate.
      + change [c] with ([] ++ c :: []). rewrite cut, none; [reflexivity|]. cbn in H. now destruct (ascii_letter c).
      + change [open_char d] with ([] ++ open_char d :: []). rewrite cut, none; [reflexivity|now destruct d].
      + change [close_char d] with ([] ++ close_char d :: []). rewrite cut, none; [reflexivity|now destruct d].
    - pose proof (IH b) as Kb. cbn [forallb] in H, Kb. apply andb_prop in H as [Ha H]. specialize (Kb H). apply andb_prop in H as [Hb _].
      change (existsb (tok_mentions w) (a :: b :: l)) with (tok_mentions w a || existsb (tok_mentions w) (b :: l)). rewrite <- Kb.
      assert (Hgap : contains_str w (gap a b ++ tok_text odd b ++ text_from odd b l) = contains_str w (tok_text odd b ++ text_from odd b l)).
      { assert (E : gap a b = [] \/ gap a b = [c_sp]) by (destruct a as [?|? []|?|?|[]|[]], b as [| | | | |[]]; cbn; auto).
        destruct E as [-> | ->]; [reflexivity|]. change ([c_sp] ++ ?x) with ([] ++ c_sp :: x). rewrite cut, none; reflexivity. }
      assert (Hone : forall c, ascii_letter c = false -> contains_str w ([c] ++ gap a b ++ tok_text odd b ++ text_from odd b l) = contains_str w (tok_text odd b ++ text_from odd b l)).
      { intros c Hc. change ([c] ++ ?x) with ([] ++ c :: x). now rewrite cut, none, Hgap. }
      assert (Hmany : forall s, gap a b = [c_sp] \/ gap a b = [] /\ (exists d, b = TClose d) -> contains_str w (s ++ gap a b ++ tok_text odd b ++ text_from odd b l) = contains_str w s || contains_str w (tok_text odd b ++ text_from odd b l)).
      { intros s [-> | [-> (d & ->)]].
        - change ([c_sp] ++ ?x) with (c_sp :: x). now rewrite cut.
        - cbn [app tok_text]. rewrite cut by now destruct d. f_equal. change (close_char d :: ?x) with ([] ++ close_char d :: x). rewrite cut, none by now destruct d. reflexivity. }
      destruct a as [s|c j|s|s|d|d]; cbn [tok_text tok_mentions]; try discriminate.
      + apply Hmany. destruct b as [| | | | |[]]; cbn; eauto.
      + cbn in Ha. rewrite Hone by now destruct (ascii_letter c). reflexivity.
      + apply Hmany. destruct b as [| | | | |[]]; cbn; eauto.
      + rewrite Hone by now destruct d. reflexivity.
      + rewrite Hone by now destruct d. reflexivity.
  Qed.
  Lemma mention_text : forall l, forallb plain_tok l = true -> contains_str w (text_of odd l) = existsb (tok_mentions w) l.
  Proof. intros [|a l] H; [exact none|]. now apply mention_from. Qed.
End mentions.

Lemma pyany_letters : forall c, In c py_any_text -> ascii_letter c = true.
Proof. intros c Hc. cbn in Hc. repeat (destruct Hc as [<- | Hc]; [reflexivity|]). easy. Qed.
Notation plain l := (forallb plain_tok l = true).
Notation said l := (existsb (tok_mentions py_any_text) l).
Lemma plain_app : forall a b, plain a -> plain b -> plain (a ++ b).
Proof. intros a b Ha Hb. now rewrite forallb_app, Ha, Hb. Qed.
Lemma abs_plain : forall p, plain (abs_path p) /\ said (abs_path p) = existsb (contains_str py_any_text) p.
Proof. induction p as [|s p [I1 I2]]; [easy|]. split; [exact I1|]. cbn [existsb]. rewrite <- I2. reflexivity. Qed.
Lemma local_plain : forall p, plain (local_path p) /\ said (local_path p) = existsb (contains_str py_any_text) p.
Proof.
  induction p as [|s p [I1 I2]]; [easy|]. destruct p as [|s' p]; [split; [easy|reflexivity]|].
  change (local_path (s :: s' :: p)) with (word s ++ rs "::" ++ local_path (s' :: p)). split; [now repeat apply plain_app|].
  rewrite !existsb_app, I2. cbn [existsb word tok_mentions]. rewrite orb_false_r. reflexivity.
Qed.
Lemma commas_plain : forall (l : list rty), (forall t, In t l -> plain (ty_tokens t) /\ said (ty_tokens t) = mentions_pyany t) ->
  plain (sep_by comma (map ty_tokens l)) /\ said (sep_by comma (map ty_tokens l)) = existsb mentions_pyany l.
Proof.
  intros l H. induction l as [|a l IH]; [easy|]. destruct (H a (or_introl eq_refl)) as [Ha1 Ha2]. destruct l as [|b l].
  - cbn [map sep_by existsb]. now rewrite orb_false_r.
  - destruct IH as [I1 I2]; [intros; apply H; now right|].
    change (sep_by comma (map ty_tokens (a :: b :: l))) with (ty_tokens a ++ comma ++ sep_by comma (map ty_tokens (b :: l))). split; [now repeat apply plain_app|].
    rewrite !existsb_app, Ha2, I2. reflexivity.
Qed.
Lemma angle_plain : forall (l : list rty), (forall t, In t l -> plain (ty_tokens t) /\ said (ty_tokens t) = mentions_pyany t) ->
  let a := match l with [] => [] | _ => rs "<" ++ sep_by comma (map ty_tokens l) ++ rs ">" end in plain a /\ said a = existsb mentions_pyany l.
Proof.
  intros l H. destruct (commas_plain l H) as [H1 H2]. destruct l as [|a l]; [easy|]. cbv zeta. split; [repeat apply plain_app; easy|].
  rewrite !existsb_app, H2. now rewrite orb_false_r.
Qed.
Lemma ty_plain : forall t, plain (ty_tokens t) /\ said (ty_tokens t) = mentions_pyany t.
Proof.
  fix IH 1. intros t.
  assert (HI : forall p (l : list rty), (forall t, In t l -> plain (ty_tokens t) /\ said (ty_tokens t) = mentions_pyany t) ->
    let a := rs "impl" ++ abs_path p ++ match l with [] => [] | _ => rs "<" ++ sep_by comma (map ty_tokens l) ++ rs ">" end in plain a /\ said a = existsb (contains_str py_any_text) p || existsb mentions_pyany l).
  { intros p l Hl. destruct (abs_plain p) as [P1 P2], (angle_plain l Hl) as [A1 A2]. cbv zeta in *. split; [repeat apply plain_app; easy|]. rewrite !existsb_app, P2, A2. reflexivity. }
  destruct t as [s|t|t|t|l|p l|t|p|p l]; cbn [ty_tokens mentions_pyany].
  - split; [easy|]. cbn. apply orb_false_r.
  - destruct (IH t) as [H1 H2]. split; [repeat apply plain_app; easy|]. rewrite !existsb_app, H2. apply orb_false_r.
  - destruct (IH t) as [H1 H2]. split; [repeat apply plain_app; easy|]. rewrite !existsb_app, H2. apply orb_false_r.
  - destruct (IH t) as [H1 H2]. split; [repeat apply plain_app; easy|]. rewrite !existsb_app, H2. reflexivity.
  - destruct (commas_plain l) as [H1 H2]; [clear HI; induction l as [|a l IHl]; intros t Ht; [destruct Ht|]; destruct Ht as [<- | Ht]; [apply IH|now apply IHl]|].
    split; [repeat apply plain_app; easy|]. rewrite !existsb_app, H2. apply orb_false_r.
  - destruct (angle_plain l) as [H1 H2]; [clear HI; induction l as [|a l IHl]; intros t Ht; [destruct Ht|]; destruct Ht as [<- | Ht]; [apply IH|now apply IHl]|].
    cbv zeta in *. destruct (abs_plain p) as [P1 P2]. split; [apply plain_app; easy|]. now rewrite existsb_app, P2, H2.
  - destruct (IH t) as [H1 H2]. assert (Ht : plain (trailing t) /\ said (trailing t) = false) by (destruct t as [| | | | |? [|? [|? []]]| | |]; easy). destruct Ht as [T1 T2].
    split; [repeat apply plain_app; easy|]. rewrite !existsb_app, H2, T2. cbn. apply orb_false_r.
  - destruct (local_plain (segs p)) as [P1 P2]. split; [apply plain_app; [now destruct (leading_colon p)|easy]|]. rewrite existsb_app, P2. now destruct (leading_colon p).
  - assert (Hl : forall t, In t l -> plain (ty_tokens t) /\ said (ty_tokens t) = mentions_pyany t) by (clear HI; induction l as [|a l IHl]; intros t Ht; [destruct Ht|]; destruct Ht as [<- | Ht]; [apply IH|now apply IHl]).
    pose proof (HI p l Hl) as Hgen. cbv zeta in Hgen.
    destruct l as [|a [|b l]]; [exact Hgen| |destruct a as [| | | | |? [|? []]| | |]; exact Hgen].
    destruct a as [| | | | |q [|t [|]]| | |]; try exact Hgen. clear Hgen HI.
    destruct (Hl _ (or_introl eq_refl)) as [L1 L2]. cbn [ty_tokens mentions_pyany map sep_by] in L1, L2. destruct (abs_plain p) as [P1 P2], (abs_plain q) as [Q1 Q2].
    rewrite !forallb_app in L1. rewrite !existsb_app, Q2 in L2.
    apply andb_prop in L1 as [_ L1]. apply andb_prop in L1 as [_ L1]. apply andb_prop in L1 as [L1 _]. split; [repeat apply plain_app; easy|].
    rewrite !existsb_app, P2, Q2. change (existsb mentions_pyany [RAbs q [t]]) with ((existsb (contains_str py_any_text) q || existsb mentions_pyany [t]) || false).
    rewrite <- L2. change (said (rs "impl")) with false. change (said (rs "<")) with false. change (said (rs ">")) with false. change (said (rs ">>")) with false.
    cbn [orb]. now rewrite !orb_false_r.
Qed.
Theorem pyany_text : forall odd t, contains_str py_any_text (text_of odd (ty_tokens t)) = mentions_pyany t.
Proof. intros odd t. destruct (ty_plain t) as [H1 H2]. rewrite mention_text; [exact H2|discriminate|exact pyany_letters|exact H1]. Qed.
