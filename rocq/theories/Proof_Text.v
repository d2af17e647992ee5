From Verif Require Import Base Model_Text Spec_Text Proof_Base.

(** ** Termination *)
Lemma strip_slashes_total : forall n s, length s < n -> exists r, strip_slashes n s = Ok r.
Proof.
  induction n as [|n IH]; intros s H; [lia|]. cbn [strip_slashes].
  destruct (strip_suffix [c_slash] s) as [t|] eqn:E; [|eauto].
  apply strip_suffix_Some in E. subst. rewrite app_length in H. cbn in H.
  apply IH. pose proof (trim_end_length t). lia.
Qed.

Lemma format_docstring_total : forall doc, exists out, format_docstring doc = Ok out.
Proof.
  intros doc. unfold format_docstring.
  destruct (strip_slashes_total (S (length (join [c_nl] (map trim (lines doc))))) (join [c_nl] (map trim (lines doc)))) as [r Hr]; [lia|].
  rewrite Hr. cbn. eauto.
Qed.

(** ** Trailing slashes: the result is a prefix, what is removed is slashes and white space *)
Lemma trim_end_prefix : forall s, exists w, s = trim_end s ++ w /\ blank w.
Proof.
  intros s. unfold trim_end. destruct (drop_while_suffix is_ws (rev s)) as (p & Hp & Hf).
  exists (rev p). split.
  - rewrite <- (rev_involutive s) at 1. rewrite Hp at 1. now rewrite rev_app_distr.
  - intros c Hc. rewrite forallb_forall in Hf. apply Hf. now apply in_rev.
Qed.

Lemma trim_end_last : forall s, trim_end s = [] \/ exists t c, trim_end s = t ++ [c] /\ is_ws c = false.
Proof.
  intros s. unfold trim_end. induction (rev s) as [|c r IH]; [now left|].
  cbn [drop_while]. destruct (is_ws c) eqn:E; [easy|]. right. cbn [rev]. eauto.
Qed.

Lemma words_app : forall a b, words (a ++ b) = words a ++ words b.
Proof. intros. apply filter_app. Qed.
Lemma words_blank : forall w, blank w -> words w = [].
Proof.
  induction w as [|c w IH]; intros H; [easy|]. cbn. unfold is_word_char at 1.
  rewrite (H c (or_introl eq_refl)). cbn. apply IH. intros x Hx. apply H. now right.
Qed.

Definition slash_char : char := 47%N.

Lemma strip_slashes_spec : forall n s r, strip_slashes n s = Ok r ->
  (exists w, s = r ++ w) /\ (exists k, words s = words r ++ repeat slash_char k) /\
  (r = s \/ r = [] \/ exists t c, r = t ++ [c] /\ is_ws c = false) /\
  (r <> s -> exists t, s = t ++ [slash_char]).
Proof.
  induction n as [|n IH]; intros s r H; [easy|]. cbn [strip_slashes] in H.
  destruct (strip_suffix [c_slash] s) as [t|] eqn:E.
  - apply strip_suffix_Some in E.
    destruct (trim_end_prefix t) as (w & Hw & Hb).
    destruct (IH _ _ H) as ((w2 & Hw2) & (k & Hk) & Hl & _).
    split; [|split; [|split]].
    + exists (w2 ++ w ++ [c_slash]). rewrite E. rewrite app_assoc, <- Hw2, app_assoc, <- Hw. easy.
    + exists (k + 1). rewrite E, Hw, !words_app, Hk, (words_blank w Hb), app_nil_r.
      rewrite repeat_app, app_assoc. easy.
    + destruct Hl as [Hl|Hl]; [|now right]. right. rewrite Hl. apply trim_end_last.
    + intros _. exists t. easy.
  - injection H as <-. split; [exists []; now rewrite app_nil_r|]. split; [exists 0; now rewrite app_nil_r|].
    split; [now left|easy].
Qed.

(** ** dedup *)
Lemma dedup_In : forall pred s prev c, In c s -> In c (dedup_from pred prev s) \/ prev = Some c.
Proof.
  induction s as [|x s IH]; intros prev c H; [easy|]. cbn [dedup_from].
  destruct (pred x) eqn:Ep.
  - destruct (option_eqb N.eqb (Some x) prev) eqn:E.
    + apply (option_eqb_eq N.eqb N.eqb_eq) in E. subst prev.
      destruct H as [<-|H]; [now right|]. destruct (IH (Some x) c H) as [H'|H']; [now left|now right].
    + left. destruct H as [<-|H]; [now left|]. destruct (IH (Some x) c H) as [H'|H'].
      * now right.
      * injection H' as ->. now left.
  - left. destruct H as [<-|H]; [now left|]. destruct (IH None c H) as [H'|H']; [now right|easy].
Qed.

Lemma dedup_sub : forall pred s prev c, In c (dedup_from pred prev s) -> In c s.
Proof.
  induction s as [|x s IH]; intros prev c H; [easy|]. cbn [dedup_from] in H.
  destruct (pred x).
  - destruct (option_eqb N.eqb (Some x) prev).
    + right. eauto.
    + destruct H as [<-|H]; [now left|right; eauto].
  - destruct H as [<-|H]; [now left|right; eauto].
Qed.

Lemma dedup_words : forall pred, (forall c, pred c = true -> is_word_char c = false) ->
  forall s prev, words (dedup_from pred prev s) = words s.
Proof.
  intros pred Hp. induction s as [|x s IH]; intros prev; [easy|]. cbn [dedup_from].
  destruct (pred x) eqn:Ep.
  - destruct (option_eqb N.eqb (Some x) prev).
    + cbn. rewrite (Hp x Ep). apply IH.
    + unfold words in *. cbn [filter]. rewrite (Hp x Ep). apply IH.
  - unfold words in *. cbn [filter]. rewrite IH. easy.
Qed.

(** No two adjacent equal characters satisfying the predicate. *)
Fixpoint no_double (pred : char -> bool) (s : str) : bool :=
  match s with
  | a :: t => match t with
              | b :: _ => negb (pred a && (a =? b)%N) && no_double pred t
              | [] => true
              end
  | [] => true
  end.

Lemma no_double_cons : forall pred a s, no_double pred s = true ->
  (forall b t, s = b :: t -> pred a = true -> a <> b) -> no_double pred (a :: s) = true.
Proof.
  intros pred a s H Hb. destruct s as [|b t]; [easy|].
  change (negb (pred a && (a =? b)%N) && no_double pred (b :: t) = true). rewrite H, andb_true_r.
  destruct (pred a) eqn:E; [|easy]. cbn. specialize (Hb b t eq_refl eq_refl).
  destruct (N.eqb_spec a b); easy.
Qed.

Lemma no_double_tail : forall pred a s, no_double pred (a :: s) = true -> no_double pred s = true.
Proof. intros pred a [|b s] H; [easy|]. cbn in H. apply andb_prop in H as [_ H]. easy. Qed.

Lemma dedup_no_double : forall pred s prev, no_double pred (dedup_from pred prev s) = true /\
  (forall b t, dedup_from pred prev s = b :: t -> pred b = true -> prev <> Some b).
Proof.
  induction s as [|x s IH]; intros prev; [easy|]. cbn [dedup_from].
  destruct (pred x) eqn:Ep.
  - destruct (option_eqb N.eqb (Some x) prev) eqn:E.
    + apply (option_eqb_eq N.eqb N.eqb_eq) in E. subst prev. apply IH.
    + destruct (IH (Some x)) as [H1 H2]. split.
      * apply no_double_cons; [easy|]. intros b t Hb Hx Heq. subst b.
        apply (H2 x t Hb Hx). easy.
      * intros b t Hb _ Heq. injection Hb as -> _. subst prev.
        cbn in E. rewrite N.eqb_refl in E. easy.
  - destruct (IH None) as [H1 H2]. split.
    + apply no_double_cons; [easy|]. intros b t Hb Hx. congruence.
    + intros b t Hb Hpb Heq. injection Hb as -> _. congruence.
Qed.

Lemma no_double_app_l : forall pred a b, no_double pred (a ++ b) = true -> no_double pred a = true.
Proof.
  induction a as [|x a IH]; intros b H; [easy|].
  destruct a as [|y a]; [easy|].
  change (negb (pred x && (x =? y)%N) && no_double pred ((y :: a) ++ b) = true) in H.
  apply andb_prop in H as [H1 H2].
  change (negb (pred x && (x =? y)%N) && no_double pred (y :: a) = true).
  rewrite H1. cbn [andb]. eapply IH. exact H2.
Qed.

Lemma no_double_app_r : forall pred a b, no_double pred (a ++ b) = true -> no_double pred b = true.
Proof. induction a as [|x a IH]; intros b H; [easy|]. apply IH. eapply no_double_tail. exact H. Qed.

Lemma no_double_snoc : forall pred a c, pred c = false -> no_double pred a = true -> no_double pred (a ++ [c]) = true.
Proof.
  induction a as [|x a IH]; intros c Hc H; [easy|]. cbn [app]. apply no_double_cons.
  - apply IH; [easy|]. eapply no_double_tail. exact H.
  - intros b t Hb Hx. destruct a as [|y a].
    + cbn in Hb. injection Hb as <- _. congruence.
    + cbn in Hb. injection Hb as <- _.
      change (negb (pred x && (x =? y)%N) && no_double pred (y :: a) = true) in H.
      apply andb_prop in H as [H _]. rewrite Hx in H. cbn in H. destruct (N.eqb_spec x y); easy.
Qed.

Lemma no_double_tick_substr : forall s, no_double pred_tick s = true -> contains_str [96; 96]%N s = false.
Proof.
  intros s H. destruct (contains_str [96; 96]%N s) eqn:E; [|easy]. exfalso.
  apply contains_str_iff in E as (a & b & ->).
  apply no_double_app_r in H. cbn in H. easy.
Qed.

(** ** Line starts: no line starts with white space *)
Fixpoint ok_from (bol : bool) (s : str) : bool :=
  match s with
  | [] => true
  | c :: t => negb (bol && pred_ws c) && ok_from (c =? c_nl)%N t
  end.

Lemma ok_from_weaken : forall s b, ok_from true s = true -> ok_from b s = true.
Proof.
  intros [|c s] b H; [easy|]. cbn in *. apply andb_prop in H as [H1 H2]. rewrite H2, andb_true_r.
  destruct b; [easy|]. easy.
Qed.

Lemma ok_from_app_l : forall a b bol, ok_from bol (a ++ b) = true -> ok_from bol a = true.
Proof.
  induction a as [|x a IH]; intros b bol H; [easy|]. cbn in *. apply andb_prop in H as [H1 H2].
  rewrite H1. cbn. eauto.
Qed.

Lemma ok_from_app_nl : forall a b bol, ok_from bol (a ++ c_nl :: b) = true -> ok_from true b = true.
Proof.
  induction a as [|x a IH]; intros b bol H.
  - cbn in H. apply andb_prop in H as [_ H]. easy.
  - cbn in H. apply andb_prop in H as [_ H]. eauto.
Qed.

Lemma ok_from_snoc_nl : forall a bol, ok_from bol a = true -> ok_from bol (a ++ [c_nl]) = true.
Proof.
  induction a as [|x a IH]; intros bol H.
  - cbn. unfold pred_ws. cbn. now destruct bol.
  - cbn in *. apply andb_prop in H as [H1 H2]. rewrite H1. cbn. auto.
Qed.

Lemma ok_from_join : forall l,
  (forall x, In x l -> ~ In c_nl x /\ (forall c t, x = c :: t -> pred_ws c = false)) ->
  ok_from true (join [c_nl] l) = true.
Proof.
  assert (Hline : forall x r bol, ~ In c_nl x -> (bol = true -> forall c t, x = c :: t -> pred_ws c = false) ->
            ok_from true r = true -> ok_from bol (x ++ c_nl :: r) = true).
  { induction x as [|c x IH]; intros r bol Hn Hs Hr.
    - cbn [app ok_from]. rewrite N.eqb_refl, Hr, andb_true_r. change (pred_ws c_nl) with false. now rewrite andb_false_r.
    - cbn [app ok_from]. destruct (N.eqb_spec c c_nl) as [->|Hc]; [exfalso; apply Hn; now left|].
      rewrite (IH r false); [|intros H; apply Hn; now right|easy|easy].
      rewrite andb_true_r. destruct bol; [|easy]. now rewrite (Hs eq_refl c x eq_refl). }
  assert (Hline0 : forall x bol, ~ In c_nl x -> (bol = true -> forall c t, x = c :: t -> pred_ws c = false) ->
            ok_from bol x = true).
  { induction x as [|c x IH]; intros bol Hn Hs; [easy|].
    cbn [ok_from]. destruct (N.eqb_spec c c_nl) as [->|Hc]; [exfalso; apply Hn; now left|].
    rewrite (IH false); [|intros H; apply Hn; now right|easy].
    rewrite andb_true_r. destruct bol; [|easy]. now rewrite (Hs eq_refl c x eq_refl). }
  induction l as [|x l IH]; intros H; [easy|].
  destruct (H x (or_introl eq_refl)) as [H1 H2].
  destruct l as [|y l].
  - cbn [join]. apply Hline0; auto.
  - rewrite join_cons. cbn [app]. apply Hline; auto. apply IH. intros z Hz. apply H. now right.
Qed.

Lemma ok_from_dedup : forall pred, pred c_nl = false ->
  forall s prev bol, ok_from bol s = true -> (forall c, prev = Some c -> bol = false) ->
  ok_from bol (dedup_from pred prev s) = true.
Proof.
  intros pred Hp. induction s as [|x s IH]; intros prev bol H Hb; [easy|].
  cbn [ok_from] in H. apply andb_prop in H as [H1 H2]. cbn [dedup_from].
  destruct (pred x) eqn:Ep.
  - assert (Hx : (x =? c_nl)%N = false) by (destruct (N.eqb_spec x c_nl); congruence).
    destruct (option_eqb N.eqb (Some x) prev) eqn:E.
    + apply (option_eqb_eq N.eqb N.eqb_eq) in E. subst prev. rewrite (Hb x eq_refl) in *.
      apply IH; [|easy]. now rewrite Hx in H2.
    + cbn [ok_from]. rewrite H1. cbn. apply IH; [easy|]. easy.
  - cbn [ok_from]. rewrite H1. cbn. apply IH; [easy|]. easy.
Qed.

Lemma drop_leading_nl_ok : forall s, ok_from true s = true -> ok_from true (drop_leading_nl s) = true.
Proof.
  induction s as [|c s IH]; intros H; [easy|]. unfold drop_leading_nl in *. cbn [drop_while].
  destruct (N.eqb_spec c c_nl) as [->|Hc]; [|easy].
  apply IH. cbn [ok_from] in H. apply andb_prop in H as [_ H]. easy.
Qed.

Lemma drop_leading_nl_suffix : forall s, exists p, s = p ++ drop_leading_nl s /\ (forall c, In c p -> c = c_nl).
Proof.
  intros s. unfold drop_leading_nl. destruct (drop_while_suffix (fun c => (c =? c_nl)%N) s) as (p & H & Hf).
  exists p. split; [easy|]. intros c Hc. rewrite forallb_forall in Hf. apply N.eqb_eq. now apply Hf.
Qed.

Lemma pop_nl_rev_suffix : forall r, exists p, r = p ++ pop_nl_rev r /\ (forall c, In c p -> c = c_nl).
Proof.
  induction r as [|a t IH]; [exists []; easy|].
  cbn [pop_nl_rev]. destruct t as [|b t']; [exists []; easy|].
  destruct ((a =? c_nl) && (b =? c_nl))%N eqn:E; [|exists []; easy].
  destruct IH as (p & Hp & Hf). exists (a :: p). split; [change ((a :: p) ++ pop_nl_rev (b :: t')) with (a :: p ++ pop_nl_rev (b :: t')); now rewrite <- Hp|].
  intros c [<-|Hc]; [|auto]. apply andb_prop in E as [E _]. now apply N.eqb_eq.
Qed.

Lemma pop_nl_rev_head : forall r, (exists t, r = c_nl :: t) ->
  exists t, pop_nl_rev r = c_nl :: t /\ (forall t', t <> c_nl :: t').
Proof.
  induction r as [|a t IH]; intros [t0 H]; [easy|]. injection H as -> _.
  cbn [pop_nl_rev]. destruct t as [|b t'].
  - exists []. easy.
  - rewrite N.eqb_refl. cbn [andb]. destruct (N.eqb_spec b c_nl) as [->|Hb].
    + apply IH. eauto.
    + exists (b :: t'). split; [easy|]. intros t'' H. injection H as ->. easy.
Qed.


Lemma end_with_one_nl_shape : forall s, exists v, end_with_one_nl s = v ++ [c_nl] /\
  (forall v', v <> v' ++ [c_nl]) /\ (exists w, s = v ++ w /\ forall c, In c w -> c = c_nl).
Proof.
  intros s. unfold end_with_one_nl. destruct (ends_with [c_nl] s) eqn:E.
  - apply ends_with_iff in E as [t ->].
    destruct (pop_nl_rev_head (rev (t ++ [c_nl]))) as (q & Hq & Hq2); [rewrite rev_app_distr; cbn; eauto|].
    destruct (pop_nl_rev_suffix (rev (t ++ [c_nl]))) as (p & Hp & Hf).
    rewrite Hq in *. cbn [rev]. exists (rev q). split; [easy|]. split.
    + intros v' Hv. apply (f_equal (@rev N)) in Hv. rewrite rev_involutive, rev_app_distr in Hv. cbn in Hv.
      now apply (Hq2 (rev v')).
    + exists ([c_nl] ++ rev p). apply (f_equal (@rev N)) in Hp. rewrite rev_involutive, rev_app_distr in Hp.
      cbn [rev] in Hp. rewrite Hp. rewrite <- app_assoc. split; [easy|].
      intros c [<-|Hc]; [easy|]. apply Hf. now apply in_rev.
  - exists s. split; [easy|]. split.
    + intros v' Hv. subst s. rewrite ends_with_app in E. easy.
    + exists []. rewrite app_nil_r. split; easy.
Qed.

(** Facts about the first stage *)
Lemma strip_cr_prefix : forall x, exists w, x = strip_cr x ++ w /\ blank w.
Proof.
  intros x. unfold strip_cr. destruct (strip_suffix [c_cr] x) as [t|] eqn:E.
  - apply strip_suffix_Some in E. exists [c_cr]. split; [easy|]. intros c [<-|[]]. easy.
  - exists []. rewrite app_nil_r. split; easy.
Qed.

Lemma lines_of_nl : forall ps, (forall p, In p ps -> ~ In c_nl p) ->
  forall x, In x (lines_of ps) -> ~ In c_nl x.
Proof.
  induction ps as [|p ps IH]; intros H x Hx; [easy|]. cbn [lines_of] in Hx.
  destruct ps as [|q ps].
  - destruct p; [easy|]. destruct Hx as [<-|[]]. apply H. now left.
  - destruct Hx as [<-|Hx].
    + intros Hc. destruct (strip_cr_prefix p) as (w & Hw & _). apply (H p); [now left|].
      rewrite Hw. apply in_or_app. now left.
    + apply IH; [|easy]. intros z Hz. apply H. now right.
Qed.

Lemma trim_start_props : forall x c t, trim x = c :: t -> is_ws c = false.
Proof.
  intros x c t H. unfold trim in H.
  destruct (trim_end_prefix (trim_start x)) as (w & Hw & _). rewrite H in Hw. cbn in Hw.
  unfold trim_start in Hw. clear H. induction x as [|a x IH]; [easy|].
  cbn in Hw. destruct (is_ws a) eqn:E; [auto|]. injection Hw as -> _. easy.
Qed.

Lemma trim_sub : forall x c, In c (trim x) -> In c x.
Proof.
  intros x c H. destruct (trim_decomp x) as (p & q & -> & _). apply in_or_app. right. apply in_or_app. now left.
Qed.

Lemma stage1_ok : forall doc, ok_from true (join [c_nl] (map trim (lines doc))) = true.
Proof.
  intros doc. apply ok_from_join. intros x Hx. apply in_map_iff in Hx as (y & <- & Hy). split.
  - intros Hc. apply trim_sub in Hc. revert Hc. apply (lines_of_nl (split_char c_nl doc)); [|easy].
    intros p Hp. now apply (split_char_no_sep c_nl doc).
  - intros c t Hct. apply trim_start_props in Hct. unfold pred_ws. now rewrite Hct.
Qed.

Lemma words_trim : forall x, words (trim x) = words x.
Proof.
  intros x. destruct (trim_decomp x) as (p & q & Hx & Hp & Hq). rewrite Hx at 2. rewrite !words_app.
  rewrite (words_blank p), (words_blank q), app_nil_r; [easy| |];
  intros c Hc; [rewrite forallb_forall in Hq; auto|rewrite forallb_forall in Hp; auto].
Qed.

Lemma words_join_nl : forall l, words (join [c_nl] l) = concat (map words l).
Proof.
  induction l as [|x l IH]; [easy|]. destruct l as [|y l].
  - cbn [join map concat]. now rewrite app_nil_r.
  - rewrite join_cons, !words_app, IH. easy.
Qed.

Lemma words_lines_of : forall ps, concat (map words (map trim (lines_of ps))) = concat (map words ps).
Proof.
  induction ps as [|p ps IH]; [easy|]. cbn [lines_of]. destruct ps as [|q ps].
  - destruct p; [easy|]. cbn [map concat]. now rewrite words_trim.
  - cbn [map concat] in *. rewrite IH. f_equal. rewrite words_trim.
    destruct (strip_cr_prefix p) as (w & Hw & Hb). rewrite Hw at 2. now rewrite words_app, (words_blank w Hb), app_nil_r.
Qed.

Lemma stage1_words : forall doc, words (join [c_nl] (map trim (lines doc))) = words doc.
Proof.
  intros doc. rewrite words_join_nl. unfold lines. rewrite words_lines_of, <- words_join_nl.
  now rewrite join_split_char.
Qed.

Lemma stage1_slash : forall ps t, join [c_nl] (map trim (lines_of ps)) = t ++ [slash_char] ->
  exists t' w, join [c_nl] ps = t' ++ [slash_char] ++ w /\ blank w.
Proof.
  induction ps as [|p ps IH]; intros t H; [now destruct t|]. cbn [lines_of] in H.
  destruct ps as [|q ps].
  - destruct p as [|c p]; [now destruct t|]. cbn [map join] in *.
    destruct (trim_decomp (c :: p)) as (a & b & Hx & _ & Hb). rewrite H in Hx.
    exists (a ++ t), b. rewrite Hx. rewrite <- !app_assoc. split; [easy|].
    intros z Hz. rewrite forallb_forall in Hb. auto.
  - destruct (lines_of (q :: ps)) as [|y ys] eqn:El.
    + cbn [map join] in H.
      assert (Hq : q = [] /\ ps = []).
      { cbn [lines_of] in El. destruct ps; [destruct q; easy|easy]. }
      destruct Hq as [-> ->]. cbn [join].
      destruct (strip_cr_prefix p) as (w & Hw & Hwb).
      destruct (trim_decomp (strip_cr p)) as (a & b & Hx & _ & Hb). rewrite H in Hx.
      exists (a ++ t), (b ++ w ++ [c_nl]). split.
      * rewrite Hw. rewrite Hx. rewrite app_nil_r. rewrite <- !app_assoc. easy.
      * intros z Hz. apply in_app_or in Hz as [Hz|Hz]; [rewrite forallb_forall in Hb; auto|].
        apply in_app_or in Hz as [Hz|[<-|[]]]; [auto|easy].
    + cbn [map] in H. rewrite join_cons in H.
      destruct (join [c_nl] (trim y :: map trim ys)) as [|c0 r0] eqn:Ej.
      * rewrite app_nil_r in H. apply app_inj_tail in H as [_ H]. easy.
      * destruct (@exists_last _ (c0 :: r0)) as (t1 & z1 & Hz1); [easy|].
        rewrite Hz1 in *. rewrite !app_assoc in H. apply app_inj_tail in H as [_ ->].
        destruct (IH t1) as (t' & w & Ht' & Hw); [easy|].
        exists (p ++ [c_nl] ++ t'), w. split; [|easy].
        rewrite join_cons, Ht'. now rewrite <- !app_assoc.
Qed.

(** ** Assembly *)
Lemma format_stages : forall doc out, format_docstring doc = Ok out ->
  exists s1 s2, s1 = join [c_nl] (map trim (lines doc)) /\ strip_slashes (S (length s1)) s1 = Ok s2 /\
  let s4 := conditioned_dedup pred_tick (conditioned_dedup pred_ws s2) in
  out = c_sp :: (if contains_char c_nl s4 then end_with_one_nl (drop_leading_nl s4) else s4).
Proof.
  intros doc out H. unfold format_docstring in H.
  destruct (strip_slashes (S (length (join [c_nl] (map trim (lines doc))))) (join [c_nl] (map trim (lines doc)))) as [s2| | |] eqn:E; try easy.
  cbn [obind] in H. injection H as <-. eexists _, s2. split; [reflexivity|]. split; [exact E|]. easy.
Qed.

Lemma pred_ws_word : forall c, pred_ws c = true -> is_word_char c = false.
Proof. intros c H. unfold pred_ws in H. apply andb_prop in H as [H _]. unfold is_word_char. now rewrite H. Qed.
Lemma pred_tick_word : forall c, pred_tick c = true -> is_word_char c = false.
Proof. intros c H. unfold pred_tick, c_tick in H. unfold is_word_char. rewrite H. now rewrite andb_false_r. Qed.

Lemma words_all_nl : forall p, (forall c, In c p -> c = c_nl) -> words p = [].
Proof. intros p H. apply words_blank. intros c Hc. rewrite (H c Hc). easy. Qed.

Lemma words_final : forall s, words (if contains_char c_nl s then end_with_one_nl (drop_leading_nl s) else s) = words s.
Proof.
  intros s. destruct (contains_char c_nl s); [|easy].
  destruct (end_with_one_nl_shape (drop_leading_nl s)) as (v & Hv & _ & w & Hw & Hwn).
  rewrite Hv, words_app. destruct (drop_leading_nl_suffix s) as (p & Hp & Hpn).
  rewrite Hp at 1. rewrite Hw at 1. rewrite !words_app, (words_all_nl p Hpn), (words_all_nl w Hwn). easy.
Qed.

Lemma format_words : forall doc out, format_docstring doc = Ok out ->
  exists k, words doc = words out ++ repeat slash_char k.
Proof.
  intros doc out H. apply format_stages in H as (s1 & s2 & -> & Hs & Ho). cbn zeta in Ho.
  destruct (strip_slashes_spec _ _ _ Hs) as (_ & (k & Hk) & _).
  exists k. rewrite stage1_words in Hk. rewrite Hk. f_equal. rewrite Ho.
  change (words s2 = words (if contains_char c_nl (conditioned_dedup pred_tick (conditioned_dedup pred_ws s2))
     then end_with_one_nl (drop_leading_nl (conditioned_dedup pred_tick (conditioned_dedup pred_ws s2)))
     else conditioned_dedup pred_tick (conditioned_dedup pred_ws s2))).
  rewrite words_final. unfold conditioned_dedup.
  rewrite dedup_words by apply pred_tick_word. rewrite dedup_words by apply pred_ws_word. easy.
Qed.

Lemma format_words_exact : forall doc out, format_docstring doc = Ok out ->
  (forall t w, blank w -> doc <> t ++ [slash_char] ++ w) -> words out = words doc.
Proof.
  intros doc out H Hn. apply format_stages in H as (s1 & s2 & -> & Hs & Ho). cbn zeta in Ho.
  destruct (strip_slashes_spec _ _ _ Hs) as (_ & _ & _ & Hne).
  assert (E : s2 = join [c_nl] (map trim (lines doc))).
  { destruct (str_dec s2 (join [c_nl] (map trim (lines doc)))) as [E|E]; [easy|]. exfalso.
    apply Hne in E as [t Ht]. apply stage1_slash in Ht as (t' & w & Ht & Hw).
    rewrite join_split_char in Ht. now apply (Hn t' w). }
  rewrite Ho.
  change (words (if contains_char c_nl (conditioned_dedup pred_tick (conditioned_dedup pred_ws s2))
     then end_with_one_nl (drop_leading_nl (conditioned_dedup pred_tick (conditioned_dedup pred_ws s2)))
     else conditioned_dedup pred_tick (conditioned_dedup pred_ws s2)) = words doc).
  rewrite words_final. unfold conditioned_dedup.
  rewrite dedup_words by apply pred_tick_word. rewrite dedup_words by apply pred_ws_word.
  rewrite E. apply stage1_words.
Qed.

Lemma final_ok : forall s, ok_from true s = true ->
  ok_from true (if contains_char c_nl s then end_with_one_nl (drop_leading_nl s) else s) = true.
Proof.
  intros s H. destruct (contains_char c_nl s); [|easy].
  apply drop_leading_nl_ok in H.
  destruct (end_with_one_nl_shape (drop_leading_nl s)) as (v & Hv & _ & w & Hw & _).
  rewrite Hv. apply ok_from_snoc_nl. rewrite Hw in H. now apply ok_from_app_l in H.
Qed.

Lemma final_no_double : forall s, no_double pred_tick s = true ->
  no_double pred_tick (if contains_char c_nl s then end_with_one_nl (drop_leading_nl s) else s) = true.
Proof.
  intros s H. destruct (contains_char c_nl s); [|easy].
  destruct (drop_leading_nl_suffix s) as (p & Hp & _).
  destruct (end_with_one_nl_shape (drop_leading_nl s)) as (v & Hv & _ & w & Hw & _).
  rewrite Hv. apply no_double_snoc; [easy|]. rewrite Hp in H. apply no_double_app_r in H. rewrite Hw in H.
  now apply no_double_app_l in H.
Qed.

Lemma format_inv : forall doc out, format_docstring doc = Ok out ->
  exists r, out = c_sp :: r /\ ok_from true r = true /\ no_double pred_tick r = true.
Proof.
  intros doc out H. apply format_stages in H as (s1 & s2 & -> & Hs & ->). cbn zeta.
  destruct (strip_slashes_spec _ _ _ Hs) as ((w & Hw) & _).
  eexists. split; [reflexivity|].
  assert (H2 : ok_from true s2 = true).
  { pose proof (stage1_ok doc) as Hok. rewrite Hw in Hok. now apply ok_from_app_l in Hok. }
  split.
  - apply final_ok. apply ok_from_dedup; [easy| |easy]. apply ok_from_dedup; [easy|easy|easy].
  - apply final_no_double. apply dedup_no_double.
Qed.

Lemma ok_line_start : forall r bol a l b, ok_from bol r = true -> r = a ++ l ++ b ->
  (a = [] /\ bol = true) \/ (exists a', a = a' ++ [c_nl]) ->
  forall c t, l = c :: t -> pred_ws c = false.
Proof.
  intros r bol a l b H E Ha c t ->. destruct Ha as [[-> ->]|[a' ->]].
  - subst r. cbn in H. apply andb_prop in H as [H _]. now apply negb_true_iff.
  - subst r. rewrite <- app_assoc in H. cbn [app] in H. apply ok_from_app_nl in H.
    cbn in H. apply andb_prop in H as [H _]. now apply negb_true_iff.
Qed.

Lemma pred_ws_blank : pred_ws 32%N = true.
Proof. easy. Qed.
Lemma pred_ws_tab : pred_ws 9%N = true.
Proof. easy. Qed.

Lemma starts_with_cons : forall x p s, starts_with (x :: p) s = true -> exists t, s = x :: t /\ starts_with p t = true.
Proof.
  intros x p s H. apply starts_with_iff in H as [t ->]. exists (p ++ t). split; [easy|apply starts_with_app].
Qed.

(** A line that does not start with white space. *)
Lemma line_safe : forall l, (forall c t, l = c :: t -> pred_ws c = false) ->
  skip_blanks 3 l = l /\ starts_with [9]%N l = false /\ starts_with [32]%N l = false.
Proof.
  intros l H. destruct l as [|c t]; [easy|]. specialize (H c t eq_refl).
  assert (Hc : (c =? 32)%N = false) by (destruct (N.eqb_spec c 32); subst; easy).
  assert (Hc9 : (9 =? c)%N = false) by (destruct (N.eqb_spec 9 c); subst; easy).
  split; [cbn [skip_blanks]; now rewrite Hc|]. unfold starts_with. cbn [strip_prefix].
  rewrite Hc9. rewrite (N.eqb_sym 32 c), Hc. easy.
Qed.

Lemma is_line_cons : forall l c r, is_line l (c :: r) -> c <> 10%N ->
  (exists l' b, l = c :: l' /\ r = l' ++ b /\ ~ In 10%N l') \/
  (exists a b, r = a ++ l ++ b /\ exists a', a = a' ++ [10%N]) \/ (l = [] /\ False).
Proof.
  intros l c r (Hn & a & b & E & Ha & Hb) Hc. destruct Ha as [->|[a' ->]].
  - destruct l as [|x l].
    + destruct Hb as [->|[b' ->]]; [easy|]. cbn in E. injection E as ->. easy.
    + cbn in E. injection E as <- ->. left. exists l, b. split; [easy|]. split; [easy|]. intros H. apply Hn. now right.
  - right; left. destruct a' as [|y a'].
    + cbn in E. injection E as -> _. easy.
    + cbn in E. injection E as <- ->. exists (a' ++ [10%N]), b. split; [easy|]. eauto.
Qed.

Lemma format_no_code : forall doc out, format_docstring doc = Ok out ->
  contains_str [96; 96]%N out = false /\
  (forall l, is_line l out -> opens_backtick_fence l = false /\ indented_code l = false).
Proof.
  intros doc out H. apply format_inv in H as (r & -> & Hok & Hnd).
  assert (Hnd' : no_double pred_tick (c_sp :: r) = true) by (apply no_double_cons; [easy|easy]).
  assert (Hc2 := no_double_tick_substr _ Hnd').
  split; [easy|]. intros l Hl.
  assert (Hfence : forall z, (exists a b, c_sp :: r = a ++ z ++ b) -> starts_with [96; 96; 96]%N z = false).
  { intros z (a & b & E). destruct (starts_with [96; 96; 96]%N z) eqn:Es; [|easy]. exfalso.
    apply starts_with_iff in Es as [t ->].
    assert (Ht : contains_str [96; 96]%N (c_sp :: r) = true).
    { apply contains_str_iff. exists a, (96%N :: t ++ b). rewrite E. cbn. now rewrite <- ?app_assoc. }
    congruence. }
  apply is_line_cons in Hl; [|easy]. destruct Hl as [(l' & b & -> & Hr & _)|[(a & b & Hr & a' & ->)|[_ []]]].
  - assert (Hs : forall c t, l' = c :: t -> pred_ws c = false).
    { apply (ok_line_start r true [] l' b Hok); [easy|now left]. }
    destruct (line_safe l' Hs) as (H1 & H2 & H3).
    assert (Hsk : skip_blanks 3 (c_sp :: l') = l').
    { cbn [skip_blanks]. change ((c_sp =? 32)%N) with true. cbn iota.
      destruct l' as [|c t]; [easy|]. specialize (Hs c t eq_refl).
      destruct (N.eqb_spec c 32) as [->|Hc]; [easy|]. easy. }
    unfold opens_backtick_fence, indented_code. rewrite Hsk, H2, orb_false_r. split.
    + apply Hfence. exists [c_sp], b. now rewrite Hr.
    + destruct (starts_with [32; 32; 32; 32]%N (c_sp :: l')) eqn:Es; [|easy]. exfalso.
      apply starts_with_iff in Es as [t Ht]. cbn in Ht. injection Ht as Ht. rewrite Ht in H3. easy.
  - assert (Hs : forall c t, l = c :: t -> pred_ws c = false).
    { apply (ok_line_start r true (a' ++ [c_nl]) l b Hok); [easy|right; eauto]. }
    destruct (line_safe l Hs) as (H1 & H2 & H3).
    unfold opens_backtick_fence, indented_code. rewrite H1, H2, orb_false_r. split.
    + apply Hfence. exists (c_sp :: a' ++ [10%N]), b. rewrite Hr. easy.
    + destruct (starts_with [32; 32; 32; 32]%N l) eqn:Es; [|easy]. exfalso.
      apply starts_with_iff in Es as [t ->]. easy.
Qed.

Lemma format_shape : forall doc out, format_docstring doc = Ok out ->
  exists r, out = 32%N :: r /\
  (In 10%N r -> exists v, r = v ++ [10%N] /\ forall v', v <> v' ++ [10%N]) /\
  (~ blank doc -> forall r', r <> 10%N :: r').
Proof.
  intros doc out H. apply format_stages in H as (s1 & s2 & E1 & Hs & ->). cbn zeta.
  set (s4 := conditioned_dedup pred_tick (conditioned_dedup pred_ws s2)).
  eexists. split; [reflexivity|]. split.
  - intros Hin. destruct (contains_char c_nl s4) eqn:E.
    + destruct (end_with_one_nl_shape (drop_leading_nl s4)) as (v & Hv & Hv2 & _). exists v. auto.
    + exfalso. apply contains_char_In in Hin. unfold c_nl in E. congruence.
  - intros Hb r' Hr'.
    destruct (contains_char c_nl s4) eqn:E.
    2:{ rewrite Hr' in E. easy. }
    (* there is a non-line-break character *)
    assert (Hx : s2 = [] \/ exists c, In c s2 /\ c <> c_nl).
    { destruct (strip_slashes_spec _ _ _ Hs) as (_ & _ & Hlast & _).
      destruct Hlast as [->|[->|(t & c & -> & Hc)]].
      - right. assert (Hnb : exists c, In c doc /\ is_ws c = false).
        { destruct (existsb (fun c => negb (is_ws c)) doc) eqn:Ee.
          - apply existsb_exists in Ee as (c & Hc1 & Hc2). exists c. split; [easy|]. now apply negb_true_iff.
          - exfalso. apply Hb. intros c Hc. rewrite existsb_false_iff in Ee. apply Ee in Hc.
            now apply negb_false_iff. }
        destruct Hnb as (c & Hc & Hcw). subst s1. exists c. split.
        + (* c survives trimming *)
          clear - Hc Hcw. rewrite <- (join_split_char c_nl doc) in Hc. unfold lines.
          assert (Hj : forall l, In c (join [c_nl] l) -> exists x, In x l /\ In c x).
          { induction l as [|x l IH]; intros H; [easy|]. destruct l as [|y l].
            - cbn in H. exists x. split; [now left|easy].
            - rewrite join_cons in H. apply in_app_or in H as [H|H]; [exists x; split; [now left|easy]|].
              destruct H as [<-|H]; [easy|]. destruct (IH H) as (z & Hz & Hcz). exists z. split; [now right|easy]. }
          assert (Hj2 : forall l x, In x l -> In c x -> In c (join [c_nl] l)).
          { induction l as [|y l IH]; intros x Hx Hcx; [easy|]. destruct l as [|z l].
            - destruct Hx as [->|[]]. easy.
            - rewrite join_cons. apply in_or_app. destruct Hx as [->|Hx]; [now left|].
              right. right. apply (IH x); easy. }
          apply Hj in Hc as (x & Hx & Hcx).
          assert (Hl : forall ps, In x ps -> exists y, In y (lines_of ps) /\ In c y).
          { induction ps as [|p ps IH]; intros Hp; [easy|]. cbn [lines_of]. destruct ps as [|q ps].
            - destruct Hp as [->|[]]. destruct x; [easy|]. eexists. split; [now left|easy].
            - destruct Hp as [->|Hp].
              + exists (strip_cr x). split; [now left|].
                destruct (strip_cr_prefix x) as (w & Hw & Hwb). rewrite Hw in Hcx.
                apply in_app_or in Hcx as [?|Hcw']; [easy|]. apply Hwb in Hcw'. congruence.
              + destruct (IH Hp) as (y & Hy & Hcy). exists y. split; [now right|easy]. }
          destruct (Hl _ Hx) as (y & Hy & Hcy).
          apply (Hj2 _ (trim y)); [now apply in_map|].
          destruct (trim_decomp y) as (a & b & Hyy & Ha & Hbb). rewrite Hyy in Hcy.
          apply in_app_or in Hcy as [Hcy|Hcy]; [rewrite forallb_forall in Ha; apply Ha in Hcy; congruence|].
          apply in_app_or in Hcy as [Hcy|Hcy]; [easy|rewrite forallb_forall in Hbb; apply Hbb in Hcy; congruence].
        + intros ->. easy.
      - now left.
      - right. exists c. split; [apply in_or_app; right; now left|]. intros ->. easy. }
    destruct Hx as [->|(c & Hc & Hcn)].
    + easy.
    + assert (Hc4 : In c s4).
      { destruct (dedup_In pred_ws s2 None c Hc) as [H3|]; [|easy].
        destruct (dedup_In pred_tick _ None c H3) as [H4|]; easy. }
      assert (Hh : forall s, In c s -> exists x t, drop_leading_nl s = x :: t /\ x <> c_nl).
      { clear - Hcn. induction s as [|x s IH]; intros Hin; [easy|]. unfold drop_leading_nl in *. cbn [drop_while].
        destruct (N.eqb_spec x c_nl) as [Hx|Hxn]; [|eauto].
        apply IH. destruct Hin as [Hi|Hi]; [congruence|easy]. }
      destruct (Hh s4 Hc4) as (x & t & Hd & Hxn). rewrite Hd in Hr'.
      destruct (end_with_one_nl_shape (x :: t)) as (v & Hv & _ & w & Hw & Hwn).
      rewrite Hv in Hr'. destruct v as [|y v].
      * cbn in Hw. apply Hxn, Hwn. subst w. now left.
      * cbn in Hw, Hr'. injection Hw as -> _. injection Hr' as -> _. easy.
Qed.

Lemma tilde_fence_survives : exists doc out l, format_docstring doc = Ok out /\
  is_line l out /\ opens_tilde_fence l = true.
Proof.
  exists (u "Run:" ++ [10]%N ++ u "~~~" ++ [10]%N ++ u "x" ++ [10]%N ++ u "~~~").
  eexists. exists (u "~~~"). split; [vm_compute; reflexivity|]. split; [|reflexivity].
  split; [cbn; intuition discriminate|].
  exists (u " Run:" ++ [10]%N), ([10]%N ++ u "x" ++ [10]%N ++ u "~~~" ++ [10]%N).
  split; [reflexivity|]. split.
  - right. exists (u " Run:"). reflexivity.
  - right. eexists. reflexivity.
Qed.

Lemma blank_doc_blank_line : exists doc, blank doc /\ format_docstring doc = Ok [32; 10]%N.
Proof.
  exists [10; 10]%N. split; [|reflexivity]. intros c [<-|[<-|[]]]; reflexivity.
Qed.
