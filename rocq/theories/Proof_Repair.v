From Verif Require Import Base Model_Type Spec_Type Proof_Base.
Local Open Scope Z_scope.

Definition bal (s : str) : Z := n_open s - n_close s.

Lemma bal_depth : forall s, depth_change s = bal s.
Proof.
  unfold bal, n_open, n_close. induction s as [|c s IH]; [easy|]. cbn [depth_change count_char].
  rewrite IH. unfold c_lbr, c_rbr. destruct (N.eqb_spec c 91) as [->|].
  - change (91 =? 93)%N with false. cbv iota. lia.
  - destruct (N.eqb_spec c 93); lia.
Qed.

Lemma n_open_app : forall a b, n_open (a ++ b) = n_open a + n_open b.
Proof. intros. unfold n_open. rewrite count_char_app. lia. Qed.
Lemma n_close_app : forall a b, n_close (a ++ b) = n_close a + n_close b.
Proof. intros. unfold n_close. rewrite count_char_app. lia. Qed.
Lemma bal_app : forall a b, bal (a ++ b) = bal a + bal b.
Proof. intros. unfold bal. rewrite n_open_app, n_close_app. lia. Qed.
Lemma n_open_nonneg : forall s, 0 <= n_open s.
Proof. intros. unfold n_open. lia. Qed.
Lemma n_close_nonneg : forall s, 0 <= n_close s.
Proof. intros. unfold n_close. lia. Qed.

Lemma bal_comma : bal [44%N] = 0.
Proof. easy. Qed.

Lemma bal_blank : forall w, forallb is_ws w = true -> bal w = 0.
Proof.
  induction w as [|c w IH]; intros H; [easy|]. cbn in H. apply andb_prop in H as [H1 H2].
  rewrite <- bal_depth. cbn [depth_change]. rewrite bal_depth, IH by easy.
  destruct (N.eqb_spec c 91); [subst; easy|]. destruct (N.eqb_spec c 93); [subst; easy|]. lia.
Qed.

Lemma bal_trim : forall s, bal (trim s) = bal s.
Proof.
  intros s. destruct (trim_decomp s) as (p & q & Hs & Hp & Hq). rewrite Hs at 2.
  rewrite !bal_app, (bal_blank p Hp), (bal_blank q Hq). lia.
Qed.

(** A group of pieces: the running depth is positive until the last piece, where it is zero. *)
Fixpoint closes (n : Z) (qs : list str) : Prop :=
  match qs with
  | [] => False
  | q :: t => match t with
              | [] => n + bal q = 0
              | _ => n + bal q >= 1 /\ closes (n + bal q) t
              end
  end.

Lemma usize_sub_ok : forall dbg a b, 0 <= a - b -> usize_sub dbg a b = Ok (a - b).
Proof. intros dbg a b H. unfold usize_sub. destruct dbg; [|easy]. cbn. destruct (Z.ltb_spec a b); [lia|easy]. Qed.

Lemma find_close_group : forall dbg sep qs n acc p r, 0 <= n -> closes n qs ->
  find_close dbg sep n acc p (qs ++ r) =
  Ok (Some (acc ++ concat (map (cons sep) qs), (p + length qs)%nat, r)).
Proof.
  induction qs as [|q qs IH]; intros n acc p r Hn H; [easy|].
  cbn [app find_close]. destruct qs as [|q' qs].
  - cbn [closes] in H. unfold bal in H. rewrite usize_sub_ok by lia. cbn [obind].
    replace (n + n_open q - n_close q =? 0) with true by (symmetry; apply Z.eqb_eq; lia).
    cbn. rewrite app_nil_r. replace (p + 1)%nat with (S p) by lia. easy.
  - destruct H as [H1 H2]. unfold bal in H1. rewrite usize_sub_ok by lia. cbn [obind].
    destruct (Z.eqb_spec (n + n_open q - n_close q) 0); [lia|].
    replace (n + n_open q - n_close q) with (n + bal q) by (unfold bal; lia).
    rewrite IH; [|unfold bal; lia|easy]. cbn [map concat length]. rewrite <- app_assoc. cbn [app].
    replace (S p + S (length qs))%nat with (p + S (S (length qs)))%nat by lia. easy.
Qed.

Lemma join_concat : forall sep x qs, x ++ concat (map (cons sep) qs) = join [sep] (x :: qs).
Proof.
  intros sep x qs. revert x. induction qs as [|q qs IH]; intros x; [cbn; now rewrite app_nil_r|].
  rewrite join_cons. cbn [map concat]. rewrite <- IH. easy.
Qed.

Lemma bal_join : forall sep qs, bal [sep] = 0 -> bal (join [sep] qs) = fold_right (fun q z => bal q + z) 0 qs.
Proof.
  intros sep qs Hs. induction qs as [|q qs IH]; [easy|]. destruct qs as [|q' qs].
  - cbn. lia.
  - rewrite join_cons, !bal_app, Hs, IH. cbn [fold_right]. lia.
Qed.

Lemma closes_sum : forall qs n, closes n qs -> n + fold_right (fun q z => bal q + z) 0 qs = 0.
Proof.
  induction qs as [|q qs IH]; intros n H; [easy|]. destruct qs as [|q' qs].
  - cbn in *. lia.
  - destruct H as [_ H]. apply IH in H. cbn [fold_right] in *. lia.
Qed.

Lemma total_concat_length : forall {A} (gs : list (list A)), length (concat gs) = total (map (@length A) gs).
Proof. induction gs as [|g gs IH]; [easy|]. cbn. rewrite app_length, IH. easy. Qed.

Lemma concat_singletons : forall sep (gs : list (list str)), (forall q, In q (map (@length _) gs) -> q = 1%nat) ->
  concat gs = map (join [sep]) gs.
Proof.
  induction gs as [|g gs IH]; intros H; [easy|]. cbn in *.
  assert (Hg : length g = 1%nat) by (apply H; now left). destruct g as [|x [|? ?]]; try easy.
  cbn. f_equal. apply IH. intros q Hq. apply H. now right.
Qed.

Lemma repair_loop_groups : forall dbg sep gs fuel, bal [sep] = 0 ->
  (forall g, In g gs -> closes 0 g) -> gs <> [] -> (length (concat gs) <= fuel)%nat ->
  fits (map (@length _) gs) ->
  repair_loop dbg sep fuel (concat gs) = Ok (map (join [sep]) gs).
Proof.
  intros dbg sep gs. induction gs as [|g gs IH]; intros fuel Hsep Hg Hne Hf Hfit; [easy|].
  assert (Hg0 : closes 0 g) by (apply Hg; now left).
  destruct g as [|x qs]; [easy|]. cbn [concat app] in *. cbn [length] in Hf.
  destruct fuel as [|fuel]; [lia|]. cbn [repair_loop].
  destruct (qs ++ concat gs) as [|y0 rest0] eqn:Erest.
  { apply app_eq_nil in Erest as [-> Ec]. destruct gs as [|g' gs]; [easy|].
    assert (H : closes 0 g') by (apply Hg; right; now left). destruct g'; [easy|]. cbn in Ec. easy. }
  assert (Hrest : qs ++ concat gs <> []) by (rewrite Erest; easy).
  rewrite <- Erest in *. clear Erest y0 rest0.
  cbn [map fits] in Hfit. destruct Hfit as [Hfit Hfits].
  assert (Hg' : forall g, In g gs -> closes 0 g) by (intros g Hin; apply Hg; now right).
  destruct qs as [|q qs].
  - (* a single piece *)
    cbn [closes] in Hg0. unfold bal in Hg0. rewrite usize_sub_ok by lia. cbn [obind app].
    replace (n_open x - n_close x =? 0) with true by (symmetry; apply Z.eqb_eq; lia).
    destruct gs as [|g' gs].
    + easy.
    + rewrite IH; [easy|easy|easy|easy| |easy]. cbn [app] in Hf. lia.
  - destruct Hg0 as [H1 H2]. rewrite Z.add_0_l in *. unfold bal in H1.
    rewrite usize_sub_ok by lia. cbn [obind].
    destruct (Z.eqb_spec (n_open x - n_close x) 0); [lia|].
    change (n_open x - n_close x) with (bal x).
    rewrite find_close_group by (easy || unfold bal; lia). cbn [obind].
    rewrite join_concat. rewrite app_length in Hf. cbn [length] in Hf.
    destruct (Nat.leb_spec (1 + length (q :: qs)) (length (concat gs))) as [Hle|Hgt].
    + destruct fuel as [|fuel]; [lia|]. cbn [repair_loop].
      destruct gs as [|g' gs]; [cbn in Hle; lia|].
      destruct (concat (g' :: gs)) as [|y0 rest0] eqn:Ec; [cbn in Hle; lia|]. rewrite <- Ec in *. clear Ec y0 rest0.
      assert (Hb : bal (join [sep] (x :: q :: qs)) = 0).
      { rewrite bal_join by easy. apply closes_sum in H2. cbn [fold_right] in *. lia. }
      unfold bal in Hb. rewrite usize_sub_ok by lia. cbn [obind].
      destruct (Z.eqb_spec (n_open (join [sep] (x :: q :: qs)) - n_close (join [sep] (x :: q :: qs))) 0); [|lia].
      rewrite IH; [easy|easy|easy|easy|lia|easy].
    + f_equal. cbn [map]. f_equal. rewrite total_concat_length in Hgt. cbn [length] in *.
      apply concat_singletons. destruct Hfit as [?|[?|?]]; [lia|lia|easy].
Qed.

(** Without [fits], some group stays split. *)
Lemma all_ones_dec : forall l, {forall q, In q l -> q = 1%nat} + {~ (forall q, In q l -> q = 1%nat)}.
Proof.
  induction l as [|x l [IH|IH]].
  - now left.
  - destruct (Nat.eq_dec x 1) as [->|H]; [left|right].
    + intros q [<-|Hq]; auto.
    + intros Hq. apply H. apply Hq. now left.
  - right. intros Hq. apply IH. intros q H. apply Hq. now right.
Qed.

Lemma total_ge_length : forall l, (forall q, In q l -> q >= 1)%nat -> (total l >= length l)%nat.
Proof.
  induction l as [|x l IH]; intros H; [cbn; lia|]. cbn. assert (x >= 1)%nat by (apply H; now left).
  assert (total l >= length l)%nat by (apply IH; intros; apply H; now right). lia.
Qed.
Lemma total_gt_length : forall l, (forall q, In q l -> q >= 1)%nat -> ~ (forall q, In q l -> q = 1%nat) ->
  (total l > length l)%nat.
Proof.
  induction l as [|x l IH]; intros H Hn; [exfalso; apply Hn; easy|]. cbn.
  assert (x >= 1)%nat by (apply H; now left).
  assert (H' : forall q, In q l -> (q >= 1)%nat) by (intros; apply H; now right).
  pose proof (total_ge_length l H').
  destruct (Nat.eq_dec x 1) as [->|Hx]; [|lia].
  assert (total l > length l)%nat; [|lia]. apply IH; [easy|]. intros Hq. apply Hn. intros q [<-|]; auto.
Qed.

Lemma repair_loop_groups_length : forall dbg sep gs fuel, bal [sep] = 0 ->
  (forall g, In g gs -> closes 0 g) -> gs <> [] -> (length (concat gs) <= fuel)%nat ->
  ~ fits (map (@length _) gs) ->
  exists r, repair_loop dbg sep fuel (concat gs) = Ok r /\ (length r > length gs)%nat.
Proof.
  intros dbg sep gs. induction gs as [|g gs IH]; intros fuel Hsep Hg Hne Hf Hfit; [easy|].
  assert (Hg0 : closes 0 g) by (apply Hg; now left).
  destruct g as [|x qs]; [easy|]. cbn [concat app] in *. cbn [length] in Hf.
  destruct fuel as [|fuel]; [lia|]. cbn [repair_loop].
  destruct (qs ++ concat gs) as [|y0 rest0] eqn:Erest.
  { exfalso. apply Hfit. apply app_eq_nil in Erest as [-> Ec]. destruct gs as [|g' gs].
    - cbn. split; [now left|easy].
    - assert (H : closes 0 g') by (apply Hg; right; now left). destruct g'; [easy|]. cbn in Ec. easy. }
  assert (Hrest : qs ++ concat gs <> []) by (rewrite Erest; easy).
  rewrite <- Erest in *. clear Erest y0 rest0.
  assert (Hg' : forall g, In g gs -> closes 0 g) by (intros g Hin; apply Hg; now right).
  assert (Hpos : forall q, In q (map (@length _) gs) -> (q >= 1)%nat).
  { intros q Hq. apply in_map_iff in Hq as (g & <- & Hin). apply Hg' in Hin. destruct g; [easy|]. cbn. lia. }
  cbn [map fits] in Hfit.
  destruct qs as [|q qs].
  - cbn [closes] in Hg0. unfold bal in Hg0. rewrite usize_sub_ok by lia. cbn [obind app].
    replace (n_open x - n_close x =? 0) with true by (symmetry; apply Z.eqb_eq; lia).
    assert (Hfits : ~ fits (map (@length _) gs)) by (intros H; apply Hfit; split; [now left|easy]).
    destruct gs as [|g' gs]; [exfalso; apply Hfits; easy|].
    destruct (IH fuel) as (r & Hr & Hl); [easy|easy|easy|cbn [app] in Hf; lia|easy|].
    rewrite Hr. cbn [omap obind]. eexists. split; [reflexivity|]. cbn [length]. cbn [length] in Hl. lia.
  - destruct Hg0 as [H1 H2]. rewrite Z.add_0_l in *. unfold bal in H1.
    rewrite usize_sub_ok by lia. cbn [obind].
    destruct (Z.eqb_spec (n_open x - n_close x) 0); [lia|].
    change (n_open x - n_close x) with (bal x).
    rewrite find_close_group by (easy || unfold bal; lia). cbn [obind].
    rewrite join_concat. rewrite app_length in Hf. cbn [length] in Hf.
    destruct (Nat.leb_spec (1 + length (q :: qs)) (length (concat gs))) as [Hle|Hgt].
    + destruct fuel as [|fuel]; [lia|]. cbn [repair_loop].
      assert (Hfits : ~ fits (map (@length _) gs)).
      { intros H; apply Hfit; split; [|easy]. right; left. rewrite total_concat_length in Hle. easy. }
      destruct gs as [|g' gs]; [cbn in Hle; lia|].
      destruct (concat (g' :: gs)) as [|y0 rest0] eqn:Ec; [cbn in Hle; lia|]. rewrite <- Ec in *. clear Ec y0 rest0.
      assert (Hb : bal (join [sep] (x :: q :: qs)) = 0).
      { rewrite bal_join by easy. apply closes_sum in H2. cbn [fold_right] in *. lia. }
      unfold bal in Hb. rewrite usize_sub_ok by lia. cbn [obind].
      destruct (Z.eqb_spec (n_open (join [sep] (x :: q :: qs)) - n_close (join [sep] (x :: q :: qs))) 0); [|lia].
      destruct (IH fuel) as (r & Hr & Hl); [easy|easy|easy|lia|easy|].
      rewrite Hr. cbn [omap obind]. eexists. split; [reflexivity|]. cbn [length]. cbn [length] in Hl. lia.
    + eexists. split; [reflexivity|]. cbn [length]. rewrite total_concat_length in *.
      destruct (all_ones_dec (map (@length _) gs)) as [Ha|Ha].
      * exfalso. apply Hfit. split; [now right; right|]. clear - Ha.
        revert Ha. generalize (map (@length str) gs). induction l as [|y l IH]; intros H; [easy|].
        cbn. split; [left; rewrite (H y); [easy|now left]|]. apply IH. intros q Hq. apply H. now right.
      * apply total_gt_length in Ha; [|easy]. rewrite map_length in Ha. lia.
Qed.

(** ** Nothing is lost: the joined text is invariant, for any pieces at all *)
Lemma find_close_spec : forall dbg sep rest n acc p m p' r,
  find_close dbg sep n acc p rest = Ok (Some (m, p', r)) ->
  exists pre, rest = pre ++ r /\ pre <> [] /\ m = acc ++ concat (map (cons sep) pre) /\ p' = (p + length pre)%nat.
Proof.
  intros dbg sep. induction rest as [|x rest IH]; intros n acc p m p' r H; [easy|].
  cbn [find_close] in H. destruct (usize_sub dbg (n + n_open x) (n_close x)) as [n'| | |]; try easy.
  cbn [obind] in H. destruct (n' =? 0).
  - injection H as <- <- <-. exists [x]. cbn. rewrite app_nil_r. split; [easy|]. split; [easy|]. split; [easy|lia].
  - apply IH in H as (pre & -> & Hn & -> & ->). exists (x :: pre). cbn [map concat length].
    rewrite <- app_assoc. split; [easy|]. split; [easy|]. split; [easy|lia].
Qed.

Lemma find_close_not_oof : forall dbg sep rest n acc p,
  find_close dbg sep n acc p rest <> OutOfFuel /\ (forall e, find_close dbg sep n acc p rest <> Err e).
Proof.
  intros dbg sep. induction rest as [|x rest IH]; intros n acc p; [easy|].
  cbn [find_close]. unfold usize_sub. destruct (dbg && _); [easy|]. cbn [obind].
  destruct (_ =? 0); [easy|]. apply IH.
Qed.

Lemma find_close_release : forall sep rest n acc p, exists c, find_close false sep n acc p rest = Ok c.
Proof.
  intros sep. induction rest as [|x rest IH]; intros n acc p; [exists None; reflexivity|].
  cbn [find_close]. unfold usize_sub. cbn [andb obind]. destruct (n + n_open x - n_close x =? 0); eauto.
Qed.

Lemma find_close_panic : forall dbg sep rest n acc p k, find_close dbg sep n acc p rest = Panic k -> k = POverflow.
Proof.
  intros dbg sep. induction rest as [|x rest IH]; intros n acc p k E; [easy|].
  cbn [find_close] in E. unfold usize_sub in E. destruct (dbg && _); [now injection E|]. cbn [obind] in E.
  destruct (n + n_open x - n_close x =? 0); [easy|]. eauto.
Qed.

Lemma join_app_groups : forall sep x pre r,
  join [sep] (join [sep] (x :: pre) :: r) = join [sep] (x :: pre ++ r).
Proof.
  intros sep x pre. revert x. induction pre as [|y pre IH]; intros x r; [easy|].
  cbn [app]. rewrite (join_cons [sep] x y pre), (join_cons [sep] x y (pre ++ r)), <- IH.
  destruct r as [|z r]; [cbn [join]; easy|].
  rewrite !join_cons. now rewrite <- !app_assoc.
Qed.

Lemma repair_loop_join : forall dbg sep fuel seq seq',
  repair_loop dbg sep fuel seq = Ok seq' -> join [sep] seq' = join [sep] seq /\ (seq <> [] -> seq' <> []).
Proof.
  intros dbg sep. induction fuel as [|fuel IH]; intros seq seq' H; [easy|].
  cbn [repair_loop] in H. destruct seq as [|x rest]; [injection H as <-; easy|].
  destruct rest as [|y rest]; [injection H as <-; easy|].
  destruct (usize_sub dbg (n_open x) (n_close x)) as [n| | |]; try easy. cbn [obind] in H.
  assert (Hcons : omap (cons x) (repair_loop dbg sep fuel (y :: rest)) = Ok seq' ->
      join [sep] seq' = join [sep] (x :: y :: rest) /\ (x :: y :: rest <> [] -> seq' <> [])).
  { intros H0. destruct (repair_loop dbg sep fuel (y :: rest)) as [s| | |] eqn:E; try easy.
    injection H0 as <-. apply IH in E as [E1 E2]. split; [|easy].
    rewrite join_cons' by (apply E2; easy). rewrite E1. symmetry. apply join_cons. }
  destruct (n =? 0); [auto|].
  destruct (find_close dbg sep n x 1 (y :: rest)) as [c| | |] eqn:E; try easy. cbn [obind] in H.
  destruct c as [[[m p] r]|]; [|auto].
  apply find_close_spec in E as (pre & Hpre & _ & Hm & _). rewrite join_concat in Hm. subst m.
  assert (Hj : join [sep] (join [sep] (x :: pre) :: r) = join [sep] (x :: y :: rest)).
  { rewrite join_app_groups, Hpre. easy. }
  destruct (p <=? length r)%nat.
  - apply IH in H as [H1 H2]. split; [congruence|]. intros _. apply H2. easy.
  - injection H as <-. split; [easy|easy].
Qed.

Lemma repair_loop_total : forall dbg sep fuel seq, seq <> [] -> (length seq <= fuel)%nat ->
  repair_loop dbg sep fuel seq <> OutOfFuel /\ (forall e, repair_loop dbg sep fuel seq <> Err e) /\
  (dbg = false -> exists r, repair_loop dbg sep fuel seq = Ok r) /\
  (forall p, repair_loop dbg sep fuel seq = Panic p -> p = POverflow).
Proof.
  intros dbg sep. induction fuel as [|fuel IH]; intros seq Hne Hf; [destruct seq; [easy|cbn in Hf; lia]|].
  cbn [repair_loop]. destruct seq as [|x rest]; [easy|]. destruct rest as [|y rest].
  { split; [easy|]. split; [easy|]. split; [eauto|easy]. }
  cbn [length] in Hf.
  assert (Hcons : omap (cons x) (repair_loop dbg sep fuel (y :: rest)) <> OutOfFuel /\
     (forall e, omap (cons x) (repair_loop dbg sep fuel (y :: rest)) <> Err e) /\
     (dbg = false -> exists r, omap (cons x) (repair_loop dbg sep fuel (y :: rest)) = Ok r) /\
     (forall p, omap (cons x) (repair_loop dbg sep fuel (y :: rest)) = Panic p -> p = POverflow)).
  { destruct (IH (y :: rest)) as (A & B & C & D); [easy|cbn [length]; lia|].
    destruct (repair_loop dbg sep fuel (y :: rest)) as [s|e|p|]; cbn.
    - split; [easy|]. split; [easy|]. split; [eauto|easy].
    - exfalso. now apply (B e).
    - split; [easy|]. split; [easy|]. split; [intros Hd; now destruct (C Hd)|].
      intros p0 H. injection H as <-. now apply D.
    - easy. }
  unfold usize_sub. destruct (dbg && (n_open x <? n_close x)) eqn:Ed.
  { cbn [obind]. split; [easy|]. split; [easy|]. split; [intros ->; easy|intros p H; now injection H]. }
  cbn [obind]. destruct (n_open x - n_close x =? 0); [easy|].
  destruct (find_close dbg sep (n_open x - n_close x) x 1 (y :: rest)) as [c|e|p|] eqn:E.
  - cbn [obind]. destruct c as [[[m p] r]|]; [|easy].
    apply find_close_spec in E as (pre & Hpre & Hne' & _ & _).
    destruct (p <=? length r)%nat.
    + apply IH; [easy|]. apply (f_equal (@length _)) in Hpre. rewrite app_length in Hpre. cbn [length] in *.
      destruct pre; [easy|]. cbn [length] in Hpre. lia.
    + split; [easy|]. split; [easy|]. split; [eauto|easy].
  - exfalso. now apply (proj2 (find_close_not_oof dbg sep (y :: rest) (n_open x - n_close x) x 1) e).
  - cbn [obind]. split; [easy|]. split; [easy|]. split.
    + intros ->. destruct (find_close_release sep (y :: rest) (n_open x - n_close x) x 1) as [c Hc]. congruence.
    + intros p0 H. injection H as <-. now apply find_close_panic in E.
  - exfalso. now apply (proj1 (find_close_not_oof dbg sep (y :: rest) (n_open x - n_close x) x 1)).
Qed.

(** ** From texts to groups *)
Lemma closes_split : forall s n, 
  (closes n (split_char 44%N s) <->
   n + bal s = 0 /\ (forall x y, s = x ++ [44%N] ++ y -> n + bal x >= 1)).
Proof.
  intros s. remember (split_char 44%N s) as ps eqn:E. revert s E.
  induction ps as [|p ps IH]; intros s E n; [symmetry in E; now apply split_char_nonnil in E|].
  assert (Hs : s = join [44%N] (p :: ps)) by (rewrite E; symmetry; apply join_split_char).
  assert (Hp : ~ In 44%N p) by (apply (split_char_no_sep 44%N s); rewrite <- E; now left).
  destruct ps as [|q ps].
  - cbn [join closes] in *. subst s. split; [|easy]. intros H. split; [easy|].
    intros x y ->. exfalso. apply Hp. apply in_or_app. right. now left.
  - rewrite join_cons in Hs. cbn [closes].
    assert (Hq : forall z, In z (q :: ps) -> ~ In 44%N z).
    { intros z Hz. apply (split_char_no_sep 44%N s). rewrite <- E. now right. }
    assert (E2 : q :: ps = split_char 44%N (join [44%N] (q :: ps))) by (symmetry; apply split_char_join; easy).
    rewrite (IH (join [44%N] (q :: ps)) E2 (n + bal p)). rewrite Hs. split.
    + intros [H1 [H2 H3]]. rewrite !bal_app, bal_comma. split; [lia|].
      intros x y Hxy. cbn [app] in Hxy. symmetry in Hxy.
      apply app_eq_app in Hxy as (l & [[Hx Hy]|[Hx Hy]]).
      * destruct l as [|c l].
        -- rewrite app_nil_r in Hx. subst x. lia.
        -- cbn in Hy. injection Hy as <- Hy. subst x. rewrite bal_app.
           change (44%N :: l) with ([44%N] ++ l). rewrite bal_app, bal_comma.
           assert (n + bal p + bal l >= 1); [|lia]. apply (H3 l y). easy.
      * destruct l as [|c l].
        -- rewrite app_nil_r in Hx. subst x. lia.
        -- cbn in Hy. injection Hy as <- Hy. exfalso. apply Hp. rewrite Hx. apply in_or_app. right. now left.
    + intros [H1 H2]. rewrite !bal_app, bal_comma in H1. split; [|split].
      * apply (H2 p (join [44%N] (q :: ps))). easy.
      * lia.
      * intros x y Hxy. rewrite Hxy in H2.
        specialize (H2 (p ++ [44%N] ++ x) y). rewrite !bal_app, bal_comma in H2.
        assert (n + (bal p + (0 + bal x)) >= 1); [|lia]. apply H2. now rewrite <- !app_assoc.
Qed.

Lemma argument_closes : forall a, argument a <-> closes 0 (split_char 44%N a).
Proof.
  intros a. rewrite closes_split. unfold argument. split; intros [H1 H2]; split.
  - rewrite bal_depth in H1. lia.
  - intros x y H. apply H2 in H. rewrite bal_depth in H. lia.
  - rewrite bal_depth. lia.
  - intros x y H. apply H2 in H. rewrite bal_depth. lia.
Qed.

Lemma closes_trim : forall l n, closes n l -> closes n (map trim l).
Proof.
  induction l as [|q l IH]; intros n H; [easy|]. destruct l as [|q' l].
  - cbn [map closes] in *. now rewrite bal_trim.
  - destruct H as [H1 H2]. cbn [map]. split; rewrite bal_trim; [easy|]. now apply IH.
Qed.

Lemma n_pieces_length : forall s, n_pieces s = length (split_char 44%N s).
Proof.
  induction s as [|c s IH]; [easy|]. cbn [n_pieces split_char]. destruct (N.eqb_spec c 44).
  - cbn. now rewrite IH.
  - destruct (split_char_cons 44%N s) as (p & ps & E). rewrite E in *. cbn in *. easy.
Qed.

Lemma split_join_concat : forall (args : list str), args <> [] ->
  split_char 44%N (join [44%N] args) = concat (map (split_char 44%N) args).
Proof.
  assert (Happ : forall a b, split_char 44%N (a ++ [44%N] ++ b) = split_char 44%N a ++ split_char 44%N b).
  { induction a as [|c a IH]; intros b; [easy|]. cbn [app split_char]. specialize (IH b). cbn [app] in IH. rewrite IH.
    destruct (N.eqb_spec c 44); [easy|]. destruct (split_char_cons 44%N a) as (p & ps & E). now rewrite E. }
  induction args as [|a args IH]; intros H; [easy|]. destruct args as [|b args].
  - cbn. now rewrite app_nil_r.
  - rewrite join_cons, Happ, IH by easy. easy.
Qed.

Lemma concat_nonnil_length : forall (gs : list (list str)), (forall g, In g gs -> closes 0 g) -> gs <> [] -> concat gs <> [].
Proof.
  intros [|g gs] H Hn; [easy|]. assert (Hg : closes 0 g) by (apply H; now left). destruct g; easy.
Qed.

Lemma repair_groups : forall dbg sep gs, bal [sep] = 0 ->
  (forall g, In g gs -> closes 0 g) -> gs <> [] -> fits (map (@length _) gs) ->
  repair dbg sep (concat gs) = Ok (map (join [sep]) gs).
Proof.
  intros dbg sep gs Hs Hg Hn Hf. unfold repair. pose proof (concat_nonnil_length gs Hg Hn) as Hc.
  destruct (concat gs) as [|x l] eqn:E; [easy|]. rewrite <- E. apply repair_loop_groups; try easy. lia.
Qed.

Lemma map_join_split : forall args, map (join [44%N]) (map (split_char 44%N) args) = args.
Proof. intros. rewrite map_map. erewrite map_ext; [apply map_id|]. intros. apply join_split_char. Qed.

Lemma regroup_iff : forall dbg args, args <> [] -> (forall a, In a args -> argument a) ->
  (repair dbg 44%N (split_char 44%N (join [44%N] args)) = Ok args <-> fits (map n_pieces args)).
Proof.
  intros dbg args Hn Ha. rewrite split_join_concat by easy.
  assert (Hg : forall g, In g (map (split_char 44%N) args) -> closes 0 g).
  { intros g Hin. apply in_map_iff in Hin as (a & <- & Hin). apply argument_closes. auto. }
  assert (Hne : map (split_char 44%N) args <> []) by (destruct args; easy).
  assert (Hlen : map (@length _) (map (split_char 44%N) args) = map n_pieces args).
  { rewrite map_map. apply map_ext. intros a. symmetry. apply n_pieces_length. }
  split.
  - intros H. assert (Hdec : fits (map n_pieces args) \/ ~ fits (map n_pieces args)).
    { clear. generalize (map n_pieces args). induction l as [|p l [IH|IH]]; [now left| |right; intros [_ H]; auto].
      destruct (le_dec p 1); [left; cbn; auto|]. destruct (le_dec p (total l)); [left; cbn; auto|].
      destruct (all_ones_dec l); [left; cbn; auto|]. right. intros [[?|[?|?]] _]; auto. }
    destruct Hdec as [Hd|Hd]; [easy|]. exfalso. rewrite <- Hlen in Hd.
    pose proof (concat_nonnil_length _ Hg Hne) as Hc. unfold repair in H.
    destruct (concat (map (split_char 44%N) args)) as [|x l] eqn:E; [easy|]. rewrite <- E in H.
    destruct (repair_loop_groups_length dbg 44%N _ (2 * length (x :: l)) eq_refl Hg Hne) as (r & Hr & Hl);
      [rewrite E; lia|easy|]. rewrite <- E in Hr. rewrite Hr in H. injection H as ->.
    rewrite map_length in Hl. lia.
  - intros Hf. rewrite <- Hlen in Hf. rewrite repair_groups; [|easy|easy|easy|easy]. now rewrite map_join_split.
Qed.

Lemma repair_text_kept : forall dbg sep seq seq', repair dbg sep seq = Ok seq' ->
  join [sep] seq' = join [sep] seq.
Proof.
  intros dbg sep seq seq' H. unfold repair in H. destruct seq; [easy|]. now apply repair_loop_join in H.
Qed.

Lemma repair_total_release : forall sep seq, seq <> [] -> exists seq', repair false sep seq = Ok seq'.
Proof.
  intros sep seq H. unfold repair. destruct seq as [|x l]; [easy|].
  apply (repair_loop_total false sep (2 * length (x :: l)) (x :: l)); [easy|lia|easy].
Qed.
