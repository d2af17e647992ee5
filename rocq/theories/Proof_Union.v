From Verif Require Import Base Model_Config Model_Type Spec_Type Proof_Base Proof_Repair Proof_Type Proof_Ann.

(** ** Counting a pattern *)
Lemma count_fuel_none : forall p f s, contains_str p s = false -> count_str_fuel f p s = 0%N.
Proof.
  intros p. induction f as [|f IH]; intros s H; [easy|]. cbn [count_str_fuel].
  destruct s as [|c s]; cbn [contains_str] in H; apply orb_false_iff in H as [H1 H2]; unfold starts_with in H1.
  - destruct (strip_prefix p []); easy.
  - destruct (strip_prefix p (c :: s)); [easy|]. now apply IH.
Qed.
Lemma contains_tail : forall p c s, contains_str p (c :: s) = false -> contains_str p s = false.
Proof. intros p c s H. cbn [contains_str] in H. now apply orb_false_iff in H as [_ H]. Qed.
Lemma strip_prefix_skip : forall p a c b, starts_with p a = false -> ~ In c p -> strip_prefix p (a ++ c :: b) = None.
Proof.
  intros p a c b Ha Hc. destruct (strip_prefix p (a ++ c :: b)) as [r|] eqn:E; [|easy]. exfalso.
  apply strip_prefix_Some in E. symmetry in E. apply app_eq_app in E as (l & [[E1 E2]|[E1 E2]]).
  - destruct l as [|d l].
    + rewrite app_nil_r in E1. subst p. assert (starts_with a a = true) by (apply starts_with_iff; exists []; now rewrite app_nil_r).
      congruence.
    + cbn in E2. injection E2 as <- _. apply Hc. rewrite E1. apply in_or_app. right. now left.
  - subst a. rewrite starts_with_app in Ha. easy.
Qed.
Lemma count_fuel_skip : forall p a c b f, contains_str p a = false -> ~ In c p ->
  count_str_fuel (length a + S f) p (a ++ c :: b) = count_str_fuel f p b.
Proof.
  intros p a c b. induction a as [|d a IH]; intros f Ha Hc.
  - cbn [contains_str] in Ha. rewrite orb_false_r in Ha. cbn [length Nat.add count_str_fuel].
    rewrite (strip_prefix_skip p [] c b Ha Hc). easy.
  - assert (Hs : starts_with p (d :: a) = false) by (cbn [contains_str] in Ha; now apply orb_false_iff in Ha).
    cbn [length Nat.add count_str_fuel]. rewrite (strip_prefix_skip p (d :: a) c b Hs Hc). cbn [app].
    apply IH; [now apply contains_tail in Ha|easy].
Qed.
Lemma count_fuel_blank : forall p w b f, p <> [] -> (forall c, In c w -> ~ In c p) ->
  count_str_fuel (length w + f) p (w ++ b) = count_str_fuel f p b.
Proof.
  intros p w b f Hp. induction w as [|c w IH]; intros H; [easy|].
  change (length (c :: w) + f) with (length (@nil N) + S (length w + f)).
  change ((c :: w) ++ b) with ([] ++ c :: (w ++ b)). rewrite count_fuel_skip.
  - apply IH. intros d Hd. apply H. now right.
  - destruct p; [easy|]. easy.
  - apply H. now left.
Qed.
Lemma blank_not_none : forall w c, all_blank w -> In c w -> ~ In c (u "None").
Proof. intros w c H Hc Hi. apply H in Hc. cbn in Hi. destruct Hi as [<-|[<-|[<-|[<-|[]]]]]; easy. Qed.

(** A padded member without the pattern, followed by a bar. *)
Lemma count_member : forall m w w' b f, all_blank w -> all_blank w' -> contains_str (u "None") m = false ->
  count_str_fuel (length (w ++ m ++ w') + S f) (u "None") ((w ++ m ++ w') ++ c_bar :: b) = count_str_fuel f (u "None") b.
Proof.
  intros m w w' b f Hw Hw' Hm.
  assert (Hbar : ~ In c_bar (u "None")) by (apply contains_false; reflexivity).
  rewrite !app_length, <- !app_assoc, <- Nat.add_assoc.
  rewrite count_fuel_blank; [|easy|intros c Hc; now apply (blank_not_none w)].
  destruct w' as [|c w'].
  - cbn [app length]. rewrite Nat.add_0_r. now apply count_fuel_skip.
  - cbn [app length]. rewrite <- Nat.add_assoc. cbn [Nat.add].
    rewrite count_fuel_skip; [|easy|apply (blank_not_none (c :: w')); [easy|now left]].
    rewrite count_fuel_blank; [|easy|intros d Hd; apply (blank_not_none (c :: w')); [easy|now right]].
    change (S f) with (length (@nil N) + S f). now apply (count_fuel_skip (u "None") [] c_bar b f).
Qed.

Lemma count_last : forall m w w' f, all_blank w -> all_blank w' -> contains_str (u "None") m = false ->
  count_str_fuel (length (w ++ m ++ w') + f) (u "None") (w ++ m ++ w') = 0%N.
Proof.
  intros m w w' f Hw Hw' Hm. rewrite !app_length, <- Nat.add_assoc.
  rewrite count_fuel_blank; [|easy|intros c Hc; now apply (blank_not_none w)].
  destruct w' as [|c w'].
  - rewrite app_nil_r. now apply count_fuel_none.
  - cbn [length]. rewrite <- Nat.add_assoc. cbn [Nat.add].
    rewrite count_fuel_skip; [|easy|apply (blank_not_none (c :: w')); [easy|now left]].
    rewrite <- (app_nil_r w') at 2.
    rewrite count_fuel_blank; [|easy|intros d Hd; apply (blank_not_none (c :: w')); [easy|now right]].
    now apply count_fuel_none.
Qed.

Lemma count_none_last : forall w w' f, all_blank w -> all_blank w' ->
  count_str_fuel (length w + S f) (u "None") (w ++ u "None" ++ w') = 1%N.
Proof.
  intros w w' f Hw Hw'. rewrite count_fuel_blank; [|easy|intros c Hc; now apply (blank_not_none w)].
  cbn [count_str_fuel]. rewrite strip_prefix_app. rewrite count_fuel_none; [easy|].
  destruct (contains_str (u "None") w') eqn:E; [|easy]. exfalso. apply contains_str_iff in E as (a & b & ->).
  apply (blank_not_none (a ++ u "None" ++ b) 78%N); [easy|apply in_or_app; right; now left|now left].
Qed.

(** ** Unions *)
Lemma padded_no_bar : forall m s, padded m s -> ~ In c_bar m -> ~ In c_bar s.
Proof.
  intros m s (w & w' & Hw & Hw' & ->) H. repeat apply no_bar_app; try easy; now apply blank_no_bar.
Qed.
Lemma trim_of_padded : forall m s, padded m s -> solid m -> trim s = m.
Proof. intros m s (w & w' & Hw & Hw' & ->) H. now apply trim_padded. Qed.

Lemma bal_spaced : forall w s, all_blank w -> bal (spaced w s) = bal s.
Proof.
  intros w s Hw. assert (Hb : bal w = 0%Z) by (apply bal_blank, forallb_forall; exact Hw).
  induction s as [|c s IH]; [easy|].
  change (spaced w (c :: s)) with ((if (c =? c_comma)%N then [c] ++ w else [c]) ++ spaced w s).
  change (c :: s) with ([c] ++ s). rewrite !bal_app, IH. destruct (c =? c_comma)%N; rewrite ?bal_app; lia.
Qed.
Lemma print_bal : forall w a, all_blank w -> ann_ok a -> bal (print_ann w a) = 0%Z.
Proof. intros w a Hw Ha. rewrite print_spaced, bal_spaced by easy. now destruct (print_inner a Ha). Qed.

Lemma spaced_solid : forall w s, all_blank w -> all_solid s -> solid (spaced w s).
Proof.
  intros w s Hw Hs. apply all_solid_solid in Hs as Hsol. 
  assert (Hcomma : is_ws c_comma = false) by easy.
  unfold all_solid in Hs. destruct Hsol as [(c & t & -> & Hc) (t' & c' & E & Hc')]. split.
  - change (spaced w (c :: t)) with ((if (c =? c_comma)%N then c :: w else [c]) ++ spaced w t).
    destruct (c =? c_comma)%N; cbn; eauto.
  - rewrite E in *. clear E.
    assert (Hne : c' <> c_comma).
    { intros ->. assert (Hi : In [] (split_char c_comma (t' ++ [c_comma]))).
      { change (t' ++ [c_comma]) with (join [44%N] [t'; []]). change c_comma with 44%N.
        rewrite split_join_concat by easy. cbn. apply in_or_app. right. now left. }
      apply Hs in Hi as [(? & ? & ? & _) _]. easy. }
    rewrite spaced_app. cbn. destruct (N.eqb_spec c' c_comma); [easy|]. cbn. eauto.
Qed.
Lemma print_solid : forall w a, all_blank w -> ann_ok a -> solid (print_ann w a).
Proof. intros w a Hw Ha. rewrite print_spaced by easy. apply spaced_solid; [easy|]. now apply print_all_solid. Qed.

Lemma count_char_join : forall c l, l <> [] -> (forall s, In s l -> ~ In c s) ->
  N.to_nat (count_char c (join [c] l)) + 1 = length l.
Proof.
  intros c l. induction l as [|x l IH]; intros Hn H; [easy|]. assert (Hx : count_char c x = 0%N) by (apply count_char_0, H; now left).
  destruct l as [|y l]; [cbn [join length]; rewrite Hx; easy|].
  rewrite join_cons, !count_char_app, Hx. cbn [count_char]. rewrite N.eqb_refl.
  specialize (IH ltac:(easy) ltac:(intros; apply H; now right)). cbn [length] in *. lia.
Qed.

Lemma singles_repaired : forall dbg l, l <> [] -> (forall x, In x l -> bal x = 0%Z) -> repair dbg c_comma l = Ok l.
Proof.
  intros dbg l Hn H. 
  assert (E : concat (map (fun x => [x]) l) = l) by (clear; induction l as [|x l IH]; cbn; [easy|now rewrite IH]).
  rewrite <- E at 1. rewrite repair_groups.
  - f_equal. rewrite map_map. cbn. apply map_id.
  - reflexivity.
  - intros g Hg. apply in_map_iff in Hg as (x & <- & Hx). cbn. rewrite (H x Hx). easy.
  - destruct l; easy.
  - rewrite map_map. cbn [length]. clear. induction l as [|x l IH]; cbn [map fits]; [easy|]. split; [left; lia|easy].
Qed.

Lemma forall2_in_r : forall {A B} (R : A -> B -> Prop) l l', Forall2 R l l' -> forall y, In y l' -> exists x, In x l /\ R x y.
Proof. induction 1 as [|a b l l' Hab Hl IH]; intros y Hy; [easy|]. destruct Hy as [<-|Hy]; [exists a; split; [now left|easy]|]. destruct (IH y Hy) as (x & ? & ?). exists x. split; [now right|easy]. Qed.

Lemma forall2_length : forall {A B} (R : A -> B -> Prop) l l', Forall2 R l l' -> length l = length l'.
Proof. induction 1; cbn; congruence. Qed.

Lemma members_split : forall w l ps, all_blank w -> l <> [] -> (forall a, In a l -> ann_ok a) ->
  Forall2 padded (map (print_ann w) l) ps ->
  ps <> [] /\ (forall s, In s ps -> ~ In c_bar s) /\
  split_trim c_bar (join [c_bar] ps) = map (print_ann w) l.
Proof.
  intros w l ps Hw Hl Ha H.
  assert (Hps : ps <> []) by (destruct l; [easy|]; inversion H; easy).
  assert (Hnb : forall s, In s ps -> ~ In c_bar s).
  { intros s Hs. destruct (forall2_in_r _ _ _ H s Hs) as (m & Hm & Hp). apply (padded_no_bar m s Hp).
    apply in_map_iff in Hm as (a & <- & Hi). apply print_no_bar; auto. }
  split; [easy|]. split; [easy|]. unfold split_trim. rewrite split_char_join by easy.
  clear Hps Hnb Hl. revert ps H. induction l as [|a l IH]; intros ps H; inversion H; subst; [easy|].
  cbn [map]. f_equal.
  - apply trim_of_padded; [easy|]. apply print_solid; [easy|]. apply Ha. now left.
  - apply IH; [intros; apply Ha; now right|easy].
Qed.

Lemma bar_in_join : forall x y l, In c_bar (join [c_bar] (x :: y :: l)).
Proof. intros. rewrite join_cons. apply in_or_app. right. now left. Qed.

Lemma prim_bar : forall s, In c_bar s -> lookup_lit s lits_prim = None.
Proof. intros s H. apply (lookup_lit_char c_bar); [reflexivity|easy]. Qed.

Lemma union_read : forall dbg w l ps, all_blank w -> length l >= 2 -> (forall a, In a l -> ann_ok a) ->
  Forall2 padded (map (print_ann w) l) ps ->
  (length l >= 3 \/ forall a, In a l -> contains_str (u "None") (print_ann w a) = false) ->
  from_str dbg (join [c_bar] ps) = Ok (TUnion (map meaning l)).
Proof.
  intros dbg w l ps Hw Hlen Ha H Hc.
  assert (Hl : l <> []) by (destruct l; [cbn in Hlen; lia|easy]).
  destruct (members_split w l ps Hw Hl Ha H) as (Hps & Hnb & Hst).
  assert (Hlps : length ps = length l) by (apply forall2_length in H; rewrite map_length in H; easy).
  assert (Hbar : In c_bar (join [c_bar] ps)) by (destruct ps as [|x [|y ps]]; cbn in Hlps; [easy|lia|apply bar_in_join]).
  rewrite from_str_eq. unfold from_str_body. rewrite prim_bar by easy.
  assert (Hno : ((count_char c_bar (join [c_bar] ps) =? 1) && (count_str (u "None") (join [c_bar] ps) =? 1))%N = false).
  { pose proof (count_char_join c_bar ps Hps Hnb) as Hcc. destruct Hc as [Hc|Hc].
    - destruct (N.eqb_spec (count_char c_bar (join [c_bar] ps)) 1) as [E|]; [rewrite E in Hcc; cbn in Hcc; lia|easy].
    - destruct (N.eqb_spec (count_char c_bar (join [c_bar] ps)) 1) as [E|]; [rewrite E in Hcc; cbn in Hcc|easy].
      destruct l as [|a [|b [|? ?]]]; cbn in Hlen, Hlps; try lia. cbn [map] in H.
      inversion H as [|? s1 ? ps1 P1 H1]; subst. inversion H1 as [|? s2 ? ps2 P2 H2]; subst. inversion H2; subst.
      destruct P1 as (w1 & w1' & B1 & B1' & ->), P2 as (w2 & w2' & B2 & B2' & ->). cbn [join]. unfold count_str.
      rewrite app_length. cbn [app length]. rewrite plus_n_Sm.
      rewrite count_member; [|easy|easy|apply Hc; now left].
      rewrite <- (Nat.add_1_r (length _)), count_last; [easy|easy|easy|apply Hc; right; now left]. }
  rewrite Hno. apply contains_char_In in Hbar. rewrite Hbar. unfold from_union. rewrite Hst.
  rewrite singles_repaired.
  - cbn [obind]. assert (E : mapM (from_str dbg) (map (print_ann w) l) = Ok (map meaning l)); [|now rewrite E].
    clear - Ha Hw. induction l as [|a l IH]; [easy|]. cbn [map mapM]. rewrite annotation_read; [|easy|apply Ha; now left].
    cbn [obind]. rewrite IH by (intros; apply Ha; now right). easy.
  - destruct l; easy.
  - intros x Hx. apply in_map_iff in Hx as (a & <- & Hi). apply print_bal; auto.
Qed.

Lemma none_ok : ann_ok (XName (u "None")).
Proof.
  constructor. split; [easy|]. split; [|easy]. intros c Hc. cbn in Hc.
  destruct Hc as [<-|[<-|[<-|[<-|[]]]]]; (split; [easy|]; apply contains_false; reflexivity).
Qed.

Lemma optional_read : forall dbg w a s1 s2, all_blank w -> ann_ok a ->
  contains_str (u "None") (print_ann w a) = false ->
  padded (print_ann w a) s1 -> padded (u "None") s2 ->
  from_str dbg (s1 ++ u "|" ++ s2) = Ok (TOptional (meaning a)) /\
  from_str dbg (s2 ++ u "|" ++ s1) = Ok (TOptional (meaning a)).
Proof.
  intros dbg w a s1 s2 Hw Ha Hc P1 P2.
  assert (Hne : str_eqb (print_ann w a) (u "None") = false).
  { destruct (str_eqb (print_ann w a) (u "None")) eqn:E; [|easy]. apply str_eqb_eq in E. now rewrite E in Hc. }
  assert (Hok : forall l, (forall x, In x l -> x = a \/ x = XName (u "None")) -> forall x, In x l -> ann_ok x).
  { intros l Hl x Hx. destruct (Hl x Hx) as [->| ->]; [easy|apply none_ok]. }
  split.
  - destruct (members_split w [a; XName (u "None")] [s1; s2] Hw ltac:(easy)) as (Hps & Hnb & Hst).
    { apply Hok. intros x [<-|[<-|[]]]; auto. }
    { cbn. repeat constructor; easy. }
    change (s1 ++ u "|" ++ s2) with (join [c_bar] [s1; s2]).
    rewrite from_str_eq. unfold from_str_body. rewrite prim_bar by apply bar_in_join.
    pose proof (count_char_join c_bar _ Hps Hnb) as Hcc. cbn [length] in Hcc.
    replace (count_char c_bar (join [c_bar] [s1; s2])) with 1%N by lia.
    assert (E : count_str (u "None") (join [c_bar] [s1; s2]) = 1%N).
    { destruct P1 as (w1 & w1' & B1 & B1' & ->), P2 as (w2 & w2' & B2 & B2' & ->). cbn [join]. unfold count_str.
      rewrite app_length. cbn [app length]. rewrite plus_n_Sm.
      rewrite count_member by easy. rewrite !app_length. 
      replace (S (length w2 + (length (u "None") + length w2'))) with (length w2 + S (length (u "None") + length w2')) by lia.
      now apply count_none_last. }
    rewrite E. cbn [N.eqb Pos.eqb andb]. unfold from_optional. rewrite Hst. cbn [map find print_ann]. rewrite Hne.
    cbn [negb unwrap obind]. now rewrite annotation_read.
  - destruct (members_split w [XName (u "None"); a] [s2; s1] Hw ltac:(easy)) as (Hps & Hnb & Hst).
    { apply Hok. intros x [<-|[<-|[]]]; auto. }
    { cbn. repeat constructor; easy. }
    change (s2 ++ u "|" ++ s1) with (join [c_bar] [s2; s1]).
    rewrite from_str_eq. unfold from_str_body. rewrite prim_bar by apply bar_in_join.
    pose proof (count_char_join c_bar _ Hps Hnb) as Hcc. cbn [length] in Hcc.
    replace (count_char c_bar (join [c_bar] [s2; s1])) with 1%N by lia.
    assert (E : count_str (u "None") (join [c_bar] [s2; s1]) = 1%N).
    { destruct P1 as (w1 & w1' & B1 & B1' & ->), P2 as (w2 & w2' & B2 & B2' & ->). cbn [join]. unfold count_str.
      rewrite <- !app_assoc. rewrite !app_length.
      replace (S (length w2 + (length (u "None") + (length w2' + (length [c_bar] + (length w1 + (length (print_ann w a) + length w1')))))))
        with (length w2 + S (3 + (length w2' + (1 + S (length (w1 ++ print_ann w a ++ w1')))))) by (rewrite !app_length; cbn [length u]; cbn; lia).
      rewrite count_fuel_blank; [|easy|intros c Hcw; now apply (blank_not_none w2)].
      cbn [count_str_fuel]. rewrite strip_prefix_app.
      replace (3 + (length w2' + (1 + S (length (w1 ++ print_ann w a ++ w1')))))
        with (length w2' + S (length (w1 ++ print_ann w a ++ w1') + 4)) by lia.
      rewrite count_fuel_blank; [|easy|intros c Hcw; now apply (blank_not_none w2')].
      change (S (length (w1 ++ print_ann w a ++ w1') + 4)) with (length (@nil N) + S (length (w1 ++ print_ann w a ++ w1') + 4)).
      change ([c_bar] ++ w1 ++ print_ann w a ++ w1') with ([] ++ c_bar :: (w1 ++ print_ann w a ++ w1')).
      rewrite count_fuel_skip; [|easy|apply contains_false; reflexivity]. now rewrite count_last. }
    rewrite E. cbn [N.eqb Pos.eqb andb]. unfold from_optional. rewrite Hst. cbn [map find print_ann]. rewrite Hne.
    change (str_eqb (u "None") (u "None")) with true. cbn [negb unwrap obind]. now rewrite annotation_read.
Qed.
