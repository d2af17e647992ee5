From Verif Require Import Base Model_Config Model_Type Spec_Type Proof_Base Proof_Repair Proof_Type.

(** ** Literal tables *)
Lemma lookup_lit_In : forall s l t, lookup_lit s l = Some t -> In s (map fst l).
Proof.
  intros s l t H. unfold lookup_lit in H. destruct (find _ l) as [e|] eqn:E; [|easy].
  apply find_In in E as [E1 E2]. apply str_eqb_eq in E2. subst s. now apply in_map.
Qed.
Lemma lookup_lit_char : forall c s l, forallb (fun e => negb (contains_char c (fst e))) l = true -> In c s ->
  lookup_lit s l = None.
Proof.
  intros c s l H Hc. destruct (lookup_lit s l) eqn:E; [|easy]. exfalso. apply lookup_lit_In in E.
  apply in_map_iff in E as (e & <- & He). rewrite forallb_forall in H. apply H in He.
  apply negb_true_iff in He. apply contains_char_In in Hc. congruence.
Qed.

Lemma from_str_nobar : forall dbg s, ~ In c_bar s -> lookup_lit s lits_prim = None ->
  from_str dbg s = from_colls dbg (from_str dbg) s.
Proof.
  intros dbg s Hb Hl. rewrite from_str_eq. unfold from_str_body. rewrite Hl.
  apply count_char_0 in Hb as Hc. rewrite Hc. cbn [N.eqb andb].
  destruct (contains_char c_bar s) eqn:E; [|easy]. apply contains_char_In in E. easy.
Qed.

(** ** C12: wrappers *)
Ltac skip_delims :=
  repeat match goal with
  | |- context [delimited ?p ?q ?s] =>
      first [ rewrite (delimited_mk p q) | replace (delimited p q s) with (@None (outcome str)) by reflexivity ];
      cbv beta iota
  | |- context [lookup_lit ?s ?l] => replace (lookup_lit s l) with (@None ptype) by reflexivity; cbv beta iota
  | |- context [str_eqb ?s ?l] => replace (str_eqb s l) with false by reflexivity; cbv beta iota
  end.

Lemma no_bar_app : forall a b, ~ In c_bar a -> ~ In c_bar b -> ~ In c_bar (a ++ b).
Proof. intros a b Ha Hb H. apply in_app_or in H as []; auto. Qed.
Lemma contains_false : forall c s, contains_char c s = false -> ~ In c s.
Proof. intros c s H Hi. apply contains_char_In in Hi. congruence. Qed.
Ltac nobar_const := apply contains_false; reflexivity.

Lemma from_str_typing : forall dbg s, ~ In c_bar s -> from_str dbg (u "typing." ++ s) = from_str dbg s.
Proof.
  intros dbg s H. rewrite from_str_nobar; [|apply no_bar_app; [nobar_const|easy]|reflexivity]. reflexivity.
Qed.
Lemma from_str_collections_abc : forall dbg s, ~ In c_bar s -> from_str dbg (u "collections.abc." ++ s) = from_str dbg s.
Proof.
  intros dbg s H. rewrite from_str_nobar; [|apply no_bar_app; [nobar_const|easy]|reflexivity]. reflexivity.
Qed.
Lemma from_str_collections : forall dbg s, ~ In c_bar s -> starts_with (u "abc.") s = false ->
  from_str dbg (u "collections." ++ s) = from_str dbg s.
Proof.
  intros dbg s H Ha. rewrite from_str_nobar; [|apply no_bar_app; [nobar_const|easy]|reflexivity].
  unfold from_colls, from_colls2, from_mid, from_wrapped. skip_delims.
  change (prefixed (u "typing.") (u "collections." ++ s)) with (@None str). cbv beta iota.
  change (prefixed (u "collections.abc.") (u "collections." ++ s)) with (strip_prefix (u "abc.") s).
  unfold starts_with in Ha. destruct (strip_prefix (u "abc.") s); [easy|]. reflexivity.
Qed.
Lemma from_str_class : forall dbg s, ~ In c_bar s -> from_str dbg (u "<class '" ++ s ++ u "'>") = from_str dbg s.
Proof.
  intros dbg s H. rewrite from_str_nobar; [|repeat apply no_bar_app; try easy; nobar_const|reflexivity].
  unfold from_colls, from_colls2, from_mid, from_wrapped. skip_delims. easy.
Qed.
Lemma from_str_enum : forall dbg s, ~ In c_bar s -> from_str dbg (u "<enum '" ++ s ++ u "'>") = from_str dbg s.
Proof.
  intros dbg s H. rewrite from_str_nobar; [|repeat apply no_bar_app; try easy; nobar_const|reflexivity].
  unfold from_colls, from_colls2, from_mid, from_wrapped. skip_delims. easy.
Qed.
Lemma from_str_type : forall dbg s, ~ In c_bar s -> from_str dbg (u "type[" ++ s ++ u "]") = from_str dbg s.
Proof.
  intros dbg s H. rewrite from_str_nobar; [|repeat apply no_bar_app; try easy; nobar_const|reflexivity].
  unfold from_colls, from_colls2, from_mid, from_wrapped. skip_delims. easy.
Qed.

Definition wrap_text (w : wrapper) (s : str) : str := wrap_pre w ++ s ++ wrap_suf w.
Lemma from_str_wrap : forall dbg w s, ~ In c_bar s -> (w = WCollections -> starts_with (u "abc.") s = false) ->
  from_str dbg (wrap_text w s) = from_str dbg s.
Proof.
  intros dbg w s H Hw. unfold wrap_text. destruct w; cbn [wrap_pre wrap_suf]; rewrite ?app_nil_r.
  - now apply from_str_typing.
  - apply from_str_collections; auto.
  - now apply from_str_collections_abc.
  - now apply from_str_class.
  - now apply from_str_enum.
Qed.

(** ** Layout: solid pieces *)
Definition solid (p : str) : Prop :=
  (exists c t, p = c :: t /\ is_ws c = false) /\ (exists t c, p = t ++ [c] /\ is_ws c = false).

Lemma solid_trim_end : forall t c, is_ws c = false -> trim_end (t ++ [c]) = t ++ [c].
Proof. intros t c H. unfold trim_end. rewrite rev_app_distr. cbn. rewrite H. cbn. now rewrite rev_involutive. Qed.
Lemma trim_start_blank : forall w c t, all_blank w -> is_ws c = false -> trim_start (w ++ c :: t) = c :: t.
Proof.
  induction w as [|x w IH]; intros c t Hw Hc; cbn.
  - unfold trim_start. cbn. now rewrite Hc.
  - unfold trim_start in *. cbn. rewrite (Hw x (or_introl eq_refl)). apply IH; [|easy]. intros y Hy. apply Hw. now right.
Qed.
Lemma trim_end_blank : forall w t c, all_blank w -> is_ws c = false -> trim_end (t ++ [c] ++ w) = t ++ [c].
Proof.
  intros w t c Hw Hc. unfold trim_end. rewrite !rev_app_distr. cbn [rev app].
  assert (H : drop_while is_ws (rev w ++ c :: rev t) = c :: rev t).
  { apply (trim_start_blank (rev w) c (rev t)); [|easy]. intros x Hx. apply Hw. now apply in_rev. }
  rewrite <- app_assoc. cbn [app]. rewrite H. cbn. now rewrite rev_involutive.
Qed.
Lemma trim_padded : forall w p w', all_blank w -> all_blank w' -> solid p -> trim (w ++ p ++ w') = p.
Proof.
  intros w p w' Hw Hw' [(c & t & E1 & Hc) (t' & c' & E2 & Hc')]. unfold trim.
  rewrite E1. cbn [app]. rewrite trim_start_blank by easy.
  change (trim_end ((c :: t) ++ w') = c :: t). rewrite <- E1, E2, <- app_assoc. now apply trim_end_blank.
Qed.
Lemma trim_solid : forall p, solid p -> trim p = p.
Proof.
  intros p H. pose proof (trim_padded [] p [] ltac:(easy) ltac:(easy) H) as E. cbn in E. now rewrite app_nil_r in E.
Qed.

Definition all_solid (s : str) : Prop := forall p, In p (split_char c_comma s) -> solid p.

Lemma split_pre : forall pre s hd tl, ~ In c_comma pre -> split_char c_comma s = hd :: tl ->
  split_char c_comma (pre ++ s) = (pre ++ hd) :: tl.
Proof.
  induction pre as [|c pre IH]; intros s hd tl H E; [easy|]. cbn [app split_char].
  rewrite (IH s hd tl); [|intros Hi; apply H; now right|easy].
  destruct (N.eqb_spec c c_comma) as [->|]; [exfalso; apply H; now left|]. easy.
Qed.
Lemma split_suf : forall suf s, ~ In c_comma suf ->
  exists i l, split_char c_comma s = i ++ [l] /\ split_char c_comma (s ++ suf) = i ++ [l ++ suf].
Proof.
  intros suf s H. induction s as [|c s IH].
  - exists [], []. split; [easy|]. cbn [app]. now apply split_char_none.
  - destruct IH as (i & l & E1 & E2). cbn [app split_char]. rewrite E1, E2.
    destruct (N.eqb_spec c c_comma).
    + exists ([] :: i), l. easy.
    + destruct i as [|p i]; cbn [app].
      * exists [], (c :: l). easy.
      * exists ((c :: p) :: i), l. easy.
Qed.

Definition starts_solid (s : str) : Prop := s = [] \/ exists c t, s = c :: t /\ is_ws c = false.
Definition ends_solid (s : str) : Prop := s = [] \/ exists t c, s = t ++ [c] /\ is_ws c = false.
Lemma solid_pre : forall pre p, starts_solid pre -> solid p -> solid (pre ++ p).
Proof.
  intros pre p [->|(c & t & -> & Hc)] Hp; [easy|]. destruct Hp as [_ (t' & c' & -> & Hc')]. split.
  - cbn. eauto.
  - exists ((c :: t) ++ t'), c'. rewrite <- app_assoc. easy.
Qed.
Lemma solid_suf : forall suf p, ends_solid suf -> solid p -> solid (p ++ suf).
Proof.
  intros suf p [->|(t & c & -> & Hc)] Hp; [now rewrite app_nil_r|]. destruct Hp as [(c' & t' & -> & Hc') _]. split.
  - cbn. eauto.
  - exists ((c' :: t') ++ t), c. rewrite app_assoc. easy.
Qed.
Lemma all_solid_wrap : forall pre suf s, ~ In c_comma pre -> ~ In c_comma suf -> starts_solid pre -> ends_solid suf ->
  all_solid s -> all_solid (pre ++ s ++ suf).
Proof.
  intros pre suf s H1 H2 H3 H4 Hs. 
  assert (Hs' : all_solid (s ++ suf)).
  { destruct (split_suf suf s H2) as (i & l & E1 & E2). intros p Hp. rewrite E2 in Hp.
    apply in_app_or in Hp as [Hp|[<-|[]]].
    - apply Hs. rewrite E1. apply in_or_app. now left.
    - apply solid_suf; [easy|]. apply Hs. rewrite E1. apply in_or_app. right. now left. }
  intros p Hp. destruct (split_char_cons c_comma (s ++ suf)) as (hd & tl & E).
  rewrite (split_pre pre _ hd tl H1 E) in Hp. destruct Hp as [<-|Hp].
  - apply solid_pre; [easy|]. apply Hs'. rewrite E. now left.
  - apply Hs'. rewrite E. now right.
Qed.
Lemma all_solid_join : forall l, l <> [] -> (forall s, In s l -> all_solid s) -> all_solid (join [c_comma] l).
Proof.
  intros l Hn H p Hp. unfold all_solid, c_comma in *. rewrite (split_join_concat l Hn) in Hp.
  apply in_concat in Hp as (x & Hx & Hp). apply in_map_iff in Hx as (s & <- & Hs). now apply (H s).
Qed.
Lemma all_solid_solid : forall s, all_solid s -> solid s.
Proof.
  intros s H. rewrite <- (join_split_char c_comma s). unfold all_solid in H.
  destruct (split_char_cons c_comma s) as (hd & tl & E). rewrite E in *. clear E.
  assert (Hh : solid hd) by (apply H; now left). revert hd H Hh. induction tl as [|q tl IH]; intros hd H Hh; [easy|].
  rewrite join_cons. assert (Hq : solid (join [c_comma] (q :: tl))).
  { apply IH; [intros p Hp; apply H; now right|apply H; right; now left]. }
  apply solid_pre; [destruct Hh as [(c & t & -> & Hc) _]; right; eauto|]. apply solid_pre; [right; exists c_comma, []; easy|easy].
Qed.

(** White space after the commas. *)
Definition spaced (w s : str) : str := flat_map (fun c => if (c =? c_comma)%N then c :: w else [c]) s.
Lemma spaced_app : forall w a b, spaced w (a ++ b) = spaced w a ++ spaced w b.
Proof. intros. apply flat_map_app. Qed.
Lemma spaced_none : forall w s, ~ In c_comma s -> spaced w s = s.
Proof.
  induction s as [|c s IH]; intros H; [easy|]. cbn. destruct (N.eqb_spec c c_comma) as [->|]; [exfalso; apply H; now left|].
  cbn. f_equal. apply IH. intros Hi. apply H. now right.
Qed.
Lemma spaced_nil : forall s, spaced [] s = s.
Proof. induction s as [|c s IH]; [easy|]. cbn. destruct (c =? c_comma)%N; cbn; now f_equal. Qed.

Lemma blank_no_comma : forall w, all_blank w -> ~ In c_comma w.
Proof. intros w H Hi. apply H in Hi. easy. Qed.

Lemma split_spaced : forall w s hd tl, all_blank w -> split_char c_comma s = hd :: tl ->
  split_char c_comma (spaced w s) = hd :: map (app w) tl.
Proof.
  intros w s. induction s as [|c s IH]; intros hd tl Hw E.
  - cbn in E. injection E as <- <-. easy.
  - destruct (split_char_cons c_comma s) as (h' & t' & E'). specialize (IH h' t' Hw E').
    cbn [split_char] in E. rewrite E' in E.
    change (spaced w (c :: s)) with ((if (c =? c_comma)%N then c :: w else [c]) ++ spaced w s).
    destruct (N.eqb_spec c c_comma) as [->|Hc].
    + injection E as <- <-. cbn [app split_char]. rewrite N.eqb_refl. f_equal.
      rewrite (split_pre w _ _ _ (blank_no_comma w Hw) IH). easy.
    + injection E as <- <-. cbn [app split_char]. rewrite IH. destruct (N.eqb_spec c c_comma); [easy|]. easy.
Qed.

Lemma split_trim_spaced : forall w s, all_blank w -> all_solid s -> split_trim c_comma (spaced w s) = split_char c_comma s.
Proof.
  intros w s Hw Hs. unfold split_trim. destruct (split_char_cons c_comma s) as (hd & tl & E).
  rewrite (split_spaced w s hd tl Hw E), E. unfold all_solid in Hs. rewrite E in Hs. cbn [map]. f_equal.
  - apply trim_solid. apply Hs. now left.
  - rewrite map_map. rewrite <- (map_id tl) at 2. apply map_ext_in. intros p Hp.
    pose proof (trim_padded w p [] Hw ltac:(easy) (Hs p (or_intror Hp))) as Ht. now rewrite app_nil_r in Ht.
Qed.

(** ** Depth *)
Definition inner (k : Z) (s : str) : Prop :=
  bal s = 0%Z /\ (forall x y, s = x ++ [44%N] ++ y -> (bal x >= k)%Z).

Lemma inner_argument : forall s, inner 1 s <-> argument s.
Proof.
  intros s. unfold inner, argument. rewrite bal_depth. split; intros [H1 H2]; split; try easy;
  intros x y E; apply H2 in E; rewrite bal_depth in *; easy.
Qed.

Lemma inner_wrap : forall k pre suf s, ~ In c_comma pre -> ~ In c_comma suf -> bal suf = (- bal pre)%Z ->
  inner k s -> inner (k + bal pre) (pre ++ s ++ suf).
Proof.
  intros k pre suf s Hp Hs Hb [H1 H2]. split; [rewrite !bal_app; lia|].
  intros x y E. apply app_eq_app in E as (l & [[E1 E2]|[E1 E2]]).
  - (* pre = x ++ l, the comma is in pre unless l is empty *)
    destruct l as [|c l].
    + cbn in E2. rewrite app_nil_r in E1. subst x.
      destruct s as [|c s]; [cbn in E2; subst suf; exfalso; apply Hs; now left|].
      cbn in E2. injection E2 as <- _. specialize (H2 [] s eq_refl). change (bal []) with 0%Z in H2. lia.
    + cbn in E2. injection E2 as <- _. exfalso. apply Hp. rewrite E1. apply in_or_app. right. now left.
  - subst x. symmetry in E2. rewrite app_assoc in E2. apply app_eq_app in E2 as (m & [[E3 E4]|[E3 E4]]).
    + (* l ++ [,] = s ++ m *) 
      destruct (rev m) as [|c m'] eqn:Em.
      * assert (m = []) as -> by (rewrite <- (rev_involutive m), Em; easy). rewrite app_nil_r in E3.
        rewrite bal_app. specialize (H2 l []). rewrite app_nil_r in H2. rewrite <- E3 in H2. specialize (H2 eq_refl). lia.
      * assert (Hm : m = rev m' ++ [c]) by (rewrite <- (rev_involutive m), Em; easy).
        rewrite Hm, app_assoc in E3. apply app_inj_tail in E3 as [_ <-]. exfalso. apply Hs. rewrite E4, Hm.
        apply in_or_app. left. apply in_or_app. right. now left.
    + (* s = (l ++ [,]) ++ m *)
      rewrite bal_app. rewrite <- app_assoc in E3. specialize (H2 l m E3). lia.
Qed.

Lemma inner_weaken : forall k k' s, (k' <= k)%Z -> inner k s -> inner k' s.
Proof. intros k k' s H [H1 H2]. split; [easy|]. intros x y E. apply H2 in E. lia. Qed.

Lemma inner_join : forall l, l <> [] -> (forall s, In s l -> inner 0 s) -> inner 0 (join [c_comma] l).
Proof.
  induction l as [|a l IH]; intros Hn H; [easy|]. destruct l as [|b l]; [cbn; apply H; now left|].
  assert (Ha : inner 0 a) by (apply H; now left).
  assert (Hl : inner 0 (join [c_comma] (b :: l))) by (apply IH; [easy|intros s Hs; apply H; now right]).
  rewrite join_cons. destruct Ha as [A1 A2], Hl as [B1 B2]. split.
  - rewrite !bal_app. unfold c_comma. rewrite bal_comma. unfold c_comma in B1. lia.
  - intros x y E. apply app_eq_app in E as (m & [[E1 E2]|[E1 E2]]).
    + destruct m as [|c m].
      * rewrite app_nil_r in E1. subst x. lia.
      * cbn in E2. injection E2 as <- E2. apply (A2 x m). subst a. easy.
    + subst x. rewrite bal_app. destruct m as [|c m].
      * change (bal []) with 0%Z. lia.
      * cbn in E2. injection E2 as <- E2. replace (bal (c_comma :: m)) with (bal m)
          by (change (c_comma :: m) with ([44%N] ++ m); rewrite bal_app, bal_comma; lia).
        assert (bal m >= 0)%Z; [|lia]. apply (B2 m y). easy.
Qed.

Lemma n_pieces_app : forall a b, n_pieces (a ++ b) + 1 = n_pieces a + n_pieces b.
Proof. induction a as [|c a IH]; intros b; cbn [app n_pieces]; [lia|]. specialize (IH b). lia. Qed.
Lemma n_pieces_none : forall s, ~ In c_comma s -> n_pieces s = 1.
Proof. intros s H. rewrite n_pieces_length. rewrite split_char_none; easy. Qed.
Lemma n_pieces_join : forall l, l <> [] -> n_pieces (join [c_comma] l) = total (map n_pieces l).
Proof.
  induction l as [|a l IH]; intros H; [easy|]. destruct l as [|b l]; [cbn; lia|].
  rewrite join_cons. pose proof (n_pieces_app a ([c_comma] ++ join [c_comma] (b :: l))) as H1.
  pose proof (n_pieces_app [c_comma] (join [c_comma] (b :: l))) as H2.
  rewrite IH in H2 by easy. change (n_pieces [c_comma]) with 2 in H2. cbn [map total] in *. lia.
Qed.

(** ** Facts about printed annotations *)
Lemma blank_no_bar : forall w, all_blank w -> ~ In c_bar w.
Proof. intros w H Hi. apply H in Hi. easy. Qed.

Lemma join_no_char : forall c sep l, ~ In c sep -> (forall s, In s l -> ~ In c s) -> ~ In c (join sep l).
Proof.
  intros c sep l Hs. induction l as [|x l IH]; intros H; [easy|]. destruct l as [|y l]; [cbn; apply H; now left|].
  rewrite join_cons. intros Hi. apply in_app_or in Hi as [Hi|Hi]; [now apply (H x (or_introl eq_refl))|].
  apply in_app_or in Hi as [Hi|Hi]; [easy|]. revert Hi. apply IH. intros s Hs'. apply H. now right.
Qed.

Lemma print_no_bar : forall w a, all_blank w -> ann_ok a -> ~ In c_bar (print_ann w a).
Proof.
  intros w a Hw Ha. induction Ha as [n Hn|g a Ha IH|k v Hk IHk Hv IHv Hf|l Hl Ha IH Hf|ps r Hps IHps Hr IHr Hf|k a Ha IH Hab].
  - destruct Hn as (_ & Hn & _). cbn. intros Hi. apply Hn in Hi as [_ Hi]. apply Hi. cbn. tauto.
  - cbn [print_ann]. repeat apply no_bar_app; try easy; try nobar_const. destruct g; nobar_const.
  - cbn [print_ann]. repeat apply no_bar_app; try easy; try nobar_const. now apply blank_no_bar.
  - cbn [print_ann]. repeat apply no_bar_app; try nobar_const. apply join_no_char.
    + apply no_bar_app; [nobar_const|now apply blank_no_bar].
    + intros s Hs. apply in_map_iff in Hs as (a & <- & Hi). now apply IH.
  - cbn [print_ann]. repeat apply no_bar_app; try nobar_const. apply join_no_char.
    + apply no_bar_app; [nobar_const|now apply blank_no_bar].
    + intros s Hs. apply in_app_or in Hs as [Hs|[<-|[]]]; [|easy]. apply in_map_iff in Hs as (a & <- & Hi). now apply IHps.
  - cbn [print_ann]. repeat apply no_bar_app; try easy; destruct k; nobar_const.
Qed.

Lemma spaced_join : forall w l, spaced w (join [c_comma] l) = join (c_comma :: w) (map (spaced w) l).
Proof.
  induction l as [|a l IH]; [easy|]. destruct l as [|b l]; [easy|].
  rewrite join_cons, !spaced_app. cbn [map]. rewrite join_cons. cbn [map] in IH. rewrite <- IH.
  change (spaced w [c_comma]) with (c_comma :: w ++ []). rewrite app_nil_r. easy.
Qed.

Ltac comma_const := apply contains_false; reflexivity.
Lemma gen_pre_no_comma : forall g, ~ In c_comma (gen_name g).
Proof. destruct g; comma_const. Qed.
Lemma plain_no_comma : forall n, plain_name n -> ~ In c_comma n.
Proof. intros n (_ & H & _) Hi. apply H in Hi as [_ Hi]. apply Hi. cbn. tauto. Qed.

Lemma print_spaced : forall w a, ann_ok a -> print_ann w a = spaced w (print_ann [] a).
Proof.
  intros w a Ha. induction Ha as [n Hn|g a Ha IH|k v Hk IHk Hv IHv Hf|l Hl Ha IH Hf|ps r Hps IHps Hr IHr Hf|k a Ha IH Hab];
    cbn [print_ann]; rewrite ?spaced_app.
  - now rewrite spaced_none by now apply plain_no_comma.
  - rewrite IH. rewrite (spaced_none w (gen_name g)) by apply gen_pre_no_comma. easy.
  - rewrite IHk, IHv. change (spaced w (u "dict[")) with (u "dict["). change (spaced w (u "]")) with (u "]").
    change (spaced w (u ",")) with (c_comma :: w ++ []). change (spaced w []) with (@nil N). rewrite app_nil_r. easy.
  - change (u "," ++ []) with [c_comma]. rewrite spaced_join, map_map.
    rewrite (map_ext_in _ (fun a => spaced w (print_ann [] a)) l) by now intros; apply IH. easy.
  - change (u "," ++ []) with [c_comma]. rewrite spaced_join, map_app, map_map. cbn [map]. rewrite <- IHr.
    rewrite (map_ext_in _ (fun a => spaced w (print_ann [] a)) ps) by now intros; apply IHps. easy.
  - rewrite IH. destruct k; easy.
Qed.

Lemma plain_solid : forall n, plain_name n -> solid n.
Proof.
  intros n (Hn & Hc & _). split.
  - destruct n as [|c n]; [easy|]. exists c, n. split; [easy|]. apply (Hc c). now left.
  - destruct (exists_last Hn) as (t & c & ->). exists t, c. split; [easy|]. apply (Hc c). apply in_or_app. right. now left.
Qed.
Lemma solid_all : forall s, ~ In c_comma s -> solid s -> all_solid s.
Proof. intros s H Hs p Hp. rewrite split_char_none in Hp by easy. now destruct Hp as [<-|[]]. Qed.

Lemma print_bracket : forall pre s, ~ In c_comma pre -> starts_solid pre -> all_solid s -> all_solid (pre ++ s ++ u "]").
Proof.
  intros pre s H1 H2 H3. apply all_solid_wrap; [easy|comma_const|easy| |easy]. right. exists [], 93%N. easy.
Qed.

Lemma print_all_solid : forall a, ann_ok a -> all_solid (print_ann [] a).
Proof.
  intros a Ha. induction Ha as [n Hn|g a Ha IH|k v Hk IHk Hv IHv Hf|l Hl Ha IH Hf|ps r Hps IHps Hr IHr Hf|k a Ha IH Hab];
    cbn [print_ann].
  - apply solid_all; [now apply plain_no_comma|now apply plain_solid].
  - rewrite app_assoc. apply print_bracket; [|destruct g; right; eexists; eexists; split; reflexivity|easy].
    intros Hi. apply in_app_or in Hi as [Hi|Hi]; [now apply gen_pre_no_comma in Hi|revert Hi; comma_const].
  - change ([] ++ print_ann [] v ++ u "]") with (print_ann [] v ++ u "]").
    replace (print_ann [] k ++ u "," ++ print_ann [] v ++ u "]")
      with (join [c_comma] [print_ann [] k; print_ann [] v] ++ u "]") by (cbn [join]; rewrite <- !app_assoc; reflexivity).
    apply print_bracket; [comma_const|right; eexists; eexists; split; reflexivity|]. apply all_solid_join; [easy|].
    intros s [<-|[<-|[]]]; easy.
  - change (u "," ++ []) with [c_comma]. apply print_bracket; [comma_const|right; eexists; eexists; split; reflexivity|].
    apply all_solid_join; [destruct l; easy|]. intros s Hs. apply in_map_iff in Hs as (a & <- & Hi). now apply IH.
  - change (u "," ++ []) with [c_comma]. apply print_bracket; [comma_const|right; eexists; eexists; split; reflexivity|].
    apply all_solid_join; [destruct ps; easy|]. intros s Hs. apply in_app_or in Hs as [Hs|[<-|[]]]; [|easy].
    apply in_map_iff in Hs as (a & <- & Hi). now apply IHps.
  - apply all_solid_wrap; try easy; destruct k; try comma_const; try (left; reflexivity);
      right; try (eexists; eexists; split; reflexivity); exists [39%N], 62%N; easy.
Qed.

Lemma bracket_inner : forall pre s, ~ In c_comma pre -> bal pre = 1%Z -> inner 0 s -> inner 1 (pre ++ s ++ u "]").
Proof.
  intros pre s H1 H2 H3. replace 1%Z with (0 + bal pre)%Z by lia. apply inner_wrap; try easy; [comma_const|].
  rewrite H2. reflexivity.
Qed.

Lemma print_inner : forall a, ann_ok a -> inner 1 (print_ann [] a).
Proof.
  intros a Ha. induction Ha as [n Hn|g a Ha IH|k v Hk IHk Hv IHv Hf|l Hl Ha IH Hf|ps r Hps IHps Hr IHr Hf|k a Ha IH Hab];
    cbn [print_ann].
  - split.
    + unfold bal, n_open, n_close. destruct Hn as (_ & Hn & _).
      assert (H1 : ~ In c_lbr n) by (intros Hi; apply Hn in Hi as [_ Hi]; apply Hi; cbn; tauto).
      assert (H2 : ~ In c_rbr n) by (intros Hi; apply Hn in Hi as [_ Hi]; apply Hi; cbn; tauto).
      apply count_char_0 in H1. apply count_char_0 in H2. rewrite H1, H2. easy.
    + intros x y E. exfalso. apply (plain_no_comma n Hn). rewrite E. apply in_or_app. right. now left.
  - rewrite app_assoc. apply bracket_inner; [|destruct g; reflexivity|apply (inner_weaken 1); [lia|easy]].
    intros Hi. apply in_app_or in Hi as [Hi|Hi]; [now apply gen_pre_no_comma in Hi|revert Hi; comma_const].
  - change ([] ++ print_ann [] v ++ u "]") with (print_ann [] v ++ u "]").
    replace (print_ann [] k ++ u "," ++ print_ann [] v ++ u "]")
      with (join [c_comma] [print_ann [] k; print_ann [] v] ++ u "]") by (cbn [join]; rewrite <- !app_assoc; reflexivity).
    apply bracket_inner; [comma_const|reflexivity|]. apply inner_join; [easy|].
    intros s [<-|[<-|[]]]; apply (inner_weaken 1); easy || lia.
  - change (u "," ++ []) with [c_comma]. apply bracket_inner; [comma_const|reflexivity|].
    apply inner_join; [destruct l; easy|]. intros s Hs. apply in_map_iff in Hs as (a & <- & Hi).
    apply (inner_weaken 1); [lia|now apply IH].
  - change (u "," ++ []) with [c_comma]. apply bracket_inner; [comma_const|reflexivity|].
    apply inner_join; [destruct ps; easy|]. intros s Hs. apply in_app_or in Hs as [Hs|[<-|[]]].
    + apply in_map_iff in Hs as (a & <- & Hi). apply (inner_weaken 1); [lia|now apply IHps].
    + apply (inner_weaken 1); [lia|easy].
  - replace 1%Z with (1 + bal (wrap_pre k))%Z by (destruct k; reflexivity).
    apply inner_wrap; try easy; destruct k; try comma_const; reflexivity.
Qed.

Lemma n_pieces_wrap : forall pre s suf, ~ In c_comma pre -> ~ In c_comma suf -> n_pieces (pre ++ s ++ suf) = n_pieces s.
Proof.
  intros pre s suf H1 H2. pose proof (n_pieces_app pre (s ++ suf)). pose proof (n_pieces_app s suf).
  rewrite (n_pieces_none pre H1) in *. rewrite (n_pieces_none suf H2) in *. lia.
Qed.
Lemma total_app : forall a b, total (a ++ b) = total a + total b.
Proof. induction a as [|x a IH]; intros b; [easy|]. cbn. rewrite IH. lia. Qed.

Lemma print_pieces : forall a, ann_ok a -> n_pieces (print_ann [] a) = pieces_of a.
Proof.
  intros a Ha. induction Ha as [n Hn|g a Ha IH|k v Hk IHk Hv IHv Hf|l Hl Ha IH Hf|ps r Hps IHps Hr IHr Hf|k a Ha IH Hab];
    cbn [print_ann pieces_of].
  - apply n_pieces_none. now apply plain_no_comma.
  - rewrite app_assoc. rewrite n_pieces_wrap; [easy| |comma_const].
    intros Hi. apply in_app_or in Hi as [Hi|Hi]; [now apply gen_pre_no_comma in Hi|revert Hi; comma_const].
  - change ([] ++ print_ann [] v ++ u "]") with (print_ann [] v ++ u "]").
    replace (print_ann [] k ++ u "," ++ print_ann [] v ++ u "]")
      with (join [c_comma] [print_ann [] k; print_ann [] v] ++ u "]") by (cbn [join]; rewrite <- !app_assoc; reflexivity).
    rewrite n_pieces_wrap by comma_const. rewrite n_pieces_join by easy. cbn [map total]. lia.
  - change (u "," ++ []) with [c_comma]. rewrite n_pieces_wrap by comma_const. rewrite n_pieces_join by (destruct l; easy).
    rewrite map_map. f_equal. apply map_ext_in. exact IH.
  - change (u "," ++ []) with [c_comma]. rewrite n_pieces_wrap by comma_const. rewrite n_pieces_join by (destruct ps; easy).
    rewrite map_app, total_app. cbn [map total]. rewrite map_map, IHr, Nat.add_0_r. f_equal. f_equal. apply map_ext_in. exact IHps.
  - rewrite n_pieces_wrap; [easy|destruct k; comma_const|destruct k; comma_const].
Qed.

(** Arguments are regrouped correctly. *)
Lemma args_repaired : forall dbg w l, all_blank w -> l <> [] -> (forall a, In a l -> ann_ok a) -> fits (map pieces_of l) ->
  repair dbg c_comma (split_trim c_comma (join (c_comma :: w) (map (print_ann w) l))) = Ok (map (print_ann []) l).
Proof.
  intros dbg w l Hw Hl Ha Hf.
  rewrite (map_ext_in (print_ann w) (fun a => spaced w (print_ann [] a)) l) by (intros; apply print_spaced; now apply Ha).
  rewrite <- map_map, <- spaced_join, split_trim_spaced; [|easy|].
  - apply regroup_iff.
    + destruct l; easy.
    + intros s Hs. apply in_map_iff in Hs as (a & <- & Hi). apply inner_argument. apply print_inner. now apply Ha.
    + rewrite map_map. rewrite (map_ext_in _ pieces_of); [easy|]. intros a Hi. apply print_pieces. now apply Ha.
  - apply all_solid_join; [destruct l; easy|]. intros s Hs. apply in_map_iff in Hs as (a & <- & Hi).
    apply print_all_solid. now apply Ha.
Qed.

Lemma parse_args_ok : forall dbg w l, all_blank w -> l <> [] -> (forall a, In a l -> ann_ok a) -> fits (map pieces_of l) ->
  (forall a, In a l -> from_str dbg (print_ann [] a) = Ok (meaning a)) ->
  parse_args dbg (from_str dbg) (join (c_comma :: w) (map (print_ann w) l)) = Ok (map meaning l).
Proof.
  intros dbg w l Hw Hl Ha Hf H. unfold parse_args. rewrite args_repaired by easy. cbn [obind].
  clear Hl Ha Hf. induction l as [|a l IH]; [easy|]. cbn [map mapM]. rewrite (H a (or_introl eq_refl)). cbn [obind].
  rewrite IH by (intros; apply H; now right). easy.
Qed.

(** ** C13: printed annotations are read back *)
Lemma lookup_table : forall n l, lookup_lit n l = table_get n l.
Proof.
  intros n l. unfold lookup_lit. induction l as [|[k t] l IH]; [easy|]. cbn [find table_get fst].
  destruct (str_eqb n k); easy.
Qed.
Lemma table_get_app : forall n a b, table_get n (a ++ b) = match table_get n a with Some t => Some t | None => table_get n b end.
Proof. induction a as [|[k t] a IH]; intros b; [easy|]. cbn. destruct (str_eqb n k); [easy|]. apply IH. Qed.
Lemma table_get_const : forall n t l, table_get n (map (fun k => (k, t)) l) = if mem_str n l then Some t else None.
Proof.
  intros n t l. unfold mem_str. induction l as [|k l IH]; [easy|]. cbn. rewrite IH. destruct (str_eqb n k); easy.
Qed.

Lemma delimited_none : forall c pre suf s, In c pre -> ~ In c s -> delimited pre suf s = None.
Proof.
  intros c pre suf s Hc Hs. unfold delimited. destruct (starts_with pre s) eqn:E; [|easy].
  apply starts_with_iff in E as (t & ->). exfalso. apply Hs. apply in_or_app. now left.
Qed.

Lemma from_str_name : forall dbg n, plain_name n -> from_str dbg n = Ok (name_meaning n).
Proof.
  intros dbg n (Hn & Hc & Ht & Hcol).
  assert (Hlbr : ~ In c_lbr n) by (intros Hi; apply Hc in Hi as [_ Hi]; apply Hi; cbn; tauto).
  assert (Hlt : ~ In 60%N n) by (intros Hi; apply Hc in Hi as [_ Hi]; apply Hi; cbn; tauto).
  assert (Hbar : ~ In c_bar n) by (intros Hi; apply Hc in Hi as [_ Hi]; apply Hi; cbn; tauto).
  unfold name_meaning.
  change name_table with (lits_prim ++ [(u "Union", TUnion [TUnknown]); (u "None", TNone); (u "NoneType", TNone)] ++
     lits_dict ++ [(u "list", TList TUnknown)] ++ lits_seq ++ lits_mid ++ lits_late ++
     map (fun k => (k, TAny)) forbidden_type_names).
  rewrite !table_get_app, table_get_const.
  destruct (lookup_lit n lits_prim) as [t|] eqn:E0.
  { rewrite from_str_eq. unfold from_str_body. rewrite E0. rewrite lookup_table in E0. now rewrite E0. }
  rewrite from_str_nobar by easy. rewrite lookup_table in E0. rewrite E0. clear E0.
  unfold from_colls, from_colls2, from_mid, from_wrapped. rewrite !lookup_table.
  assert (En : table_get n lits_none = table_get n [(u "Union", TUnion [TUnknown]); (u "None", TNone); (u "NoneType", TNone)]).
  { unfold lits_none. cbn [table_get]. destruct n; [easy|]. cbn [str_eqb list_eqb]. easy. }
  rewrite En. destruct (table_get n [(u "Union", _); _; _]); [easy|].
  rewrite !(delimited_none c_lbr) by (easy || (cbn; tauto)).
  destruct (table_get n lits_dict); [easy|].
  cbn [table_get]. destruct (str_eqb n (u "list")); [easy|].
  destruct (table_get n lits_seq); [easy|]. destruct (table_get n lits_mid); [easy|]. destruct (table_get n lits_late); [easy|].
  rewrite !(delimited_none 60%N) by (easy || (cbn; tauto)).
  unfold prefixed. unfold starts_with in Ht, Hcol. destruct (strip_prefix (u "typing.") n) eqn:E1; [easy|].
  destruct (strip_prefix (u "collections.") n) eqn:E2; [easy|].
  destruct (strip_prefix (u "collections.abc.") n) as [x|] eqn:E3.
  { apply strip_prefix_Some in E3. subst n. exfalso.
    change (u "collections.abc." ++ x) with (u "collections." ++ u "abc." ++ x) in E2. now rewrite strip_prefix_app in E2. }
  destruct (mem_str n forbidden_type_names); easy.
Qed.

Lemma spaced_starts : forall w pre s, ~ In c_comma pre -> starts_with pre (spaced w s) = true -> starts_with pre s = true.
Proof.
  intros w pre. induction pre as [|c pre IH]; intros s H E; [easy|].
  apply starts_with_iff in E as (t & E). destruct s as [|d s]; [easy|].
  change (spaced w (d :: s)) with ((if (d =? c_comma)%N then d :: w else [d]) ++ spaced w s) in E.
  assert (Hcd : c = d /\ d <> c_comma).
  { destruct (N.eqb_spec d c_comma) as [->|Hd]; cbn in E; injection E as E1 E2; subst; [|easy].
    exfalso. apply H. now left. }
  destruct Hcd as [-> Hd]. destruct (N.eqb_spec d c_comma); [easy|]. cbn in E. injection E as E.
  assert (Es : starts_with pre s = true).
  { apply IH; [intros Hi; apply H; now right|]. apply starts_with_iff. now exists t. }
  apply starts_with_iff in Es as (t' & ->). apply starts_with_iff. now exists t'.
Qed.

Lemma from_str_gen : forall dbg g s, ~ In c_bar s ->
  from_str dbg (gen_name g ++ u "[" ++ s ++ u "]") = omap (gen_type g) (from_str dbg s).
Proof.
  intros dbg g s H. rewrite from_str_nobar;
    [|repeat apply no_bar_app; try easy; try nobar_const; destruct g; nobar_const|destruct g; reflexivity].
  unfold from_colls, from_colls2.
  destruct g;
    match goal with |- context [gen_name ?g ++ u "[" ++ s ++ u "]"] =>
      let p := eval cbv in (gen_name g ++ u "[") in
      change (gen_name g ++ u "[" ++ s ++ u "]") with ((gen_name g ++ u "[") ++ s ++ [c_rbr]);
      pose proof (delimited_mk (gen_name g ++ u "[") [c_rbr] s) as E
    end;
    repeat match goal with
    | |- context [delimited ?p ?q ?x] =>
        first [ change (delimited p q x) with (@None (outcome str)) | change (delimited p q x) with (delimited (gen_name _ ++ u "[") [c_rbr] x); rewrite E
              | replace (delimited p q x) with (Some (Ok s)) by (symmetry; exact E) ]; cbv beta iota
    | |- context [lookup_lit ?x ?l] => change (lookup_lit x l) with (@None ptype); cbv beta iota
    | |- context [str_eqb ?x ?l] => change (str_eqb x l) with false; cbv beta iota
    end; reflexivity.
Qed.

Lemma from_str_dict : forall dbg s, ~ In c_bar s ->
  from_str dbg (u "dict[" ++ s ++ u "]") =
  (let! l := parse_args dbg (from_str dbg) s in let! k := index l 0 in let! v := index l 1 in Ok (TDict k v)).
Proof.
  intros dbg s H. rewrite from_str_nobar; [|repeat apply no_bar_app; try easy; nobar_const|reflexivity].
  unfold from_colls. change (lookup_lit (u "dict[" ++ s ++ u "]") lits_none) with (@None ptype). cbv beta iota.
  rewrite (delimited_mk (u "dict[") [c_rbr] s : delimited (u "dict[") [c_rbr] (u "dict[" ++ s ++ u "]") = _). easy.
Qed.
Lemma from_str_tuple : forall dbg s, ~ In c_bar s ->
  from_str dbg (u "tuple[" ++ s ++ u "]") = omap TTuple (parse_args dbg (from_str dbg) s).
Proof.
  intros dbg s H. rewrite from_str_nobar; [|repeat apply no_bar_app; try easy; nobar_const|reflexivity].
  unfold from_colls, from_colls2. skip_delims. easy.
Qed.
Lemma from_str_callable : forall dbg s, ~ In c_bar s ->
  from_str dbg (u "Callable[" ++ s ++ u "]") = (let! l := parse_args dbg (from_str dbg) s in mk_function l).
Proof.
  intros dbg s H. rewrite from_str_nobar; [|repeat apply no_bar_app; try easy; nobar_const|reflexivity].
  unfold from_colls, from_colls2, from_mid. skip_delims. easy.
Qed.

Lemma no_bar_bracket : forall pre s, ~ In c_bar (pre ++ s ++ u "]") -> ~ In c_bar s.
Proof. intros pre s H Hi. apply H. apply in_or_app. right. apply in_or_app. now left. Qed.

Lemma annotation_read : forall dbg w a, all_blank w -> ann_ok a -> from_str dbg (print_ann w a) = Ok (meaning a).
Proof.
  intros dbg w a Hw Ha. revert w Hw.
  induction Ha as [n Hn|g a Ha IH|k v Hk IHk Hv IHv Hf|l Hl Ha IH Hf|ps r Hps IHps Hr IHr Hf|k a Ha IH Hab]; intros w Hw.
  - now apply from_str_name.
  - cbn [print_ann meaning]. rewrite from_str_gen by now apply print_no_bar. rewrite IH by easy. easy.
  - assert (Hb : ~ In c_bar (print_ann w (XDict k v))) by (apply print_no_bar; [easy|now constructor]).
    cbn [print_ann meaning] in *.
    replace (print_ann w k ++ u "," ++ w ++ print_ann w v ++ u "]")
      with (join (c_comma :: w) (map (print_ann w) [k; v]) ++ u "]") in *
      by (cbn [join map]; rewrite <- !app_assoc; cbn [app u]; rewrite <- ?app_assoc; reflexivity).
    rewrite from_str_dict by now apply no_bar_bracket in Hb.
    rewrite parse_args_ok; [easy|easy|easy| |easy|]; intros a [<-|[<-|[]]]; try easy; [apply IHk|apply IHv]; easy.
  - assert (Hb : ~ In c_bar (print_ann w (XTuple l))) by (apply print_no_bar; [easy|now constructor]).
    cbn [print_ann meaning] in *. change (u "," ++ w) with (c_comma :: w) in *.
    rewrite from_str_tuple by now apply no_bar_bracket in Hb.
    rewrite parse_args_ok; [easy|easy|easy|easy|easy|]. intros a Hi. now apply IH.
  - assert (Hb : ~ In c_bar (print_ann w (XCallable ps r))) by (apply print_no_bar; [easy|now constructor]).
    cbn [print_ann meaning] in *. change (u "," ++ w) with (c_comma :: w) in *.
    change (map (print_ann w) ps ++ [print_ann w r]) with (map (print_ann w) ps ++ map (print_ann w) [r]) in *.
    rewrite <- map_app in *.
    rewrite from_str_callable by now apply no_bar_bracket in Hb.
    rewrite parse_args_ok; [|easy|destruct ps; easy| | |].
    + cbn [obind]. unfold mk_function. rewrite map_app, rev_app_distr. cbn. now rewrite rev_involutive.
    + intros a Hi. apply in_app_or in Hi as [Hi|[<-|[]]]; auto.
    + rewrite map_app. easy.
    + intros a Hi. apply in_app_or in Hi as [Hi|[<-|[]]]; [now apply IHps|now apply IHr].
  - cbn [print_ann meaning]. change (wrap_pre k ++ print_ann w a ++ wrap_suf k) with (wrap_text k (print_ann w a)).
    rewrite from_str_wrap; [now apply IH|now apply print_no_bar|]. intros Hk. apply Hab in Hk.
    destruct (starts_with (u "abc.") (print_ann w a)) eqn:E; [|easy]. rewrite print_spaced in E by easy.
    apply spaced_starts in E; [congruence|comma_const].
Qed.

(** ** The size condition is necessary for tuples *)
Lemma regroup_not_fits : forall dbg args, args <> [] -> (forall a, In a args -> argument a) -> ~ fits (map n_pieces args) ->
  exists r, repair dbg 44%N (split_char 44%N (join [44%N] args)) = Ok r /\ (length r > length args)%nat.
Proof.
  intros dbg args Hn Ha Hf. rewrite split_join_concat by easy.
  assert (Hg : forall g, In g (map (split_char 44%N) args) -> closes 0 g).
  { intros g Hg. apply in_map_iff in Hg as (a & <- & Hi). apply argument_closes. now apply Ha. }
  assert (Hn' : map (split_char 44%N) args <> []) by (destruct args; easy).
  destruct (repair_loop_groups_length dbg 44%N (map (split_char 44%N) args)
              (2 * length (concat (map (split_char 44%N) args)))) as (r & Er & Hr); [reflexivity|easy|easy|lia| |].
  - rewrite map_map. rewrite (map_ext _ n_pieces); [easy|]. intros. symmetry. apply n_pieces_length.
  - exists r. rewrite map_length in Hr. split; [|easy]. unfold repair.
    pose proof (concat_nonnil_length _ Hg Hn') as Hc. destruct (concat (map (split_char 44%N) args)); [easy|]. exact Er.
Qed.

Lemma mapM_length : forall {A B} (f : A -> outcome B) l r, mapM f l = Ok r -> length r = length l.
Proof.
  induction l as [|x l IH]; intros r H; [injection H as <-; easy|]. cbn [mapM] in H.
  destruct (f x); try easy. cbn [obind] in H. destruct (mapM f l); try easy. cbn [obind] in H. injection H as <-.
  cbn. f_equal. now apply IH.
Qed.

Lemma tuple_read_iff : forall dbg w l, all_blank w -> l <> [] -> (forall a, In a l -> ann_ok a) ->
  (from_str dbg (print_ann w (XTuple l)) = Ok (meaning (XTuple l)) <-> fits (map pieces_of l)).
Proof.
  intros dbg w l Hw Hl Ha. split; [|intros Hf; apply annotation_read; [easy|now constructor]].
  intros H. assert (Hnb : ~ In c_bar (join (c_comma :: w) (map (print_ann w) l))).
  { apply join_no_char.
    - intros [E|E]; [easy|]. now apply blank_no_bar in E.
    - intros s Hs. apply in_map_iff in Hs as (a & <- & Hi). apply print_no_bar; auto. }
  cbn [print_ann meaning] in H. change (u "," ++ w) with (c_comma :: w) in H. rewrite from_str_tuple in H by easy.
  unfold parse_args in H.
  rewrite (map_ext_in (print_ann w) (fun a => spaced w (print_ann [] a)) l) in H by (intros; apply print_spaced; now apply Ha).
  rewrite <- map_map, <- spaced_join, split_trim_spaced in H; [|easy|].
  - assert (Hdec : fits (map pieces_of l) \/ ~ fits (map pieces_of l)).
    { clear. induction (map pieces_of l) as [|p t [IH|IH]]; cbn [fits]; [now left| |right; tauto].
      destruct (Nat.le_gt_cases p 1), (Nat.le_gt_cases p (total t)), (all_ones_dec t); try (left; tauto).
      right. intros [[?|[?|?]] _]; lia || easy. }
    destruct Hdec as [|Hf]; [easy|]. exfalso.
    destruct (regroup_not_fits dbg (map (print_ann []) l)) as (r & Er & Hr).
    + destruct l; easy.
    + intros s Hs. apply in_map_iff in Hs as (a & <- & Hi). apply inner_argument. apply print_inner. now apply Ha.
    + rewrite map_map. rewrite (map_ext_in _ pieces_of); [easy|]. intros a Hi. apply print_pieces. now apply Ha.
    + unfold c_comma in H. rewrite Er in H. cbn [obind] in H. destruct (mapM (from_str dbg) r) as [ts| | |] eqn:Em; try easy.
      apply mapM_length in Em. injection H as H. subst ts. rewrite map_length in *. lia.
  - apply all_solid_join; [destruct l; easy|]. intros s Hs. apply in_map_iff in Hs as (a & <- & Hi).
    apply print_all_solid. now apply Ha.
Qed.
