From Verif Require Import Base Model_Ident Model_Path Model_Import Spec_Path Spec_Names Proof_Base Proof_Ident.

Lemma path_eqb_eq : forall a b, path_eqb a b = true <-> a = b.
Proof.
  intros [la sa] [lb sb]. unfold path_eqb. cbn. rewrite andb_true_iff.
  rewrite (list_eqb_eq ident_eqb ident_eqb_eq), Bool.eqb_true_iff. split.
  - intros [-> ->]. easy.
  - intros H. injection H as -> ->. easy.
Qed.
Lemma path_eqb_refl : forall a, path_eqb a a = true.
Proof. intros. now apply path_eqb_eq. Qed.
Lemma path_eqb_neq : forall a b, path_eqb a b = false <-> a <> b.
Proof. intros. rewrite <- path_eqb_eq. destruct (path_eqb a b); split; congruence. Qed.

(** ** last_opt / removelast *)
Lemma last_opt_app : forall {A} (l : list A) x, last_opt (l ++ [x]) = Some x.
Proof.
  induction l as [|a l IH]; intros x; [easy|]. cbn [app].
  destruct (l ++ [x]) as [|b m] eqn:E; [destruct l; easy|].
  change (last_opt (b :: m) = Some x). rewrite <- E. apply IH.
Qed.
Lemma last_opt_app2 : forall {A} (l m : list A), m <> [] -> last_opt (l ++ m) = last_opt m.
Proof.
  induction l as [|a l IH]; intros m Hm; [easy|]. cbn [app].
  destruct (l ++ m) as [|b k] eqn:E; [destruct l, m; easy|].
  change (last_opt (b :: k) = last_opt m). rewrite <- E. now apply IH.
Qed.
Lemma last_opt_None : forall {A} (l : list A), last_opt l = None <-> l = [].
Proof.
  induction l as [|a l IH]; [easy|]. destruct l as [|b l]; [easy|]. change (last_opt (b :: l) = None <-> a :: b :: l = []). rewrite IH. easy.
Qed.
Lemma last_opt_Some : forall {A} (l : list A) x, last_opt l = Some x -> l = removelast l ++ [x].
Proof.
  induction l as [|a l IH]; intros x H; [easy|]. destruct l as [|b l].
  - cbn in *. congruence.
  - change (last_opt (b :: l) = Some x) in H. apply IH in H. change (a :: b :: l = a :: (removelast (b :: l) ++ [x])). now f_equal.
Qed.
Lemma last_opt_nonempty : forall {A} (l : list A), l <> [] -> exists x, last_opt l = Some x.
Proof.
  intros A l H. destruct (last_opt l) eqn:E; eauto. apply last_opt_None in E. easy.
Qed.
Lemma removelast_snoc : forall {A} (l : list A) x, removelast (l ++ [x]) = l.
Proof. intros. rewrite removelast_app by easy. cbn. apply app_nil_r. Qed.

(** ** from_py / to_py *)
Lemma filter_nonempty_id : forall l, (forall s, In s l -> s <> []) -> filter nonempty l = l.
Proof.
  induction l as [|x l IH]; intros H; [easy|]. cbn.
  destruct x as [|c x]; [exfalso; apply (H []); [now left|easy]|]. cbn. f_equal.
  apply IH. intros s Hs. apply H. now right.
Qed.

Lemma leading_dots_dots : forall n s, ~ (exists t, s = c_dot :: t) -> leading_dots (dots n ++ s) = n.
Proof.
  induction n as [|n IH]; intros s H.
  - cbn. destruct s as [|c s]; [easy|]. cbn. destruct (N.eqb_spec c c_dot) as [->|Hn]; [|easy].
    exfalso. apply H. eauto.
  - cbn. now rewrite IH.
Qed.

Lemma split_char_dots : forall n s, filter nonempty (split_char c_dot (dots n ++ s)) =
  filter nonempty (split_char c_dot s).
Proof. induction n as [|n IH]; intros s; [easy|]. cbn. apply IH. Qed.

Lemma join_comps_no_lead : forall l, (forall s, In s l -> component s) ->
  ~ (exists t, join [c_dot] l = c_dot :: t).
Proof.
  intros l H [t E]. destruct l as [|x l]; [easy|].
  destruct (H x (or_introl eq_refl)) as (H1 & H2 & _).
  destruct x as [|c x]; [easy|]. rewrite join_cons_char in E. injection E as -> _.
  apply H2. now left.
Qed.

Lemma split_dotted : forall n l, (forall s, In s l -> component s) ->
  filter nonempty (split_char c_dot (dotted n l)) = l.
Proof.
  intros n l H. unfold dotted. rewrite split_char_dots.
  destruct l as [|x l]; [easy|].
  rewrite split_char_join.
  - apply filter_nonempty_id. intros s Hs. now apply H.
  - easy.
  - intros p Hp. now apply H.
Qed.

Lemma segs_from_py_dotted : forall U n l, (forall s, In s l -> component s) ->
  path_from_py U (dotted n l) =
  mk_path false (repeat id_super n ++ map (ident_from_py U) l).
Proof.
  intros U n l H. unfold path_from_py.
  destruct (dotted n l) as [|c t] eqn:E.
  - destruct n; [|easy]. destruct l as [|x l]; [easy|]. exfalso.
    destruct (H x (or_introl eq_refl)) as (H1 & _).
    destruct x; [easy|]. unfold dotted in E. cbn [dots app] in E. rewrite join_cons_char in E. easy.
  - rewrite <- E. rewrite split_dotted by easy.
    unfold dotted. rewrite leading_dots_dots by now apply join_comps_no_lead. easy.
Qed.

Lemma join_repeat_nil : forall n l, l <> [] -> join [c_dot] (repeat [] n ++ l) = dots n ++ join [c_dot] l.
Proof.
  induction n as [|n IH]; intros l H; [easy|].
  cbn [repeat app]. rewrite join_cons' by (destruct n, l; easy). rewrite IH by easy. easy.
Qed.
Lemma join_repeat_nil0 : forall n, join [c_dot] (repeat [] n) = dots (n - 1).
Proof.
  induction n as [|n IH]; [easy|]. destruct n as [|n]; [easy|].
  change (repeat [] (S (S n))) with (@nil N :: repeat (@nil N) (S n)).
  rewrite join_cons' by easy. rewrite IH. cbn. now rewrite Nat.sub_0_r.
Qed.

Definition sup_blank (s : str) : str := if str_eqb s id_super then [] else s.

Lemma to_py_from_dotted : forall U n l, (forall s, In s l -> component s) ->
  to_py (path_from_py U (dotted n l)) =
  join [c_dot] (repeat [] n ++ map sup_blank l).
Proof.
  intros U n l H. rewrite segs_from_py_dotted by easy. unfold to_py. cbn [segs].
  rewrite !map_app. f_equal. f_equal.
  - induction n; [easy|]. cbn [repeat map]. now rewrite IHn.
  - rewrite !map_map. apply map_ext_in. intros s Hs.
    destruct (H s Hs) as (_ & _ & H3). now rewrite as_py_from_py.
Qed.

Lemma path_py_roundtrip : forall U n l,
  (forall s, In s l -> component s) -> ~ In (u "super") l -> (n = 0 \/ l <> []) ->
  to_py (path_from_py U (dotted n l)) = dotted n l.
Proof.
  intros U n l H Hs Hn. rewrite to_py_from_dotted by easy.
  assert (Hm : map sup_blank l = l).
  { rewrite <- (map_id l) at 2. apply map_ext_in. intros s Hin. unfold sup_blank.
    destruct (str_eqb s id_super) eqn:E; [|easy]. apply str_eqb_eq in E. subst. easy. }
  rewrite Hm. destruct l as [|x l].
  - destruct Hn as [->|Hn]; [easy|easy].
  - now rewrite join_repeat_nil.
Qed.

Lemma join_length_map_le : forall sep l f, (forall s : str, In s l -> length (f s) <= length s) ->
  length (join sep (map f l)) <= length (join sep l).
Proof.
  induction l as [|x l IH]; intros f H; [easy|].
  destruct l as [|y l].
  - cbn. apply H. now left.
  - cbn [map]. rewrite !join_cons, !app_length.
    specialize (IH f (fun s Hs => H s (or_intror Hs))). cbn [map] in IH.
    specialize (H x (or_introl eq_refl)). lia.
Qed.

Lemma join_length_map_lt : forall sep l f z, (forall s : str, In s l -> length (f s) <= length s) ->
  In z l -> length (f z) < length z ->
  length (join sep (map f l)) < length (join sep l).
Proof.
  induction l as [|x l IH]; intros f z H Hz Hl; [easy|].
  destruct l as [|y l].
  - cbn. destruct Hz as [->|[]]. easy.
  - cbn [map]. rewrite !join_cons, !app_length.
    destruct Hz as [->|Hz].
    + pose proof (join_length_map_le sep (y :: l) f (fun s Hs => H s (or_intror Hs))) as Hle.
      cbn [map] in Hle. lia.
    + specialize (IH f z (fun s Hs => H s (or_intror Hs)) Hz Hl). cbn [map] in IH.
      specialize (H x (or_introl eq_refl)). lia.
Qed.

Lemma dots_length : forall n, length (dots n) = n.
Proof. induction n; cbn; lia. Qed.

Lemma path_py_roundtrip_iff : forall U n l, (forall s, In s l -> component s) ->
  (to_py (path_from_py U (dotted n l)) = dotted n l <->
   ~ In (u "super") l /\ (n = 0 \/ l <> [])).
Proof.
  intros U n l H. split; [|intros [H1 H2]; now apply path_py_roundtrip].
  intros E. rewrite to_py_from_dotted in E by easy.
  destruct l as [|x l].
  - split; [easy|]. cbn [map] in E. rewrite app_nil_r, join_repeat_nil0 in E.
    unfold dotted in E. cbn [join] in E. rewrite app_nil_r in E.
    apply (f_equal (@length N)) in E. rewrite !dots_length in E. lia.
  - split; [|right; easy]. intros Hin.
    rewrite join_repeat_nil in E by easy. unfold dotted in E. apply app_inv_head in E.
    apply (f_equal (@length N)) in E.
    pose proof (join_length_map_lt [c_dot] (x :: l) sup_blank (u "super")) as Hlt.
    rewrite E in Hlt. enough (length (join [c_dot] (x :: l)) < length (join [c_dot] (x :: l))) by lia.
    apply Hlt; [|easy|vm_compute; lia].
    intros s _. unfold sup_blank. destruct (str_eqb s id_super); cbn; lia.
Qed.

(** ** from_rs / to_rs *)
Definition rs_segment (s : str) : Prop := s <> [] /\ ~ In c_colon s.

Lemma starts_with_dcolon_app : forall x y, x <> [] -> ~ In c_colon x -> starts_with dcolon (x ++ y) = false.
Proof.
  intros x y Hx Hn. destruct x as [|c x]; [easy|]. unfold starts_with, dcolon.
  cbn [app strip_prefix]. destruct (N.eqb_spec c_colon c) as [<-|?]; [|easy].
  exfalso. apply Hn. now left.
Qed.

Lemma path_rs_roundtrip : forall p,
  (forall s, In s (segs p) -> rs_segment s) -> (leading_colon p = false \/ segs p <> []) ->
  path_from_rs (to_rs p) = p.
Proof.
  intros [lc l] H Hn. cbn [segs leading_colon] in *. unfold to_rs. cbn [segs leading_colon].
  unfold as_rs. rewrite map_id.
  destruct l as [|x l].
  - destruct Hn as [->|Hn]; easy.
  - destruct (H x (or_introl eq_refl)) as [Hx1 Hx2].
    assert (Hj : forall q, split_colons (join dcolon (q ++ x :: l)) = q ++ x :: l \/ exists z, In z q /\ In c_colon z).
    { intros q. destruct (existsb (contains_char c_colon) q) eqn:E.
      - right. apply existsb_exists in E as (z & Hz & E). apply contains_char_In in E. eauto.
      - left. apply split_colons_join; [destruct q; easy|].
        intros s Hs. apply in_app_or in Hs as [Hs|Hs].
        + intros Hc. apply contains_char_In in Hc. rewrite existsb_false_iff in E.
          rewrite E in Hc; easy.
        + now apply H. }
    unfold path_from_rs, ident_from_rs. destruct lc.
    + cbn [app] in *. destruct (Hj [[]]) as [E|(z & [<-|[]] & Hz)]; [|easy].
      cbn [app] in E. rewrite join_cons in *. cbn [app dcolon] in *. rewrite E.
      change (filter nonempty ([] :: x :: l)) with (filter nonempty (x :: l)). rewrite filter_nonempty_id by (intros s Hs; exact (proj1 (H s Hs))).
      rewrite map_id. f_equal.
    + cbn [app] in *. destruct (Hj []) as [E|(z & [] & Hz)].
      cbn [app] in E.
      assert (Hne : exists c t, join dcolon (x :: l) = c :: t).
      { destruct x as [|c x]; [easy|]. rewrite join_cons_char. eauto. }
      destruct Hne as (c & t & Hne). rewrite Hne in *. rewrite E.
      rewrite filter_nonempty_id by (intros s Hs; exact (proj1 (H s Hs))). rewrite map_id. f_equal.
      rewrite <- Hne. destruct l as [|y l].
      * cbn [join]. rewrite <- (app_nil_r x). now apply starts_with_dcolon_app.
      * rewrite join_cons. now apply starts_with_dcolon_app.
Qed.

Lemma path_from_rs_pieces : forall s, exists pieces,
  s = join dcolon pieces /\ segs (path_from_rs s) = filter nonempty pieces /\
  (forall p, In p pieces -> contains_str dcolon p = false).
Proof.
  intros s. exists (split_colons s). split; [symmetry; apply join_split_colons|]. split.
  - destruct s; [easy|]. unfold path_from_rs. cbn [segs]. unfold ident_from_rs. now rewrite map_id.
  - assert (Hg : forall n s, length s <= n -> forall p, In p (split_colons s) ->
       contains_str dcolon p = false /\ (forall q ps, split_colons s = q :: ps ->
         forall c q', q = c :: q' -> exists s', s = c :: s')).
    { clear s. induction n as [|n IH]; intros s Hs p Hp.
      - destruct s; cbn in *; [|lia]. destruct Hp as [<-|[]]. split; [easy|].
        intros q ps H c q' ->. easy.
      - destruct s as [|x s]; [cbn in *; destruct Hp as [<-|[]]; split; [easy|intros q ps H c q' ->; easy]|].
        destruct s as [|y s].
        + cbn in Hp. destruct Hp as [<-|[]]. split.
          * cbn [contains_str]. unfold starts_with, dcolon. cbn [strip_prefix]. now destruct (N.eqb c_colon x).
          * intros q ps H c q' ->. cbn in H. injection H as -> _ _. eauto.
        + rewrite split_colons_eq in *.
          destruct (N.eqb x c_colon && N.eqb y c_colon) eqn:E.
          * split.
            -- destruct Hp as [<-|Hp]; [easy|]. apply (IH s); [cbn in *; lia|easy].
            -- intros q ps H c q' ->. easy.
          * destruct (split_colons_cons (y :: s)) as (q0 & qs & E0). rewrite E0 in *.
            assert (Hl : length (y :: s) <= n) by (cbn in *; lia).
            split.
            -- destruct Hp as [<-|Hp].
               ++ destruct (IH (y :: s) Hl q0) as [Hc Hf]; [rewrite E0; now left|].
                  cbn [contains_str]. rewrite Hc, orb_false_r.
                  unfold starts_with, dcolon. cbn [strip_prefix].
                  destruct (N.eqb_spec c_colon x) as [Ex|Ex]; [|easy].
                  destruct q0 as [|c q0]; [easy|].
                  destruct (Hf (c :: q0) qs E0 c q0 eq_refl) as [s' Hs'].
                  injection Hs' as <- _.
                  destruct (N.eqb_spec c_colon y) as [Ey|Ey]; [|easy].
                  subst. easy.
               ++ destruct (IH (y :: s) Hl p) as [Hc _]; [rewrite E0; now right|easy].
            -- intros q ps H c q' ->. injection H as -> _ _. eauto. }
    intros p Hp. now apply (Hg (length s) s (le_n _)).
Qed.

(** ** resolve *)
Lemma plain_names_spec : forall l, plain_names l -> existsb path_kw l = false.
Proof. intros l H. apply existsb_false_iff. easy. Qed.

Lemma resolve_names_plain : forall cur l, plain_names l -> resolve_names cur l = Some (cur ++ l).
Proof. intros. unfold resolve_names. now rewrite plain_names_spec. Qed.

Lemma resolve_supers_plain : forall cur l, plain_names l -> resolve_supers cur l = Some (cur ++ l).
Proof.
  intros cur l H. destruct l as [|x l]; cbn [resolve_supers].
  - now rewrite app_nil_r.
  - assert (Hx : str_eqb x (u "super") = false).
    { specialize (H x (or_introl eq_refl)). unfold path_kw in H. cbn [map existsb] in H.
      apply orb_false_iff in H as [_ H]. now apply orb_false_iff in H as [H _]. }
    rewrite Hx. now apply resolve_names_plain.
Qed.

Lemma resolve_supers_pop : forall k pre r, length pre = k -> forall cur,
  resolve_supers (cur ++ pre) (repeat id_super k ++ r) = resolve_supers cur r.
Proof.
  induction k as [|k IH]; intros pre r Hk cur.
  - destruct pre; [|easy]. now rewrite app_nil_r.
  - cbn [repeat app resolve_supers]. change (str_eqb id_super (u "super")) with true. cbn iota.
    destruct (@exists_last _ pre) as (pre' & z & ->); [now destruct pre|].
    rewrite app_length in Hk. cbn in Hk.
    rewrite app_assoc. destruct ((cur ++ pre') ++ [z]) eqn:E; [destruct (cur ++ pre'); easy|].
    rewrite <- E, removelast_snoc. apply IH. lia.
Qed.

Lemma plain_names_skipn : forall n l, plain_names l -> plain_names (skipn n l).
Proof.
  intros n l H s Hs. apply H. rewrite <- (firstn_skipn n l). apply in_or_app. now right.
Qed.

Lemma common_prefix_spec : forall a b, let n := common_prefix_len a b in
  firstn n a = firstn n b /\ n <= length a /\ n <= length b.
Proof.
  induction a as [|x a IH]; destruct b as [|y b]; cbn; try (split; [easy|lia]).
  destruct (ident_eqb x y) eqn:E; [|split; [easy|lia]].
  apply ident_eqb_eq in E. subst. specialize (IH b) as (H1 & H2 & H3).
  cbn. rewrite H1. split; [easy|lia].
Qed.

Lemma common_prefix_full : forall a b, common_prefix_len a b = length a -> exists r, b = a ++ r.
Proof.
  intros a b H. pose proof (common_prefix_spec a b) as (H1 & _ & _). cbn in H1. rewrite H in H1.
  rewrite firstn_all in H1. exists (skipn (length a) b). rewrite H1 at 1. now rewrite firstn_skipn.
Qed.

Lemma kw_super_head : forall x, path_kw x = false -> str_eqb x (u "self") = false /\ str_eqb x (u "super") = false.
Proof.
  intros x H. unfold path_kw in H. cbn [map existsb] in H.
  apply orb_false_iff in H as [H1 H]. apply orb_false_iff in H as [H2 _]. easy.
Qed.

Lemma resolve_super_start : forall cur r, r <> [] -> (exists k r', r = repeat id_super k ++ r' /\ k > 0) ->
  resolve cur r = resolve_supers cur r.
Proof.
  intros cur r Hr (k & r' & -> & Hk). destruct k; [lia|]. cbn [repeat app resolve]. easy.
Qed.

Lemma resolve_repeat_super : forall k cur r, k > 0 ->
  resolve cur (repeat id_super k ++ r) = resolve_supers cur (repeat id_super k ++ r).
Proof. intros k cur r H. destruct k; [lia|easy]. Qed.

Lemma common_prefix_lt_target : forall a b, a <> b -> common_prefix_len a b < length a \/ 
  (common_prefix_len a b = length a /\ exists x r, b = a ++ x :: r).
Proof.
  intros a b Hab. pose proof (common_prefix_spec a b) as (_ & H2 & _). cbn in H2.
  destruct (Nat.eq_dec (common_prefix_len a b) (length a)) as [E|E]; [|lia].
  right. split; [easy|]. destruct (common_prefix_full a b E) as [r ->].
  destruct r as [|x r]; [rewrite app_nil_r in Hab; easy|eauto].
Qed.

Lemma skipn_all_app : forall {A} (a b : list A), skipn (length a) (a ++ b) = b.
Proof. intros. rewrite skipn_app, skipn_all, Nat.sub_diag. easy. Qed.

Lemma relative_to_correct : forall self target unamb r,
  absolute self -> absolute target ->
  relative_to self target unamb = Ok r ->
  leading_colon r = false /\ resolve (segs self) (segs r) = Some (segs target).
Proof.
  intros [ls a] [lt b] unamb r [Hls Ha] [Hlt Hb] H. cbn [segs leading_colon] in *. subst ls lt.
  unfold relative_to in H.
  destruct (path_eqb (mk_path false a) (mk_path false b)) eqn:E.
  - apply path_eqb_eq in E. injection E as ->. destruct unamb.
    + unfold path_name in H. cbn [segs] in H. destruct (last_opt b) as [n|] eqn:El; [|easy].
      cbn [unwrap obind] in H. injection H as <-. cbn [segs leading_colon]. split; [easy|].
      apply last_opt_Some in El.
      unfold resolve. change (str_eqb id_super (u "self")) with false. cbn iota.
      cbn [resolve_supers]. change (str_eqb id_super (u "super")) with true. cbn iota.
      assert (Hn : path_kw n = false) by (apply Hb; rewrite El; apply in_or_app; right; now left).
      destruct (kw_super_head n Hn) as [_ Hn2]. rewrite Hn2.
      destruct b as [|x b]; [now destruct (removelast [])|].
      rewrite resolve_names_plain; [f_equal; symmetry; exact El|]. intros s [<-|[]]. easy.
    + injection H as <-. cbn. easy.
  - apply path_eqb_neq in E. cbn [segs] in H.
    assert (Hab : a <> b) by congruence. clear E.
    pose proof (common_prefix_spec a b) as (Hp1 & Hp2 & Hp3). cbn zeta in Hp1, Hp2, Hp3.
    set (n := common_prefix_len a b) in *.
    apply obind_Ok in H as (rel & Hrel & H). apply obind_Ok in H as (rel' & Hrel' & H).
    injection H as <-. cbn [segs leading_colon]. split; [easy|].
    destruct (Nat.ltb_spec n (length a)) as [Hlt|Hge].
    + injection Hrel as <-.
      assert (Hsup : forall r, resolve_supers a (repeat id_super (length a - n) ++ r) = resolve_supers (firstn n a) r).
      { intros r. rewrite <- (firstn_skipn n a) at 1. apply resolve_supers_pop.
        rewrite skipn_length. easy. }
      destruct (unamb && option_eqb str_eqb (option_map as_rs (last_opt (repeat id_super (length a - n) ++ skipn n b))) (Some id_super)) eqn:El.
      * apply andb_prop in El as [_ El]. apply (option_eqb_eq str_eqb str_eqb_eq) in El.
        apply obind_Ok in Hrel' as (nm & Hnm & Hrel'). injection Hrel' as <-.
        unfold path_name in Hnm. cbn [segs] in Hnm. destruct (last_opt b) as [nm'|] eqn:Eb; [|easy].
        cbn [unwrap] in Hnm. injection Hnm as ->. apply last_opt_Some in Eb.
        assert (Hs : skipn n b = []).
        { destruct (skipn n b) as [|x l] eqn:Es; [easy|]. exfalso.
          rewrite last_opt_app2 in El by easy.
          destruct (last_opt (x :: l)) as [z|] eqn:Ez; [|easy]. cbn [option_map] in El. unfold as_rs in El. injection El as ->.
          apply last_opt_Some in Ez.
          assert (Hin : In id_super b).
          { rewrite <- (firstn_skipn n b), Es, Ez. apply in_or_app. right. apply in_or_app. right. now left. }
          apply Hb in Hin. easy. }
        rewrite Hs, app_nil_r. rewrite resolve_repeat_super by lia. rewrite Hsup.
        assert (Hfn : firstn n a = b).
        { rewrite Hp1. rewrite <- (firstn_skipn n b) at 2. now rewrite Hs, app_nil_r. }
        rewrite Hfn. cbn [resolve_supers]. change (str_eqb id_super (u "super")) with true. cbn iota.
        assert (Hn : path_kw nm = false) by (apply Hb; rewrite Eb; apply in_or_app; right; now left).
        destruct (kw_super_head nm Hn) as [_ Hn2]. rewrite Hn2.
        destruct b as [|x b]; [now destruct (removelast [])|].
        rewrite resolve_names_plain; [f_equal; symmetry; exact Eb|]. intros s [<-|[]]. easy.
      * injection Hrel' as <-. rewrite resolve_repeat_super by lia. rewrite Hsup.
        rewrite resolve_supers_plain by now apply plain_names_skipn.
        rewrite Hp1, firstn_skipn. easy.
    + assert (Hn : n = length a) by lia.
      destruct (Nat.eqb_spec n (length a)) as [_|?]; [|lia].
      injection Hrel as <-.
      destruct (common_prefix_lt_target a b Hab) as [Hc|[Hc (x & l & ->)]]; [unfold n in *; lia|].
      rewrite Hn, skipn_all_app in *.
      assert (Hx : plain_names (x :: l)).
      { intros s Hs. apply Hb. apply in_or_app. now right. }
      destruct unamb.
      * cbn [app andb] in *.
        assert (Hnl : option_eqb str_eqb (option_map as_rs (last_opt (id_self :: x :: l))) (Some id_super) = false).
        { destruct (option_eqb str_eqb (option_map as_rs (last_opt (id_self :: x :: l))) (Some id_super)) eqn:El; [|easy].
          apply (option_eqb_eq str_eqb str_eqb_eq) in El. change (last_opt (id_self :: x :: l)) with (last_opt (x :: l)) in El.
          destruct (last_opt (x :: l)) as [z|] eqn:Ez; [|easy]. cbn [option_map] in El. unfold as_rs in El. injection El as ->.
          apply last_opt_Some in Ez. assert (Hin : In id_super (x :: l)) by (rewrite Ez; apply in_or_app; right; now left).
          apply Hx in Hin. easy. }
        rewrite Hnl in Hrel'. injection Hrel' as <-.
        cbn [resolve]. change (str_eqb id_self (u "self")) with true. cbn iota.
        now apply resolve_supers_plain.
      * cbn [app andb] in *. injection Hrel' as <-.
        cbn [resolve]. destruct (kw_super_head x (Hx x (or_introl eq_refl))) as [-> _].
        now apply resolve_supers_plain.
Qed.

Lemma relative_to_total : forall self target unamb, segs target <> [] ->
  exists r, relative_to self target unamb = Ok r.
Proof.
  intros self target unamb Ht. destruct (last_opt_nonempty (segs target) Ht) as [nm Hnm].
  unfold relative_to, path_name. rewrite Hnm. cbn [unwrap obind].
  destruct (path_eqb self target); [destruct unamb; eauto|].
  pose proof (common_prefix_spec (segs self) (segs target)) as (_ & Hp & _). cbn zeta in Hp.
  destruct (Nat.ltb_spec (common_prefix_len (segs self) (segs target)) (length (segs self))) as [Hlt|Hge].
  - cbn [obind]. destruct (unamb && _); cbn; eauto.
  - destruct (Nat.eqb_spec (common_prefix_len (segs self) (segs target)) (length (segs self))) as [?|?]; [|lia].
    cbn [obind]. destruct (unamb && _); cbn; eauto.
Qed.

(** The unambiguous mode ends in the target's name and starts with self/super. *)
Lemma relative_to_unamb : forall self target r,
  absolute self -> absolute target -> segs self <> [] \/ True ->
  relative_to self target true = Ok r ->
  last_opt (segs r) = last_opt (segs target) /\ anchored (segs r).
Proof.
  intros [ls a] [lt b] r [Hls Ha] [Hlt Hb] _ H. cbn [segs leading_colon] in *. subst ls lt.
  unfold relative_to in H.
  destruct (path_eqb (mk_path false a) (mk_path false b)) eqn:E.
  - apply path_eqb_eq in E. injection E as ->.
    unfold path_name in H. cbn [segs] in H. destruct (last_opt b) as [n|] eqn:El; [|easy].
    cbn [unwrap obind] in H. injection H as <-. cbn [segs]. split; [easy|].
    exists id_super, [n]. split; [easy|now right].
  - apply path_eqb_neq in E. cbn [segs] in H.
    assert (Hab : a <> b) by congruence. clear E.
    pose proof (common_prefix_spec a b) as (Hp1 & Hp2 & Hp3). cbn zeta in Hp1, Hp2, Hp3.
    set (n := common_prefix_len a b) in *.
    apply obind_Ok in H as (rel & Hrel & H). apply obind_Ok in H as (rel' & Hrel' & H).
    injection H as <-. cbn [segs].
    destruct (Nat.ltb_spec n (length a)) as [Hlt|Hge].
    + injection Hrel as <-.
      assert (Hanch : forall z, anchored (repeat id_super (length a - n) ++ z)).
      { intros z. destruct (length a - n) eqn:En; [lia|]. exists id_super, (repeat id_super n0 ++ z).
        split; [easy|now right]. }
      destruct (true && option_eqb str_eqb (option_map as_rs (last_opt (repeat id_super (length a - n) ++ skipn n b))) (Some id_super)) eqn:El.
      * apply obind_Ok in Hrel' as (nm & Hnm & Hrel'). injection Hrel' as <-.
        unfold path_name in Hnm. cbn [segs] in Hnm. destruct (last_opt b) as [nm'|] eqn:Eb; [|easy].
        cbn [unwrap] in Hnm. injection Hnm as ->. split.
        -- now rewrite last_opt_app2.
        -- rewrite <- app_assoc. apply Hanch.
      * injection Hrel' as <-. split; [|apply Hanch].
        cbn [andb] in El.
        destruct (skipn n b) as [|x l] eqn:Es.
        -- rewrite app_nil_r in El. exfalso.
           assert (Hlast : last_opt (repeat id_super (length a - n)) = Some id_super).
           { destruct (length a - n) eqn:En; [lia|]. clear. induction n0; [easy|].
             change (repeat id_super (S (S n0))) with (id_super :: repeat id_super (S n0)).
             rewrite <- IHn0. easy. }
           rewrite Hlast in El. easy.
        -- rewrite last_opt_app2 by easy. rewrite <- (firstn_skipn n b), Es. now rewrite last_opt_app2.
    + destruct (Nat.eqb_spec n (length a)) as [Hn|?]; [|lia].
      injection Hrel as <-.
      destruct (common_prefix_lt_target a b Hab) as [Hc|[Hc (x & l & ->)]]; [unfold n in *; lia|].
      rewrite Hn, skipn_all_app in *.
      assert (Hx : plain_names (x :: l)).
      { intros s Hs. apply Hb. apply in_or_app. now right. }
      cbn [app andb] in *.
      assert (Hnl : option_eqb str_eqb (option_map as_rs (last_opt (id_self :: x :: l))) (Some id_super) = false).
      { destruct (option_eqb str_eqb (option_map as_rs (last_opt (id_self :: x :: l))) (Some id_super)) eqn:El; [|easy].
        apply (option_eqb_eq str_eqb str_eqb_eq) in El. change (last_opt (id_self :: x :: l)) with (last_opt (x :: l)) in El.
        destruct (last_opt (x :: l)) as [z|] eqn:Ez; [|easy]. cbn [option_map] in El. unfold as_rs in El. injection El as ->.
        apply last_opt_Some in Ez. assert (Hin : In id_super (x :: l)) by (rewrite Ez; apply in_or_app; right; now left).
        apply Hx in Hin. easy. }
      rewrite Hnl in Hrel'. injection Hrel' as <-. split.
      * rewrite (last_opt_app2 a) by easy. easy.
      * exists id_self, (x :: l). split; [easy|now left].
Qed.

(** ** Ordering *)
Lemma path_cmp_refl : forall a, path_cmp a a = Eq.
Proof. intros; apply str_cmp_refl. Qed.
Lemma path_cmp_antisym : forall a b, path_cmp b a = CompOpp (path_cmp a b).
Proof. intros; apply str_cmp_antisym. Qed.
Lemma path_cmp_trans : forall a b c, path_cmp a b = Lt -> path_cmp b c = Lt -> path_cmp a c = Lt.
Proof. intros a b c; apply str_cmp_lt_trans. Qed.
Lemma path_cmp_eq_from_py : forall U n l m k,
  (forall s, In s l -> component s) -> ~ In (u "super") l -> (n = 0 \/ l <> []) ->
  (forall s, In s k -> component s) -> ~ In (u "super") k -> (m = 0 \/ k <> []) ->
  (path_cmp (path_from_py U (dotted n l)) (path_from_py U (dotted m k)) = Eq <->
   path_from_py U (dotted n l) = path_from_py U (dotted m k)).
Proof.
  intros U n l m k H1 H2 H3 H4 H5 H6. unfold path_cmp. rewrite str_cmp_eq.
  rewrite !path_py_roundtrip by easy. split; [intros ->; easy|].
  intros H. apply (f_equal to_py) in H. rewrite !path_py_roundtrip in H by easy. easy.
Qed.

(** ** Imports *)
Lemma path_starts_with_iff : forall p q, path_starts_with p q = true <-> is_prefix (segs q) (segs p).
Proof. intros. unfold path_starts_with, is_prefix. apply slice_starts_with_iff. apply ident_eqb_eq. Qed.

Definition parent_segs (l : list ident) : list ident := removelast l.

Lemma import_type_correct : forall o t,
  (exists k, import_type_from_paths o t = Ok k) /\
  (import_type_from_paths o t = Ok SubmoduleReexport <->
     (length (segs t) >= 2 /\ is_prefix (removelast (segs t)) (segs o))) /\
  (import_type_from_paths o t = Ok PackageReexport <->
     (exists r ts, segs t = r :: ts /\ is_prefix [r] (segs o)) /\
     ~ (length (segs t) >= 2 /\ is_prefix (removelast (segs t)) (segs o))) /\
  (import_type_from_paths o t = Ok ExternalImport <->
     ~ (exists r ts, segs t = r :: ts /\ is_prefix [r] (segs o))).
Proof.
  intros o t. unfold import_type_from_paths, path_root, path_parent.
  destruct (segs t) as [|r ts] eqn:Et.
  - cbn [andb]. split; [eauto|]. split; [|split].
    + split; [easy|]. intros [H _]. cbn in H. lia.
    + split; [easy|]. intros [(r & ts & H & _) _]. easy.
    + split; [|easy]. intros _ (r & ts & H & _). easy.
  - destruct (path_starts_with o (mk_path (leading_colon t) [r])) eqn:Ep.
    + apply path_starts_with_iff in Ep. cbn [segs] in Ep. cbn [andb].
      assert (Hpk : exists r0 ts0, r :: ts = r0 :: ts0 /\ is_prefix [r0] (segs o)) by eauto.
      destruct ts as [|r2 ts].
      * split; [eauto|]. split; [|split].
        -- split; [easy|]. intros [H _]. cbn in H. lia.
        -- split; [|easy]. intros _. split; [easy|]. intros [H _]. cbn in H. lia.
        -- split; [easy|]. intros H. exfalso. now apply H.
      * destruct (path_starts_with o (mk_path (leading_colon t) (removelast (r :: r2 :: ts)))) eqn:Es.
        -- apply path_starts_with_iff in Es. cbn [segs] in Es. split; [eauto|].
           assert (Hsub : length (r :: r2 :: ts) >= 2 /\ is_prefix (removelast (r :: r2 :: ts)) (segs o)) by (split; [cbn; lia|easy]).
           split; [|split].
           ++ easy.
           ++ split; [easy|]. intros [_ H]. now exfalso.
           ++ split; [easy|]. intros H. now exfalso; apply H.
        -- split; [eauto|].
           assert (Hsub : ~ (length (r :: r2 :: ts) >= 2 /\ is_prefix (removelast (r :: r2 :: ts)) (segs o))).
           { intros [_ H]. change (removelast (r :: r2 :: ts)) with (segs (mk_path (leading_colon t) (removelast (r :: r2 :: ts)))) in H.
             apply path_starts_with_iff in H. congruence. }
           split; [|split].
           ++ split; [easy|]. intros H. now exfalso.
           ++ easy.
           ++ split; [easy|]. intros H. now exfalso; apply H.
    + cbn [andb]. assert (Hpk : ~ exists r0 ts0, r :: ts = r0 :: ts0 /\ is_prefix [r0] (segs o)).
      { intros (r0 & ts0 & H & Hp). injection H as <- <-.
        change [r] with (segs (mk_path (leading_colon t) [r])) in Hp. apply path_starts_with_iff in Hp. congruence. }
      split; [eauto|]. split; [|split].
      * split; [easy|]. intros [Hl Hp]. exfalso. apply Hpk. exists r, ts. split; [easy|].
        destruct ts as [|r2 ts]; [cbn in Hl; lia|]. destruct Hp as [z Hz]. cbn [removelast] in Hz.
        rewrite Hz. eexists. cbn [app]. reflexivity.
      * split; [easy|]. intros [H _]. easy.
      * easy.
Qed.

Lemma parent_or_default_segs : forall p, segs (path_parent_or_default p) = removelast (segs p).
Proof.
  intros [lc l]. unfold path_parent_or_default, path_parent. cbn [segs].
  destruct l as [|x [|y l]]; easy.
Qed.
Lemma parent_or_default_absolute : forall p, absolute p -> absolute (path_parent_or_default p).
Proof.
  intros p [H1 H2]. split.
  - destruct p as [lc l]. unfold path_parent_or_default, path_parent. cbn in *. destruct l as [|x [|y l]]; easy.
  - rewrite parent_or_default_segs. intros s Hs. apply H2.
    destruct (segs p) as [|z l] eqn:E; [easy|]. rewrite (app_removelast_last z) by easy.
    apply in_or_app. now left.
Qed.

Lemma import_generate_correct : forall U i x,
  absolute (im_origin i) -> absolute (im_target i) ->
  import_generate U i = Ok (Some x) ->
  im_type i = SubmoduleReexport /\ im_origin i <> im_target i /\
  resolve (removelast (segs (im_target i))) (use_path x) = Some (segs (im_origin i)) /\
  anchored (use_path x) /\
  bound_name x = last_opt (segs (im_target i)) /\
  forallb (fun s => syn_ident_ok U s || path_kw s) (use_path x) = true.
Proof.
  intros U i x Ho Ht H. unfold import_generate in H.
  destruct (import_type_eqb (im_type i) SubmoduleReexport) eqn:Ety; [|easy]. cbn [negb] in H.
  destruct (path_eqb (im_origin i) (im_target i)) eqn:Eeq; [easy|]. apply path_eqb_neq in Eeq.
  apply obind_Ok in H as (rel & Hrel & H).
  assert (Hp := parent_or_default_absolute _ Ht).
  destruct (relative_to_correct _ _ _ _ Hp Ho Hrel) as [_ Hres].
  destruct (relative_to_unamb _ _ _ Hp Ho (or_intror I) Hrel) as [Hlast Hanch].
  rewrite parent_or_default_segs in Hres.
  unfold path_to_syn in H. destruct (syn_path_ok U rel) eqn:Esyn; [|easy].
  apply obind_Ok in H as (on & Hon & H). apply obind_Ok in H as (tn & Htn & H).
  unfold path_name in Hon, Htn.
  destruct (last_opt (segs (im_origin i))) as [on'|] eqn:Eo; [|easy]. injection Hon as ->.
  destruct (last_opt (segs (im_target i))) as [tn'|] eqn:Et; [|easy]. injection Htn as ->.
  assert (Hty : im_type i = SubmoduleReexport) by (destruct (im_type i); easy).
  assert (Hsynl : forallb (fun s => syn_ident_ok U s || path_kw s) (segs rel) = true).
  { unfold syn_path_ok in Esyn. destruct (segs rel) eqn:Es; [easy|].
    rewrite forallb_forall in *. intros s Hs. specialize (Esyn s Hs).
    unfold syn_segment_ok, as_rs in Esyn. apply orb_true_iff in Esyn as [->|Esyn]; [easy|].
    apply orb_true_iff. right. unfold path_kw. apply mem_str_In in Esyn. apply mem_str_In.
    unfold syn_path_keywords in Esyn. cbn in Esyn |- *. tauto. }
  destruct (ident_eqb on tn) eqn:En.
  - injection H as <-. cbn [use_path use_alias bound_name]. apply ident_eqb_eq in En. subst tn.
    repeat split; try easy.
  - apply obind_Ok in H as (al & Hal & H). injection H as <-. cbn [use_path].
    unfold ident_to_syn in Hal. destruct (syn_ident_ok U (as_rs tn)); [|easy]. injection Hal as <-.
    repeat split; try easy.
Qed.

Lemma import_generate_none : forall U i,
  im_type i <> SubmoduleReexport \/ im_origin i = im_target i -> import_generate U i = Ok None.
Proof.
  intros U i [H|H]; unfold import_generate.
  - destruct (im_type i); cbn; easy.
  - rewrite H, path_eqb_refl. destruct (negb _); easy.
Qed.

(** Completeness: a submodule re-export with spellable names yields an item. *)
Lemma import_generate_some : forall U i,
  im_type i = SubmoduleReexport -> im_origin i <> im_target i ->
  absolute (im_origin i) -> absolute (im_target i) ->
  segs (im_origin i) <> [] -> segs (im_target i) <> [] ->
  (forall s, In s (segs (im_origin i)) -> syn_ident_ok U s = true) ->
  (forall s, In s (segs (im_target i)) -> syn_ident_ok U s = true) ->
  exists x, import_generate U i = Ok (Some x).
Proof.
  intros U i Hty Hne Ho Ht Hno Hnt Hvo Hvt. unfold import_generate. rewrite Hty. cbn [import_type_eqb negb].
  rewrite (proj2 (path_eqb_neq _ _) Hne).
  destruct (relative_to_total (path_parent_or_default (im_target i)) (im_origin i) true Hno) as [rel Hrel].
  rewrite Hrel. cbn [obind].
  destruct (last_opt_nonempty _ Hno) as [on Hon]. destruct (last_opt_nonempty _ Hnt) as [tn Htn].
  assert (Hin : forall s, In s (segs rel) -> s = id_super \/ s = id_self \/ In s (segs (im_origin i))).
  { intros s Hs. unfold relative_to in Hrel.
    destruct (path_eqb (path_parent_or_default (im_target i)) (im_origin i)).
    - unfold path_name in Hrel. rewrite Hon in Hrel. cbn in Hrel. injection Hrel as <-. cbn in Hs.
      destruct Hs as [<-|[<-|[]]]; [now left|]. right; right. apply last_opt_Some in Hon. rewrite Hon.
      apply in_or_app. right. now left.
    - apply obind_Ok in Hrel as (r1 & H1 & Hrel). apply obind_Ok in Hrel as (r2 & H2 & Hrel).
      injection Hrel as <-. cbn [segs] in Hs.
      assert (Hr1 : forall s, In s r1 -> s = id_super \/ s = id_self \/ In s (segs (im_origin i))).
      { intros z Hz. set (n := common_prefix_len _ _) in *.
        assert (Hsk : In z (skipn n (segs (im_origin i))) -> In z (segs (im_origin i))).
        { intros Hzz. rewrite <- (firstn_skipn n (segs (im_origin i))). apply in_or_app. now right. }
        destruct (Nat.ltb n _); [|destruct (Nat.eqb n _); [|easy]]; injection H1 as <-.
        - apply in_app_or in Hz as [Hz|Hz]; auto. apply repeat_spec in Hz. auto.
        - destruct Hz as [<-|Hz]; auto. }
      destruct (true && _); [|injection H2 as <-; auto].
      unfold path_name in H2. rewrite Hon in H2. cbn in H2. injection H2 as <-.
      apply in_app_or in Hs as [Hs|[<-|[<-|[]]]]; auto.
      right; right. apply last_opt_Some in Hon. rewrite Hon. apply in_or_app. right. now left. }
  unfold path_to_syn. assert (Hok : syn_path_ok U rel = true).
  { unfold syn_path_ok. destruct (relative_to_unamb _ _ _ (parent_or_default_absolute _ Ht) Ho (or_intror I) Hrel) as [_ (h & t & Eh & _)].
    rewrite Eh, <- Eh. apply forallb_forall. intros s Hs. unfold syn_segment_ok, as_rs.
    destruct (Hin s Hs) as [->|[->|Hi]]; [now rewrite orb_true_r|now rewrite orb_true_r|now rewrite Hvo]. }
  rewrite Hok. unfold path_name. rewrite Hon, Htn. cbn [unwrap obind].
  destruct (ident_eqb on tn); [eauto|]. unfold ident_to_syn, as_rs.
  rewrite Hvt; [cbn; eauto|]. apply last_opt_Some in Htn. rewrite Htn. apply in_or_app. right. now left.
Qed.

(** ** import_quote *)
Lemma slice_strip_prefix_app : forall p l, slice_strip_prefix p (p ++ l) = Some l.
Proof. induction p; intros; cbn; [easy|]. now rewrite ident_eqb_refl. Qed.

Lemma longest_importable_spec : forall imp p i m, longest_importable imp p i = Some m ->
  exists k, 1 <= k <= i /\ m = path_of_segs (firstn k (segs p)) /\ imp (to_py m) = true /\
            (forall j, k < j <= i -> imp (to_py (path_of_segs (firstn j (segs p)))) = false).
Proof.
  induction i as [|i IH]; intros m H; [easy|]. cbn [longest_importable] in H.
  destruct (imp (to_py (path_of_segs (firstn (S i) (segs p))))) eqn:E.
  - injection H as <-. exists (S i). repeat split; try easy; try lia; intros; lia.
  - apply IH in H as (k & Hk & Hm & Hi & Hj). exists k. repeat split; try easy; try lia.
    intros j Hj'. destruct (Nat.eq_dec j (S i)) as [->|]; [easy|]. apply Hj. lia.
Qed.

Lemma longest_importable_none : forall imp p i, longest_importable imp p i = None ->
  forall j, 1 <= j <= i -> imp (to_py (path_of_segs (firstn j (segs p)))) = false.
Proof.
  induction i as [|i IH]; intros H j Hj; [lia|]. cbn [longest_importable] in H.
  destruct (imp (to_py (path_of_segs (firstn (S i) (segs p))))) eqn:E; [easy|].
  destruct (Nat.eq_dec j (S i)) as [->|]; [easy|]. apply IH; [easy|lia].
Qed.

Lemma to_py_no_super : forall l, (forall s, In s l -> as_py s <> id_super) ->
  to_py (path_of_segs l) = join [c_dot] (map as_py l).
Proof.
  intros l H. unfold to_py, path_of_segs. cbn [segs]. f_equal. rewrite map_map. apply map_ext_in.
  intros s Hs. apply H in Hs. apply str_eqb_neq in Hs. now rewrite Hs.
Qed.

(** The generated lookup imports a non-empty prefix of the path and then walks the rest. *)
Lemma import_quote_spec : forall imp p lk, import_quote imp p = Ok lk ->
  exists k, 1 <= k <= length (segs p) /\
    lk_import lk = to_py (path_of_segs (firstn k (segs p))) /\
    lk_attrs lk = map as_py (skipn k (segs p)) /\
    (k < length (segs p) \/ length (segs p) = 1) /\
    (forall j, k < j < length (segs p) -> imp (to_py (path_of_segs (firstn j (segs p)))) = false) /\
    (1 < k -> imp (to_py (path_of_segs (firstn k (segs p)))) = true).
Proof.
  intros imp [lc l] lk H. unfold import_quote, path_root in H. cbn [segs] in *.
  destruct l as [|x l]; [easy|]. cbn [unwrap obind] in H.
  destruct (longest_importable imp (mk_path lc (x :: l)) (length (x :: l) - 1)) as [m|] eqn:E.
  - apply longest_importable_spec in E as (k & Hk & -> & Hi & Hj). cbn [segs path_of_segs] in *.
    assert (Hs : slice_strip_prefix (firstn k (x :: l)) (x :: l) = Some (skipn k (x :: l))).
    { rewrite <- (firstn_skipn k (x :: l)) at 2. apply slice_strip_prefix_app. }
    rewrite Hs in H. cbn [unwrap obind] in H. injection H as <-. exists k. cbn [lk_import lk_attrs].
    cbn in Hk. repeat split; try easy; cbn [length]; try lia.
    intros j Hj'. apply Hj. cbn [length]. lia.
  - pose proof (longest_importable_none _ _ _ E) as Hn. cbn [segs] in Hn.
    cbn [segs slice_strip_prefix] in H. rewrite ident_eqb_refl in H. cbn [unwrap obind] in H.
    injection H as <-. exists 1. cbn [lk_import lk_attrs firstn skipn]. repeat split; try easy; cbn [length]; try lia.
    intros j Hj. apply Hn. cbn [length]. lia.
Qed.

Lemma import_quote_total : forall imp p, segs p <> [] -> exists lk, import_quote imp p = Ok lk.
Proof.
  intros imp [lc l] H. unfold import_quote, path_root. cbn [segs] in *.
  destruct l as [|x l]; [easy|]. cbn [unwrap obind].
  destruct (longest_importable imp (mk_path lc (x :: l)) (length (x :: l) - 1)) as [m|] eqn:E.
  - apply longest_importable_spec in E as (k & Hk & -> & _). cbn [segs path_of_segs].
    assert (Hs : slice_strip_prefix (firstn k (x :: l)) (x :: l) = Some (skipn k (x :: l))).
    { rewrite <- (firstn_skipn k (x :: l)) at 2. apply slice_strip_prefix_app. }
    rewrite Hs. cbn. eauto.
  - cbn [segs slice_strip_prefix]. rewrite ident_eqb_refl. cbn. eauto.
Qed.

Lemma import_quote_denotes : forall imp p lk,
  (forall s, In s (segs p) -> as_py s <> id_super) ->
  import_quote imp p = Ok lk ->
  join [c_dot] (lk_import lk :: lk_attrs lk) = join [c_dot] (map as_py (segs p)).
Proof.
  intros imp p lk Hs H. apply import_quote_spec in H as (k & Hk & -> & -> & _).
  rewrite to_py_no_super.
  2:{ intros s Hin. apply Hs. rewrite <- (firstn_skipn k (segs p)). apply in_or_app. now left. }
  rewrite <- (firstn_skipn k (segs p)) at 3. rewrite map_app.
  destruct (skipn k (segs p)) as [|y l] eqn:E.
  - cbn [map]. rewrite app_nil_r. easy.
  - rewrite join_cons' by easy. rewrite join_app; [easy| |easy].
    destruct (segs p) as [|z q]; [cbn in Hk; lia|]. destruct k; [lia|easy].
Qed.

(** ** The order is that of the Python texts *)
Lemma str_cmp_lt : forall s t, str_cmp s t = Lt <-> text_before s t.
Proof.
  induction s as [|a s IH]; intros [|b t].
  - split; [easy|]. intros [(c & r & H)|(p & c & d & x & y & H & _)]; [easy|]. now destruct p.
  - split; [|easy]. intros _. left. now exists b, t.
  - split; [easy|]. intros [(c & r & H)|(p & c & d & x & y & _ & H & _)]; [easy|]. now destruct p.
  - cbn [str_cmp]. destruct (N.compare_spec a b) as [->|Hlt|Hgt].
    + rewrite IH. split.
      * intros [(c & r & ->)|(p & c & d & x & y & -> & -> & H)]; [left; now exists c, r|]. right. now exists (b :: p), c, d, x, y.
      * intros [(c & r & H)|(p & c & d & x & y & H1 & H2 & H)]; [left; exists c, r; now injection H|].
        destruct p as [|e p]; [injection H1 as -> _; injection H2 as -> _; lia|]. right.
        injection H1 as -> ->. injection H2 as ->. now exists p, c, d, x, y.
    + split; [|easy]. intros _. right. now exists [], a, b, s, t.
    + split; [easy|]. intros [(c & r & H)|(p & c & d & x & y & H1 & H2 & H)]; [injection H; lia|].
      destruct p as [|e p]; [injection H1 as -> _; injection H2 as -> _; lia|]. injection H1 as -> _. injection H2 as -> _. lia.
Qed.
Lemma ident_cmp_text : forall U a b, starts_with r_hash a = false -> starts_with r_hash b = false ->
  (ident_cmp (ident_from_py U a) (ident_from_py U b) = Lt <-> text_before a b).
Proof. intros U a b Ha Hb. unfold ident_cmp. rewrite !as_py_from_py by easy. apply str_cmp_lt. Qed.
Lemma path_cmp_text : forall U n l m k,
  (forall s, In s l -> component s) -> ~ In (u "super") l -> (n = 0 \/ l <> []) ->
  (forall s, In s k -> component s) -> ~ In (u "super") k -> (m = 0 \/ k <> []) ->
  (path_cmp (path_from_py U (dotted n l)) (path_from_py U (dotted m k)) = Lt <-> text_before (dotted n l) (dotted m k)).
Proof. intros U n l m k H1 H2 H3 H4 H5 H6. unfold path_cmp. rewrite !path_py_roundtrip by easy. apply str_cmp_lt. Qed.
