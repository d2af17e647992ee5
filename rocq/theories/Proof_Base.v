(** * Lemmas about the functions of [Base] *)
From Verif Require Import Base.

Lemma str_eqb_eq : forall a b, str_eqb a b = true <-> a = b.
Proof.
  induction a as [|x a IH]; destruct b as [|y b]; cbn; split; intros H; try easy.
  - apply andb_prop in H as [H1 H2]. apply N.eqb_eq in H1. apply IH in H2. congruence.
  - injection H as -> ->. rewrite N.eqb_refl. cbn. now apply IH.
Qed.

Lemma str_eqb_refl : forall a, str_eqb a a = true.
Proof. intros; now apply str_eqb_eq. Qed.

Lemma str_eqb_neq : forall a b, str_eqb a b = false <-> a <> b.
Proof.
  intros. rewrite <- str_eqb_eq. destruct (str_eqb a b); split; congruence.
Qed.

Lemma str_eqb_sym : forall a b, str_eqb a b = str_eqb b a.
Proof.
  intros. destruct (str_eqb a b) eqn:E.
  - apply str_eqb_eq in E. subst. symmetry. apply str_eqb_refl.
  - symmetry. apply str_eqb_neq. apply str_eqb_neq in E. congruence.
Qed.

Lemma str_dec : forall a b : str, {a = b} + {a <> b}.
Proof. intros. destruct (str_eqb a b) eqn:E; [left; now apply str_eqb_eq|right; now apply str_eqb_neq]. Qed.

Lemma mem_str_In : forall s l, mem_str s l = true <-> In s l.
Proof.
  intros. unfold mem_str. rewrite existsb_exists. split.
  - intros (x & Hx & E). apply str_eqb_eq in E. now subst.
  - intros H. exists s. split; [easy | apply str_eqb_refl].
Qed.

Lemma mem_str_notIn : forall s l, mem_str s l = false <-> ~ In s l.
Proof. intros. rewrite <- mem_str_In. destruct (mem_str s l); split; congruence. Qed.

(** ** strip_prefix / strip_suffix *)
Lemma strip_prefix_app : forall p s, strip_prefix p (p ++ s) = Some s.
Proof. induction p; intros; cbn; [easy|]. now rewrite N.eqb_refl. Qed.

Lemma strip_prefix_Some : forall p s t, strip_prefix p s = Some t <-> s = p ++ t.
Proof.
  induction p as [|x p IH]; intros s t; cbn.
  - split; congruence.
  - destruct s as [|y s].
    + split; easy.
    + destruct (N.eqb_spec x y) as [->|Hn].
      * rewrite IH. split; [intros ->; easy | congruence].
      * split; congruence.
Qed.

Lemma starts_with_iff : forall p s, starts_with p s = true <-> exists t, s = p ++ t.
Proof.
  intros. unfold starts_with. destruct (strip_prefix p s) as [t|] eqn:E.
  - apply strip_prefix_Some in E. split; eauto.
  - split; [easy|]. intros [t Ht]. apply strip_prefix_Some in Ht. congruence.
Qed.

Lemma starts_with_app : forall p s, starts_with p (p ++ s) = true.
Proof. intros. apply starts_with_iff. eauto. Qed.

Lemma strip_suffix_Some : forall p s t, strip_suffix p s = Some t <-> s = t ++ p.
Proof.
  intros. unfold strip_suffix.
  destruct (strip_prefix (rev p) (rev s)) as [r|] eqn:E.
  - apply strip_prefix_Some in E.
    assert (Hs : s = rev r ++ p).
    { rewrite <- (rev_involutive s), E, rev_app_distr, rev_involutive. easy. }
    split; intros H.
    + injection H as <-. easy.
    + rewrite Hs in H. apply app_inv_tail in H. now subst.
  - split; [easy|]. intros ->. rewrite rev_app_distr, strip_prefix_app in E. easy.
Qed.

Lemma ends_with_iff : forall p s, ends_with p s = true <-> exists t, s = t ++ p.
Proof.
  intros. unfold ends_with. destruct (strip_suffix p s) as [t|] eqn:E.
  - apply strip_suffix_Some in E. split; eauto.
  - split; [easy|]. intros [t Ht]. apply strip_suffix_Some in Ht. congruence.
Qed.

Lemma ends_with_app : forall p s, ends_with p (s ++ p) = true.
Proof. intros. apply ends_with_iff. eauto. Qed.

Lemma ends_with_char_last : forall c s, ends_with [c] s = true <-> exists t, s = t ++ [c].
Proof. intros. apply ends_with_iff. Qed.

(** ** split / join *)
Lemma split_char_cons : forall c s, exists p ps, split_char c s = p :: ps.
Proof.
  induction s as [|x s IH]; cbn; [eauto|].
  destruct (N.eqb x c); [eauto|]. destruct IH as (p & ps & ->). eauto.
Qed.

Lemma split_char_nonnil : forall c s, split_char c s <> [].
Proof. intros c s. destruct (split_char_cons c s) as (p & ps & ->). easy. Qed.

Lemma join_cons : forall sep x y l, join sep (x :: y :: l) = x ++ sep ++ join sep (y :: l).
Proof. easy. Qed.

Lemma join_cons' : forall sep x l, l <> [] -> join sep (x :: l) = x ++ sep ++ join sep l.
Proof. intros sep x l H. destruct l; easy. Qed.

Lemma join_split_char : forall c s, join [c] (split_char c s) = s.
Proof.
  induction s as [|x s IH]; [easy|].
  cbn. destruct (N.eqb_spec x c) as [->|Hn].
  - destruct (split_char_cons c s) as (p & ps & E). rewrite E in *.
    rewrite join_cons, IH. easy.
  - destruct (split_char_cons c s) as (p & ps & E). rewrite E in *.
    destruct ps; cbn in *; now rewrite <- IH.
Qed.

Lemma split_char_no_sep : forall c s p, In p (split_char c s) -> ~ In c p.
Proof.
  induction s as [|x s IH]; cbn; intros p H.
  - destruct H as [<-|[]]. easy.
  - destruct (N.eqb_spec x c) as [->|Hn].
    + destruct H as [<-|H]; [easy|now apply IH].
    + destruct (split_char_cons c s) as (q & qs & E). rewrite E in *.
      destruct H as [<-|H].
      * intros [->|H']; [easy|]. apply (IH q); [now left|easy].
      * apply IH. now right.
Qed.

Lemma split_char_none : forall c p, ~ In c p -> split_char c p = [p].
Proof.
  induction p as [|x p IH]; intros H; [easy|].
  cbn. destruct (N.eqb_spec x c) as [->|Hn]; [exfalso; apply H; now left|].
  rewrite IH; [easy|]. intros H'; apply H; now right.
Qed.

Lemma split_char_app : forall c p s, ~ In c p -> split_char c (p ++ c :: s) = p :: split_char c s.
Proof.
  induction p as [|x p IH]; intros s H; cbn.
  - now rewrite N.eqb_refl.
  - destruct (N.eqb_spec x c) as [->|Hn]; [exfalso; apply H; now left|].
    rewrite IH; [easy|]. intros H'; apply H; now right.
Qed.

Lemma split_char_join : forall c l,
  l <> [] -> (forall p, In p l -> ~ In c p) -> split_char c (join [c] l) = l.
Proof.
  induction l as [|x l IH]; intros Hn H; [easy|].
  destruct l as [|y l].
  - cbn. apply split_char_none. apply H. now left.
  - rewrite join_cons. cbn [app]. rewrite split_char_app by (apply H; now left).
    f_equal. apply IH; [easy|]. intros p Hp. apply H. now right.
Qed.

Lemma join_app : forall sep a b, a <> [] -> b <> [] -> join sep (a ++ b) = join sep a ++ sep ++ join sep b.
Proof.
  induction a as [|x a IH]; intros b Ha Hb; [easy|].
  destruct a as [|y a].
  - cbn [app]. rewrite join_cons' by easy. easy.
  - cbn [app] in *. rewrite join_cons. rewrite IH by easy. rewrite join_cons, <- !app_assoc. easy.
Qed.

Lemma join_length_ge : forall sep l p, In p l -> length p <= length (join sep l).
Proof.
  induction l as [|x l IH]; intros p H; [easy|].
  destruct l as [|y l]; [destruct H as [->|[]]; easy|].
  rewrite join_cons, !app_length. destruct H as [->|H]; [lia|]. apply IH in H. lia.
Qed.

Lemma split_colons_cons : forall s, exists p ps, split_colons s = p :: ps.
Proof.
  assert (H : forall n s, length s <= n -> exists p ps, split_colons s = p :: ps).
  { induction n as [|n IH]; intros s Hs.
    - destruct s; cbn in *; [eauto|lia].
    - destruct s as [|x s]; cbn; [eauto|].
      destruct s as [|y s]; [eauto|].
      destruct (N.eqb x c_colon && N.eqb y c_colon); [eauto|].
      destruct (IH (y :: s)) as (p & ps & E); [cbn in *; lia|].
      rewrite E. eauto. }
  intros s. eapply H. apply le_n.
Qed.

Lemma split_colons_eq : forall x y s,
  split_colons (x :: y :: s) =
  if N.eqb x c_colon && N.eqb y c_colon then [] :: split_colons s
  else match split_colons (y :: s) with p :: ps => (x :: p) :: ps | [] => [[x]] end.
Proof. easy. Qed.

Lemma join_cons_char : forall sep x p ps, join sep ((x :: p) :: ps) = x :: join sep (p :: ps).
Proof. intros. destruct ps; easy. Qed.

Lemma join_split_colons : forall s, join [c_colon; c_colon] (split_colons s) = s.
Proof.
  assert (H : forall n s, length s <= n -> join [c_colon; c_colon] (split_colons s) = s).
  { induction n as [|n IH]; intros s Hs.
    - destruct s; cbn in *; [easy|lia].
    - destruct s as [|x s]; [easy|]. destruct s as [|y s]; [easy|].
      rewrite split_colons_eq.
      destruct (N.eqb x c_colon && N.eqb y c_colon) eqn:E.
      + apply andb_prop in E as [Ex Ey]. apply N.eqb_eq in Ex, Ey. subst.
        destruct (split_colons_cons s) as (p & ps & E).
        rewrite E, join_cons, <- E, IH; [easy|cbn in *; lia].
      + specialize (IH (y :: s)). destruct (split_colons_cons (y :: s)) as (p & ps & E').
        rewrite E' in *. rewrite join_cons_char, IH; [easy|cbn in *; lia]. }
  intros s. eapply H. apply le_n.
Qed.

Lemma split_colons_none : forall p, ~ In c_colon p -> split_colons p = [p].
Proof.
  induction p as [|x p IH]; intros H; [easy|].
  destruct p as [|y p]; [easy|]. rewrite split_colons_eq.
  destruct (N.eqb_spec x c_colon) as [->|Hn]; [exfalso; apply H; now left|].
  cbn [andb]. rewrite IH; [easy|]. intros H'; apply H; now right.
Qed.

Lemma split_colons_app : forall p s, ~ In c_colon p ->
  split_colons (p ++ c_colon :: c_colon :: s) = p :: split_colons s.
Proof.
  induction p as [|x p IH]; intros s H.
  - easy.
  - cbn [app]. destruct (p ++ c_colon :: c_colon :: s) as [|y q] eqn:E; [destruct p; easy|].
    rewrite split_colons_eq.
    destruct (N.eqb_spec x c_colon) as [->|Hn]; [exfalso; apply H; now left|].
    cbn [andb]. rewrite <- E, IH; [easy|].
    intros H'; apply H; now right.
Qed.

Lemma split_colons_join : forall l, l <> [] -> (forall p, In p l -> ~ In c_colon p) ->
  split_colons (join [c_colon; c_colon] l) = l.
Proof.
  induction l as [|x l IH]; intros Hn H; [easy|].
  destruct l as [|y l].
  - cbn. apply split_colons_none. apply H. now left.
  - rewrite join_cons. cbn [app]. rewrite split_colons_app by (apply H; now left).
    f_equal. apply IH; [easy|]. intros p Hp. apply H. now right.
Qed.

(** ** contains *)
Lemma contains_char_In : forall c s, contains_char c s = true <-> In c s.
Proof.
  intros. unfold contains_char. rewrite existsb_exists. split.
  - intros (x & Hx & E). apply N.eqb_eq in E. now subst.
  - intros H. exists c. now rewrite N.eqb_refl.
Qed.

Lemma contains_str_iff : forall p s, contains_str p s = true <-> exists a b, s = a ++ p ++ b.
Proof.
  intros p s. induction s as [|x s IH].
  - cbn. rewrite orb_false_r, starts_with_iff. split.
    + intros [t Ht]. exists [], t. easy.
    + intros (a & b & H). destruct a; [|easy]. eauto.
  - cbn [contains_str]. rewrite orb_true_iff, starts_with_iff, IH. split.
    + intros [[t Ht]|(a & b & ->)]; [exists [], t; easy|exists (x :: a), b; easy].
    + intros (a & b & H). destruct a as [|y a].
      * left. eauto.
      * right. injection H as -> ->. eauto.
Qed.

Lemma count_char_app : forall c a b, count_char c (a ++ b) = (count_char c a + count_char c b)%N.
Proof. induction a; intros; cbn; [easy|]. rewrite IHa. lia. Qed.

Lemma count_char_0 : forall c s, count_char c s = 0%N <-> ~ In c s.
Proof.
  induction s as [|x s IH]; cbn; [easy|].
  destruct (N.eqb_spec x c) as [->|Hn]; split; intros H.
  - lia.
  - exfalso. apply H. now left.
  - intros [->|H']; [easy|]. apply IH in H'; [easy|lia].
  - rewrite (proj2 IH); [easy|]. intros H'. apply H. now right.
Qed.

(** ** comparison *)
Lemma str_cmp_refl : forall a, str_cmp a a = Eq.
Proof. induction a; cbn; [easy|]. now rewrite N.compare_refl. Qed.

Lemma str_cmp_eq : forall a b, str_cmp a b = Eq <-> a = b.
Proof.
  induction a as [|x a IH]; destruct b as [|y b]; cbn; split; intros H; try easy.
  - destruct (N.compare_spec x y) as [->|?|?]; try easy. apply IH in H. congruence.
  - injection H as -> ->. rewrite N.compare_refl. now apply IH.
Qed.

Lemma str_cmp_antisym : forall a b, str_cmp b a = CompOpp (str_cmp a b).
Proof.
  induction a as [|x a IH]; destruct b as [|y b]; cbn; try easy.
  rewrite N.compare_antisym. destruct (N.compare x y); cbn; auto.
Qed.

Lemma str_cmp_lt_trans : forall a b c, str_cmp a b = Lt -> str_cmp b c = Lt -> str_cmp a c = Lt.
Proof.
  induction a as [|x a IH]; destruct b as [|y b]; destruct c as [|z c]; cbn; try easy.
  intros H1 H2.
  destruct (N.compare_spec x y) as [Exy|Hxy|Hxy]; try easy;
  destruct (N.compare_spec y z) as [Eyz|Hyz|Hyz]; try easy;
  destruct (N.compare_spec x z) as [Exz|Hxz|Hxz]; try lia; try easy.
  eauto.
Qed.

(** ** lists *)
Lemma list_eqb_eq : forall {A} (eqb : A -> A -> bool),
  (forall a b, eqb a b = true <-> a = b) -> forall a b, list_eqb eqb a b = true <-> a = b.
Proof.
  intros A eqb He. induction a as [|x a IH]; destruct b as [|y b]; cbn; split; intros H; try easy.
  - apply andb_prop in H as [H1 H2]. apply He in H1. apply IH in H2. congruence.
  - injection H as -> ->. rewrite (proj2 (He y y)) by easy. cbn. now apply IH.
Qed.

Lemma slice_starts_with_iff : forall {A} (eqb : A -> A -> bool),
  (forall a b, eqb a b = true <-> a = b) ->
  forall p l, slice_starts_with eqb p l = true <-> exists r, l = p ++ r.
Proof.
  intros A eqb He. induction p as [|x p IH]; destruct l as [|y l]; cbn; split; intros H; try easy; eauto.
  - now destruct H.
  - apply andb_prop in H as [H1 H2]. apply He in H1. apply IH in H2 as [r ->]. exists r. congruence.
  - destruct H as [r H]. injection H as -> ->. rewrite (proj2 (He x x)) by easy. cbn. apply IH. eauto.
Qed.

Lemma option_eqb_eq : forall {A} (eqb : A -> A -> bool),
  (forall a b, eqb a b = true <-> a = b) -> forall a b, option_eqb eqb a b = true <-> a = b.
Proof.
  intros A eqb He [a|] [b|]; cbn; split; intros H; try easy.
  - apply He in H. congruence.
  - injection H as ->. now apply He.
Qed.

Lemma existsb_false_iff : forall {A} (f : A -> bool) l, existsb f l = false <-> forall x, In x l -> f x = false.
Proof.
  induction l as [|a l IH]; cbn; [split; easy|]. rewrite orb_false_iff, IH. split.
  - intros [H1 H2] x [<-|Hx]; auto.
  - intros H. split; [apply H; now left|intros x Hx; apply H; now right].
Qed.

(** [unique] *)
Lemma unique_from_In : forall {A} (eqb : A -> A -> bool),
  (forall a b, eqb a b = true <-> a = b) ->
  forall l seen x, In x (unique_from eqb seen l) <-> In x l /\ ~ In x seen.
Proof.
  intros A eqb He. induction l as [|a l IH]; intros seen x; cbn; [easy|].
  destruct (existsb (eqb a) seen) eqn:E.
  - apply existsb_exists in E as (y & Hy & E). apply He in E. subst y.
    rewrite IH. split; [intros [H1 H2]; auto|].
    intros [[->|H1] H2]; [easy|auto].
  - rewrite existsb_false_iff in E. cbn. rewrite IH. cbn. split.
    + intros [<-|[H1 H2]]; [|tauto]. split; [now left|].
      intros Ha. apply E in Ha. rewrite (proj2 (He a a)) in Ha; easy.
    + intros [[->|H1] H2]; [now left|].
      destruct (eqb a x) eqn:Eax; [left; now apply He|].
      right. split; [easy|]. intros [->|H]; [|easy]. rewrite (proj2 (He x x)) in Eax; easy.
Qed.

Lemma unique_In : forall {A} (eqb : A -> A -> bool),
  (forall a b, eqb a b = true <-> a = b) ->
  forall l x, In x (unique eqb l) <-> In x l.
Proof. intros. unfold unique. rewrite unique_from_In by easy. cbn. tauto. Qed.

Lemma unique_from_NoDup : forall {A} (eqb : A -> A -> bool),
  (forall a b, eqb a b = true <-> a = b) ->
  forall l seen, NoDup (unique_from eqb seen l).
Proof.
  intros A eqb He. induction l as [|a l IH]; intros seen; cbn; [constructor|].
  destruct (existsb (eqb a) seen) eqn:E; [apply IH|].
  constructor; [|apply IH]. rewrite unique_from_In by easy. cbn. tauto.
Qed.

Lemma unique_NoDup : forall {A} (eqb : A -> A -> bool),
  (forall a b, eqb a b = true <-> a = b) -> forall l, NoDup (unique eqb l).
Proof. intros. apply unique_from_NoDup. easy. Qed.

(** ** outcome *)
Lemma obind_Ok : forall {A B} (m : outcome A) (f : A -> outcome B) b,
  obind m f = Ok b <-> exists a, m = Ok a /\ f a = Ok b.
Proof.
  intros A B m f b. destruct m; cbn; split; try easy.
  - eauto.
  - intros (x & H & Hf). injection H as ->. easy.
  - intros (x & H & _). easy.
  - intros (x & H & _). easy.
  - intros (x & H & _). easy.
Qed.

Lemma mapM_Ok_Forall2 : forall {A B} (f : A -> outcome B) l r,
  mapM f l = Ok r <-> Forall2 (fun a b => f a = Ok b) l r.
Proof.
  induction l as [|x l IH]; intros r; cbn.
  - split; [intros H; injection H as <-; constructor | intros H; inversion H; easy].
  - rewrite obind_Ok. split.
    + intros (y & Hy & H). apply obind_Ok in H as (ys & Hys & H). injection H as <-.
      constructor; [easy|]. now apply IH.
    + intros H. inversion H as [|? y ? ys Hy Hys]; subst. exists y. split; [easy|].
      apply obind_Ok. exists ys. split; [now apply IH|easy].
Qed.

Lemma mapM_Ok : forall {A B} (f : A -> outcome B) l r,
  mapM f l = Ok r -> forall x, In x l -> exists y, In y r /\ f x = Ok y.
Proof.
  intros A B f l r H. apply mapM_Ok_Forall2 in H. induction H as [|x y l r Hxy H IH]; [easy|].
  intros z [<-|Hz]; [exists y; split; [now left|easy]|].
  destruct (IH z Hz) as (w & Hw & E). exists w. split; [now right|easy].
Qed.

(** ** white space *)
Lemma drop_while_length : forall f s, length (drop_while f s) <= length s.
Proof. induction s; cbn; [lia|]. destruct (f a); cbn; lia. Qed.
Lemma trim_start_length : forall s, length (trim_start s) <= length s.
Proof. intros. apply drop_while_length. Qed.
Lemma trim_end_length : forall s, length (trim_end s) <= length s.
Proof. intros. unfold trim_end. rewrite rev_length. etransitivity; [apply drop_while_length|]. now rewrite rev_length. Qed.
Lemma trim_length : forall s, length (trim s) <= length s.
Proof. intros. unfold trim. etransitivity; [apply trim_end_length|apply trim_start_length]. Qed.

Lemma drop_while_suffix : forall f s, exists p, s = p ++ drop_while f s /\ forallb f p = true.
Proof.
  induction s as [|x s IH]; cbn; [exists []; easy|].
  destruct (f x) eqn:E; [|exists []; easy].
  destruct IH as (p & Hp & Hf). exists (x :: p). cbn. rewrite E. split; [congruence|easy].
Qed.

Lemma trim_decomp : forall s, exists p q, s = p ++ trim s ++ q /\ forallb is_ws p = true /\ forallb is_ws q = true.
Proof.
  intros s. unfold trim, trim_end, trim_start.
  destruct (drop_while_suffix is_ws s) as (p & Hp & Hpf).
  set (t := drop_while is_ws s) in *.
  destruct (drop_while_suffix is_ws (rev t)) as (q & Hq & Hqf).
  exists p, (rev q). split; [|split; [easy|]].
  - rewrite Hp at 1. f_equal. rewrite <- (rev_involutive t) at 1. rewrite Hq at 1.
    now rewrite rev_app_distr.
  - rewrite forallb_forall in *. intros x Hx. apply Hqf. now apply in_rev.
Qed.

Lemma uni_ascii_ok : uni_ok uni_ascii.
Proof.
  unfold uni_ok, uni_ascii, ascii_letter, ascii_digit; cbn.
  repeat split; intros c Hc; lia.
Qed.
