(** * Lemmas: the canonical forest *)
From Coq Require Import Permutation Sorting.Sorted.
From Verif Require Import Base Model_Ident Model_Path Model_Import Model_Text Model_Config Model_Type Model_IntoRs Model_World Model_Out
  Model_Function Model_Property Model_Class Model_Module Model_Parse Model_Codegen Spec_Path Spec_Names Spec_Items Spec_Tree
  Proof_Base Proof_Ident Proof_Path Proof_IntoRs.

(** ** Sorting and grouping *)
Lemma insert_perm : forall m l, Permutation (insert_sorted m l) (m :: l).
Proof.
  induction l as [|y r IH]; [reflexivity|]. cbn [insert_sorted]. destruct (path_cmp _ _); try reflexivity.
  rewrite IH. apply perm_swap.
Qed.
Lemma sort_perm : forall l, Permutation (sort_modules l) l.
Proof. induction l as [|m l IH]; [reflexivity|]. cbn. rewrite insert_perm. now apply perm_skip. Qed.
Lemma sort_In : forall m l, In m (sort_modules l) <-> In m l.
Proof. intros m l. split; apply Permutation_in; [apply sort_perm|symmetry; apply sort_perm]. Qed.

Lemma spans_eq : forall m r, spans (m :: r) =
  match spans r with
  | (y :: s) :: t => if path_eqb (m_name m) (m_name y) then (m :: y :: s) :: t else [m] :: (y :: s) :: t
  | t => [m] :: t
  end.
Proof. reflexivity. Qed.
Lemma spans_cons : forall m r, exists s t, spans (m :: r) = (m :: s) :: t /\
  ((s = [] /\ t = spans r) \/ (exists y s', s = y :: s' /\ spans r = s :: t /\ m_name m = m_name y)).
Proof.
  intros m r. cbn [spans]. destruct (spans r) as [|[|y s] t] eqn:E.
  - exists [], []. auto.
  - exists [], ([] :: t). auto.
  - destruct (path_eqb (m_name m) (m_name y)) eqn:Ee.
    + apply path_eqb_eq in Ee. exists (y :: s), t. split; [reflexivity|]. right. exists y, s. auto.
    + exists [], ((y :: s) :: t). auto.
Qed.
Lemma spans_concat : forall l, concat (spans l) = l.
Proof.
  induction l as [|m r IH]; [reflexivity|]. destruct (spans_cons m r) as (s & t & E & [[-> ->]|(y & s' & -> & Er & _)]); rewrite E; cbn [concat app].
  - now rewrite IH.
  - rewrite Er in IH. cbn [concat app] in IH. now rewrite <- IH.
Qed.
Lemma spans_run : forall l R, In R (spans l) -> R <> [] /\ forall a b, In a R -> In b R -> m_name a = m_name b.
Proof.
  induction l as [|m r IH]; intros R HR; [easy|]. destruct (spans_cons m r) as (s & t & E & D). rewrite E in HR.
  destruct D as [[-> ->]|(y & s' & -> & Er & En)].
  - destruct HR as [<-|HR]; [|now apply IH]. split; [discriminate|]. intros a b [<-|[]] [<-|[]]. reflexivity.
  - destruct HR as [<-|HR].
    + destruct (IH (y :: s')) as [_ K]; [rewrite Er; now left|]. split; [discriminate|].
      assert (Ky : forall a, In a (m :: y :: s') -> m_name a = m_name y).
      { intros a [<-|Ha]; [exact En|]. apply (K a y Ha). now left. }
      intros a b Ha Hb. now rewrite (Ky a Ha), (Ky b Hb).
    + apply IH. rewrite Er. now right.
Qed.

(** ** Views of a forest *)
Definition has_opt (m : module) (q : option item) : Prop := match q with None => True | Some it => has m it end.
Definition vis (l : list module) (c : list path) (q : option item) : Prop := exists m, reach l c m /\ has_opt m q.

Lemma vis_nil : forall l q, ~ vis l [] q.
Proof. intros l q (m & H & _). inversion H. Qed.
Lemma vis_one : forall l n q, vis l [n] q <-> exists m, In m l /\ m_name m = n /\ has_opt m q.
Proof.
  intros l n q. split.
  - intros (m & H & Hq). inversion H as [l0 m0 Hin|l0 m0 c k Hin Hr]; subst.
    + now exists m.
    + inversion Hr.
  - intros (m & Hin & <- & Hq). exists m. split; [now constructor|exact Hq].
Qed.
Lemma vis_cons : forall l n d c q, vis l (n :: d :: c) q <-> exists m, In m l /\ m_name m = n /\ vis (m_subs m) (d :: c) q.
Proof.
  intros l n d c q. split.
  - intros (m & H & Hq). inversion H as [l0 m0 Hin|l0 m0 c0 k Hin Hr]; subst. exists m0. split; [exact Hin|]. split; [reflexivity|]. now exists m.
  - intros (m & Hin & <- & k & Hk & Hq). exists k. split; [|exact Hq]. now apply reach_down.
Qed.
Lemma vis_flat : forall R c q, vis (flat_map m_subs R) c q <-> exists k, In k R /\ vis (m_subs k) c q.
Proof.
  intros R c q. destruct c as [|n [|d c]].
  - split; [intros H; now apply vis_nil in H|]. intros (k & _ & H). now apply vis_nil in H.
  - rewrite vis_one. split.
    + intros (m & Hin & Hn & Hq). apply in_flat_map in Hin as (k & Hk & Hin). exists k. split; [exact Hk|]. apply vis_one. now exists m.
    + intros (k & Hk & H). apply vis_one in H as (m & Hin & Hn & Hq). exists m. split; [apply in_flat_map; now exists k|now split].
  - rewrite vis_cons. split.
    + intros (m & Hin & Hn & Hq). apply in_flat_map in Hin as (k & Hk & Hin). exists k. split; [exact Hk|]. apply vis_cons. now exists m.
    + intros (k & Hk & H). apply vis_cons in H as (m & Hin & Hn & Hq). exists m. split; [apply in_flat_map; now exists k|now split].
Qed.
Lemma vis_perm : forall l k, (forall m, In m l <-> In m k) -> forall c q, vis l c q <-> vis k c q.
Proof.
  intros l k H c q. destruct c as [|n [|d c]].
  - split; intros K; now apply vis_nil in K.
  - rewrite !vis_one. split; intros (m & Hin & R); exists m; (split; [now apply H|exact R]).
  - rewrite !vis_cons. split; intros (m & Hin & R); exists m; (split; [now apply H|exact R]).
Qed.
Lemma same_forest_vis : forall l k, same_forest l k <-> forall c q, vis l c q <-> vis k c q.
Proof.
  intros l k. split; intros H.
  - intros c [it|]; destruct (H c) as [H1 H2].
    + exact (H2 it).
    + split; intros (m & Hm & _).
      * destruct (proj1 H1 (ex_intro _ m Hm)) as [m' Hm']. now exists m'.
      * destruct (proj2 H1 (ex_intro _ m Hm)) as [m' Hm']. now exists m'.
  - intros c. split.
    + split; intros [m Hm].
      * destruct (proj1 (H c None) (ex_intro _ m (conj Hm I))) as (m' & Hm' & _). now exists m'.
      * destruct (proj2 (H c None) (ex_intro _ m (conj Hm I))) as (m' & Hm' & _). now exists m'.
    + intros it. exact (H c (Some it)).
Qed.

(** ** Merging *)
Section merging.
  Variable x : penv.
  Hypothesis Hord : order_ok (pe_ord x).

  Lemma as_set_In : forall {A} d (l : list A) y, In y (as_set x d l) <-> In y l.
  Proof.
    intros A d l y. unfold as_set. split; intros H.
    - apply (nodup_In d). now apply (Permutation_in _ (Hord A _)).
    - apply (Permutation_in _ (Permutation_sym (Hord A _))). now apply nodup_In.
  Qed.

  Lemma as_set_flat : forall {A} d (p : module -> list A) f r y, In y (as_set x d (p f ++ flat_map p r)) <-> exists k, In k (f :: r) /\ In y (p k).
  Proof. intros A d p f r y. rewrite as_set_In. exact (in_flat_map p (f :: r) y). Qed.

  Lemma merged : forall fuel R m, merge_modules x (S fuel) R = Ok m -> (forall a b, In a R -> In b R -> m_name a = m_name b) ->
    (forall k, In k R -> m_name m = m_name k) /\ (forall q, has_opt m q <-> exists k, In k R /\ has_opt k q) /\
    merge_siblings (merge_modules x fuel) (flat_map m_subs R) = Ok (m_subs m).
  Proof.
    intros fuel R m H Hsame. cbn [merge_modules] in H. destruct R as [|f r]; [discriminate|].
    apply bind_Ok in H as (subs & Hsubs & H). injection H as <-. cbn [m_name m_subs]. split; [intros k Hk; apply Hsame; [now left|exact Hk]|].
    split; [|exact Hsubs]. intros [it|].
    - destruct it; cbn [has_opt has]; cbn [m_prelude m_imports m_classes m_typevars m_functions m_properties]; apply as_set_flat.
    - split; [intros _; exists f; split; [now left|exact I]|easy].
  Qed.

  Lemma siblings_vis : forall fuel l l', merge_siblings (merge_modules x fuel) l = Ok l' -> forall c q, vis l c q <-> vis l' c q.
  Proof.
    induction fuel as [|fuel IH]; intros l l' H c q; unfold merge_siblings in H.
    all: pose proof (proj1 (mapM_Ok_Forall2 _ _ _) H) as HF.
    - (* without fuel only runs of one *)
      assert (E : l' = sort_modules l).
      { rewrite <- (spans_concat (sort_modules l)). clear H. induction HF as [|R m rs ms HR HF IHF]; [reflexivity|]. cbn [concat].
        destruct R as [|a [|b R]]; cbn in HR; [discriminate| |discriminate]. injection HR as ->. cbn [app]. now f_equal. }
      subst l'. apply vis_perm. intros m. symmetry. apply sort_In.
    - assert (Hrun : forall R m, In R (spans (sort_modules l)) -> merge_run (merge_modules x (S fuel)) R = Ok m ->
        (forall k, In k R -> m_name m = m_name k) /\ (forall q, has_opt m q <-> exists k, In k R /\ has_opt k q) /\
        forall c q, vis (flat_map m_subs R) c q <-> vis (m_subs m) c q).
      { intros R m HR Hm. destruct (spans_run _ _ HR) as [Hne Hsame].
        destruct R as [|a [|b R]]; [easy| |].
        - injection Hm as <-. split; [intros k [<-|[]]; reflexivity|]. split; [intros q0; split; [intros Hq; exists a; split; [now left|exact Hq]|intros (k & [<-|[]] & Hq); exact Hq]|].
          intros c0 q0. cbn [flat_map]. now rewrite app_nil_r.
        - cbn [merge_run] in Hm. apply merged in Hm as (M1 & M2 & M3); [|exact Hsame]. split; [exact M1|]. split; [exact M2|]. now apply IH. }
      assert (Hl : forall k, In k l <-> exists R, In R (spans (sort_modules l)) /\ In k R).
      { intros k. rewrite <- sort_In, <- (spans_concat (sort_modules l)) at 1. apply in_concat. }
      assert (Hl1 : forall R, In R (spans (sort_modules l)) -> exists m, In m l' /\ merge_run (merge_modules x (S fuel)) R = Ok m).
      { intros R HR. clear - HF HR. induction HF as [|R0 m rs ms Hm HF IHF]; [easy|]. destruct HR as [<-|HR]; [exists m; split; [now left|exact Hm]|].
        destruct (IHF HR) as (m' & Hm' & E). exists m'. split; [now right|exact E]. }
      assert (Hl2 : forall m, In m l' -> exists R, In R (spans (sort_modules l)) /\ merge_run (merge_modules x (S fuel)) R = Ok m).
      { intros m Hm. destruct (mapM_In _ _ _ _ H Hm) as (R & HR & E). now exists R. }
      destruct c as [|n [|d c]].
      + split; intros K; now apply vis_nil in K.
      + rewrite !vis_one. split.
        * intros (k & Hk & En & Hq); subst n. apply Hl in Hk as (R & HR & Hk). destruct (Hl1 R HR) as (m & Hm & E). destruct (Hrun R m HR E) as (R1 & R2 & _).
          exists m. split; [exact Hm|]. split; [now apply R1|]. apply R2. now exists k.
        * intros (m & Hm & En & Hq); subst n. destruct (Hl2 m Hm) as (R & HR & E). destruct (Hrun R m HR E) as (R1 & R2 & _).
          destruct (proj1 (R2 q) Hq) as (k & Hk & Hq'). exists k. split; [apply Hl; now exists R|]. split; [symmetry; now apply R1|exact Hq'].
      + rewrite !vis_cons. split.
        * intros (k & Hk & En & Hq); subst n. apply Hl in Hk as (R & HR & Hk). destruct (Hl1 R HR) as (m & Hm & E). destruct (Hrun R m HR E) as (R1 & _ & R3).
          exists m. split; [exact Hm|]. split; [now apply R1|]. apply R3. apply vis_flat. now exists k.
        * intros (m & Hm & En & Hq); subst n. destruct (Hl2 m Hm) as (R & HR & E). destruct (Hrun R m HR E) as (R1 & _ & R3).
          pose proof (proj1 (vis_flat _ _ _) (proj2 (R3 _ _) Hq)) as (k & Hk & Hq'). exists k. split; [apply Hl; now exists R|]. split; [symmetry; now apply R1|exact Hq'].
  Qed.

  (** ** The fuel is enough *)
  Lemma depth_in : forall l m, In m l -> depth m <= forest_depth l.
  Proof.
    intros l m H. unfold forest_depth. induction l as [|y l IH]; [easy|]. cbn [map list_max fold_right]. change (fold_right Nat.max 0 (map depth l)) with (list_max (map depth l)).
    destruct H as [->|H]; [lia|]. specialize (IH H). lia.
  Qed.
  Lemma forest_depth_le : forall l n, (forall m, In m l -> depth m <= n) -> forest_depth l <= n.
  Proof.
    intros l n H. unfold forest_depth. induction l as [|y l IH]; [cbn; lia|]. cbn [map list_max fold_right]. change (fold_right Nat.max 0 (map depth l)) with (list_max (map depth l)).
    pose proof (H y (or_introl eq_refl)). assert (list_max (map depth l) <= n) by (apply IH; intros m Hm; apply H; now right). lia.
  Qed.
  Lemma depth_sub : forall m s, In s (m_subs m) -> depth s < depth m.
  Proof. intros m s H. pose proof (depth_in _ _ H) as K. unfold forest_depth in K. destruct m as [a b c l d e f g h i j]. cbn [depth Model_Module.m_subs] in *. lia. Qed.

  Lemma siblings_ok_from : forall merge l, (forall R, R <> [] -> (forall k, In k R -> In k l) -> exists m, merge R = Ok m) -> exists l', merge_siblings merge l = Ok l'.
  Proof.
    intros merge l H. unfold merge_siblings. assert (K : forall R, In R (spans (sort_modules l)) -> exists m, merge_run merge R = Ok m).
    { intros R HR. destruct (spans_run _ _ HR) as [Hne _]. destruct (H R Hne) as [m Hm].
      - intros k Hk. apply sort_In. rewrite <- (spans_concat (sort_modules l)). apply in_concat. now exists R.
      - destruct R as [|a [|b R]]; [easy|now exists a|now exists m]. }
    induction (spans (sort_modules l)) as [|R rs IH]; [now exists []|]. cbn [mapM]. destruct (K R (or_introl eq_refl)) as [m ->]. cbn [obind].
    destruct IH as [l' ->]; [intros R' HR'; apply K; now right|]. now eexists.
  Qed.
  Lemma merge_ok : forall fuel R, R <> [] -> forest_depth R <= fuel -> exists m, merge_modules x fuel R = Ok m.
  Proof.
    induction fuel as [|fuel IH]; intros R Hne Hd.
    - exfalso. destruct R as [|a R]; [easy|]. pose proof (depth_in (a :: R) a (or_introl eq_refl)) as K. destruct a as [a b c l d e f g h i j]. cbn [depth] in K. lia.
    - destruct R as [|a R]; [easy|]. cbn [merge_modules].
      destruct (siblings_ok_from (merge_modules x fuel) (flat_map m_subs (a :: R))) as [l' El].
      + intros R' Hne' Hin. apply IH; [exact Hne'|]. apply forest_depth_le. intros k Hk. apply Hin, in_flat_map in Hk as (y & Hy & Hk).
        apply depth_sub in Hk. pose proof (depth_in _ _ Hy). lia.
      + rewrite El. cbn [obind]. now eexists.
  Qed.
  Lemma duplicates_ok : forall l, exists l', merge_duplicates x l = Ok l'.
  Proof.
    intros l. apply siblings_ok_from. intros R Hne Hin. apply merge_ok; [exact Hne|]. apply forest_depth_le. intros m Hm. apply depth_in. now apply Hin.
  Qed.
  Lemma duplicates_same : forall l l', merge_duplicates x l = Ok l' -> same_forest l l'.
  Proof. intros l l' H. apply same_forest_vis. now apply (siblings_vis (forest_depth l)). Qed.
End merging.

(** ** Names of siblings *)
Lemma named_cmp : forall U a b, module_named U a -> module_named U b -> path_cmp a b = Eq -> a = b.
Proof.
  intros U a b (l & H1 & H2 & H3 & ->) (k & K1 & K2 & K3 & ->) H.
  apply (path_cmp_eq_from_py U 0 l 0 k H2 H3 (or_introl eq_refl) K2 K3 (or_introl eq_refl)). exact H.
Qed.
Definition name_le (a b : module) : Prop := path_cmp (m_name a) (m_name b) <> Gt.
Lemma name_le_trans : forall a b c, name_le a b -> name_le b c -> name_le a c.
Proof.
  intros a b c H1 H2. unfold name_le, path_cmp in *.
  destruct (str_cmp (to_py (m_name a)) (to_py (m_name b))) eqn:E1; [| |easy].
  - apply str_cmp_eq in E1. now rewrite E1.
  - destruct (str_cmp (to_py (m_name b)) (to_py (m_name c))) eqn:E2; [| |easy].
    + apply str_cmp_eq in E2. rewrite <- E2, E1. discriminate.
    + rewrite (str_cmp_lt_trans _ _ _ E1 E2). discriminate.
Qed.
Lemma insert_sorted_ok : forall m l, StronglySorted name_le l -> StronglySorted name_le (insert_sorted m l).
Proof.
  induction l as [|y r IH]; intros H; [now repeat constructor|]. cbn [insert_sorted]. apply StronglySorted_inv in H as [H1 H2].
  destruct (path_cmp (m_name m) (m_name y)) eqn:E.
  - constructor; [now constructor|]. constructor; [unfold name_le; congruence|]. rewrite Forall_forall in *. intros z Hz.
    apply (name_le_trans m y z); [unfold name_le; congruence|now apply H2].
  - constructor; [now constructor|]. constructor; [unfold name_le; congruence|]. rewrite Forall_forall in *. intros z Hz.
    apply (name_le_trans m y z); [unfold name_le; congruence|now apply H2].
  - constructor; [now apply IH|]. rewrite Forall_forall in *. intros z Hz. apply (Permutation_in _ (insert_perm m r)) in Hz as [<-|Hz]; [|now apply H2].
    unfold name_le. rewrite path_cmp_antisym, E. discriminate.
Qed.
Lemma sort_sorted : forall l, StronglySorted name_le (sort_modules l).
Proof. induction l as [|m l IH]; [constructor|]. cbn. now apply insert_sorted_ok. Qed.

(** The heads of the runs of a sorted list have different names. *)
Lemma spans_heads : forall U l, StronglySorted name_le l -> (forall m, In m l -> module_named U (m_name m)) ->
  forall R T, spans l = R :: T -> forall S a b, In S T -> In a R -> In b S -> m_name a <> m_name b.
Proof.
  intros U. induction l as [|m r IH]; intros Hs Hn R T E S a b HS Ha Hb; [discriminate|].
  apply StronglySorted_inv in Hs as [Hs1 Hs2]. rewrite Forall_forall in Hs2.
  destruct (spans_cons m r) as (s & t & E' & D). rewrite E in E'. injection E' as -> ->.
  assert (Hr : forall k, In k r -> module_named U (m_name k)) by (intros k Hk; apply Hn; now right).
  destruct D as [[-> ->]|(y & s' & -> & Er & En)].
  - destruct Ha as [<-|[]]. intros Eq.
    destruct r as [|z r']; [easy|]. destruct (spans_cons z r') as (s1 & t1 & Ez & _). rewrite Ez in HS.
    assert (Hmz : m_name m <> m_name z).
    { intros K. rewrite spans_eq, Ez in E. assert (Ee : path_eqb (m_name m) (m_name z) = true) by now apply path_eqb_eq. rewrite Ee in E. discriminate. }
    (* b comes at or after z, so m <= z <= b = m *)
    assert (Hb' : In b (z :: r')). { rewrite <- (spans_concat (z :: r')), Ez. apply in_concat. now exists S. }
    assert (Hzb : path_cmp (m_name z) (m_name b) <> Gt).
    { destruct Hb' as [->|Hb']; [now rewrite path_cmp_refl|]. apply StronglySorted_inv in Hs1 as [_ Hz]. rewrite Forall_forall in Hz. now apply Hz. }
    assert (Hmz' : path_cmp (m_name m) (m_name z) <> Gt) by (apply Hs2; now left).
    rewrite <- Eq in Hzb. rewrite path_cmp_antisym in Hzb.
    destruct (path_cmp (m_name m) (m_name z)) eqn:Ec; [|now apply Hzb|easy].
    apply Hmz. apply (named_cmp U); [apply Hn; now left|apply Hr; now left|exact Ec].
  - assert (K : m_name y <> m_name b). { apply (IH Hs1 Hr (y :: s') t Er S y b HS); [now left|exact Hb]. }
    destruct Ha as [<-|Ha]; [congruence|]. apply (IH Hs1 Hr (y :: s') t Er S a b HS Ha Hb).
Qed.
Lemma sorted_tail : forall l R T, StronglySorted name_le l -> spans l = R :: T -> StronglySorted name_le (concat T) /\ spans (concat T) = T.
Proof.
  induction l as [|m r IH]; intros R T Hs E; [discriminate|]. apply StronglySorted_inv in Hs as [Hs _].
  destruct (spans_cons m r) as (s & t & E' & D). rewrite E in E'. injection E' as -> ->.
  destruct D as [[-> ->]|(y & s' & -> & Er & En)].
  - rewrite spans_concat. now split.
  - now apply (IH (y :: s')).
Qed.

Lemma siblings_unique : forall U merge l l', (forall m, In m l -> module_named U (m_name m)) ->
  (forall R m, R <> [] -> (forall a b, In a R -> In b R -> m_name a = m_name b) -> merge R = Ok m -> forall k, In k R -> m_name m = m_name k) ->
  merge_siblings merge l = Ok l' -> NoDup (map m_name l').
Proof.
  intros U merge l l' Hn Hm H. unfold merge_siblings in H.
  assert (Hs : StronglySorted name_le (sort_modules l)) by apply sort_sorted.
  assert (Hn' : forall m, In m (sort_modules l) -> module_named U (m_name m)) by (intros m Hk; apply Hn; now apply sort_In).
  revert l' H Hs Hn'. generalize (sort_modules l). clear l Hn. intros l l' H.
  remember (spans l) as sp eqn:Esp. revert l Esp l' H. induction sp as [|R T IH]; intros l Esp l' H Hs Hn; cbn [mapM] in H.
  - injection H as <-. constructor.
  - apply bind_Ok in H as (m & Hr & H). apply bind_Ok in H as (ms & Hms & H). injection H as <-. symmetry in Esp.
    destruct (sorted_tail l R T Hs Esp) as [Hs' Esp'].
    assert (Hname : forall R0 m0, In R0 (R :: T) -> merge_run merge R0 = Ok m0 -> forall k, In k R0 -> m_name m0 = m_name k).
    { intros R0 m0 HR0 E0. rewrite <- Esp in HR0. destruct (spans_run _ _ HR0) as [Hne Hsame]. destruct R0 as [|a [|b R0]]; [easy| |].
      - injection E0 as <-. intros k [<-|[]]. reflexivity.
      - now apply (Hm (a :: b :: R0)). }
    cbn [map]. constructor.
    + intros Hin. apply in_map_iff in Hin as (m' & En & Hm'). destruct (mapM_In _ _ _ _ Hms Hm') as (S & HS & ES).
      assert (HR : R <> []) by (apply (spans_run l); rewrite Esp; now left).
      assert (HSne : S <> []) by (apply (spans_run l); rewrite Esp; now right).
      destruct R as [|a R]; [easy|]. destruct S as [|b S]; [easy|].
      apply (spans_heads U l Hs Hn (a :: R) T Esp (b :: S) a b HS (or_introl eq_refl) (or_introl eq_refl)).
      rewrite <- (Hname _ _ (or_introl eq_refl) Hr a (or_introl eq_refl)), <- (Hname _ _ (or_intror HS) ES b (or_introl eq_refl)). now symmetry.
    + apply (IH (concat T)); auto. intros k Hk. apply Hn. rewrite <- (spans_concat l), Esp. cbn [concat]. apply in_or_app. now right.
Qed.

Section uniqueness.
  Variable x : penv.
  Let U := pe_uni x.
  Lemma merge_name : forall fuel R m, merge_modules x fuel R = Ok m -> exists a, In a R /\ m_name m = m_name a.
  Proof.
    intros [|fuel] R m H; [discriminate|]. cbn [merge_modules] in H. destruct R as [|a r]; [discriminate|]. apply bind_Ok in H as (s & _ & H). injection H as <-.
    exists a. split; [now left|reflexivity].
  Qed.
  Definition tree_ok (m : module) : Prop := forall k, within k m -> module_named U (m_name k) /\ NoDup (map m_name (m_subs k)).
  Lemma tree_sub : forall m s, tree_ok m -> In s (m_subs m) -> tree_ok s.
  Proof. intros m s H Hs k Hk. apply H. now apply (within_sub k m s). Qed.

  Lemma siblings_tree : forall fuel l l', (forall m, In m l -> tree_ok m) -> merge_siblings (merge_modules x fuel) l = Ok l' ->
    NoDup (map m_name l') /\ forall m, In m l' -> tree_ok m.
  Proof.
    induction fuel as [|fuel IH]; intros l l' Hl H.
    all: assert (Hnd : NoDup (map m_name l')) by
      (refine (siblings_unique U _ l l' (fun m Hm => proj1 (Hl m Hm m (within_here m))) _ H); intros R m Hne Hsame Hm k Hk;
       destruct (merge_name _ _ _ Hm) as (a & Ha & ->); now apply Hsame).
    all: split; [exact Hnd|]; unfold merge_siblings in H; intros m Hm; destruct (mapM_In _ _ _ _ H Hm) as (R & HR & E).
    all: assert (HRl : forall k, In k R -> tree_ok k) by (intros k Hk; apply Hl; apply sort_In; rewrite <- (spans_concat (sort_modules l)); apply in_concat; now exists R).
    all: destruct (spans_run _ _ HR) as [Hne Hsame]; destruct R as [|a [|b R]]; [easy|injection E as <-; apply HRl; now left|].
    - discriminate.
    - cbn [merge_run] in E. pose proof (merge_name _ _ _ E) as (k0 & Hk0 & Ek0). cbn [merge_modules] in E. apply bind_Ok in E as (subs & Hsubs & E). injection E as E.
      destruct (IH (flat_map m_subs (a :: b :: R)) subs) as [I1 I2]; [|exact Hsubs|].
      { intros s Hs. apply in_flat_map in Hs as (y & Hy & Hs). apply (tree_sub y); [now apply HRl|exact Hs]. }
      intros k Hk. destruct Hk as [|m' s Hin Hk].
      + split; [|rewrite <- E; exact I1]. rewrite Ek0. apply (HRl k0 Hk0 k0 (within_here k0)).
      + rewrite <- E in Hin. now apply (I2 s).
  Qed.
End uniqueness.

(** ** Wrapping into parents *)
Definition pre_names (full : list ident) (i : nat) : list path := map (fun k => mk_path false (firstn k full)) (seq 1 i).
Lemma pre_S : forall full i, pre_names full (S i) = pre_names full i ++ [mk_path false (firstn (S i) full)].
Proof. intros full i. unfold pre_names. rewrite seq_S, map_app. reflexivity. Qed.
Lemma empty_shape : forall x p m, mod_empty x p = Ok m -> m_name m = p /\ m_subs m = [] /\ forall it, ~ has m it.
Proof.
  intros x p m H. unfold mod_empty in H. destruct (w_import _ _); [|discriminate]. apply bind_Ok in H as (d & _ & H). injection H as <-.
  split; [reflexivity|]. split; [reflexivity|]. intros []; exact (fun h => h).
Qed.
Lemma embed_vis : forall x full i m m', embed_in x full i m = Ok m' -> forall c q,
  vis [m'] c q <-> (exists c', c = pre_names full i ++ c' /\ vis [m] c' q) \/ (q = None /\ exists j, 1 <= j <= i /\ c = pre_names full j).
Proof.
  intros x full. induction i as [|i IH]; intros m m' H c q.
  - injection H as <-. split.
    + intros V. left. now exists c.
    + intros [(c' & -> & V)|(_ & j & Hj & _)]; [exact V|lia].
  - cbn [embed_in] in H. apply bind_Ok in H as (P & HP & H).
    assert (HE : mod_empty x (path_of_segs (firstn (S i) full)) = Ok P) by (destruct (mod_empty x _); cbn in HP; congruence).
    destruct (empty_shape _ _ _ HE) as (En & Es & Eh). rewrite Es in H. cbn [app] in H.
    rewrite (IH _ _ H c q).
    assert (KP : forall c' q', vis [with_subs P [m]] c' q' <->
      (exists c'', c' = mk_path false (firstn (S i) full) :: c'' /\ vis [m] c'' q') \/ (q' = None /\ c' = [mk_path false (firstn (S i) full)])).
    { assert (Hh : forall it, ~ has (with_subs P [m]) it) by (intros it; specialize (Eh it); destruct it; exact Eh).
      assert (Hnm : m_name (with_subs P [m]) = mk_path false (firstn (S i) full)) by (cbn; rewrite En; reflexivity).
      intros c' q'. destruct c' as [|n [|d c']].
      - split; [intros V; now apply vis_nil in V|]. intros [(c'' & E & _)|(_ & E)]; discriminate.
      - rewrite vis_one. split.
        + intros (k & [<-|[]] & <- & Hq). right. rewrite Hnm. split; [|reflexivity]. destruct q' as [it|]; [exfalso; now apply (Hh it)|reflexivity].
        + intros [(c'' & E & V)|(-> & E)].
          * injection E as -> <-. now apply vis_nil in V.
          * injection E as ->. eexists. split; [left; reflexivity|]. split; [exact Hnm|exact I].
      - rewrite vis_cons. split.
        + intros (k & [<-|[]] & <- & V). left. exists (d :: c'). rewrite Hnm. split; [reflexivity|exact V].
        + intros [(c'' & E & V)|(_ & E)]; [|discriminate]. injection E as -> <-. eexists. split; [left; reflexivity|]. split; [exact Hnm|exact V]. }
    split.
    + intros [(c' & -> & V)|(-> & j & Hj & ->)].
      * apply KP in V as [(c'' & -> & V)|(-> & ->)].
        -- left. exists c''. rewrite pre_S, <- app_assoc. split; [reflexivity|exact V].
        -- right. split; [reflexivity|]. exists (S i). split; [lia|]. symmetry. apply pre_S.
      * right. split; [reflexivity|]. exists j. split; [lia|reflexivity].
    + intros [(c' & -> & V)|(-> & j & Hj & ->)].
      * left. exists (mk_path false (firstn (S i) full) :: c'). split; [rewrite pre_S, <- app_assoc; reflexivity|]. apply KP. left. now exists c'.
      * destruct (Nat.eq_dec j (S i)) as [->|Hne].
        -- left. exists [mk_path false (firstn (S i) full)]. split; [apply pre_S|]. apply KP. now right.
        -- right. split; [reflexivity|]. exists j. split; [lia|reflexivity].
Qed.

Lemma vis_in : forall l c q, vis l c q <-> exists m, In m l /\ vis [m] c q.
Proof.
  intros l c q. destruct c as [|n [|d c]].
  - split; [intros K; now apply vis_nil in K|]. intros (m & _ & K). now apply vis_nil in K.
  - rewrite vis_one. split.
    + intros (m & Hm & R). exists m. split; [exact Hm|]. apply vis_one. exists m. split; [now left|exact R].
    + intros (m & Hm & V). apply vis_one in V as (k & [<-|[]] & R). now exists m.
  - rewrite vis_cons. split.
    + intros (m & Hm & R). exists m. split; [exact Hm|]. apply vis_cons. exists m. split; [now left|exact R].
    + intros (m & Hm & V). apply vis_cons in V as (k & [<-|[]] & R). now exists m.
Qed.
Lemma firstn_seq : forall j n, j <= n -> forall a, firstn j (seq a n) = seq a j.
Proof.
  induction j as [|j IH]; intros n H a; [reflexivity|]. destruct n as [|n]; [lia|]. cbn [seq firstn]. f_equal. apply IH. lia.
Qed.
Lemma mapM_In_l : forall {A B} (f : A -> outcome B) l r a, mapM f l = Ok r -> In a l -> exists b, In b r /\ f a = Ok b.
Proof.
  intros A B f l r a H Ha. apply mapM_Forall2 in H. induction H as [|y b l r E H IH]; [easy|]. destruct Ha as [<-|Ha]; [exists b; split; [now left|exact E]|].
  destruct (IH Ha) as (b' & Hb & E'). exists b'. split; [now right|exact E'].
Qed.
Lemma canonical_vis : forall x l k, mapM (canonical x) l = Ok k -> forall c q,
  vis k c q <-> exists m, In m l /\ ((exists c', c = parents (m_name m) ++ c' /\ vis [m] c' q) \/
                            (q = None /\ exists j, 1 <= j < length (segs (m_name m)) /\ c = firstn j (parents (m_name m)))).
Proof.
  intros x l k H c q. rewrite vis_in.
  assert (Kp : forall p j, j <= length (segs p) - 1 -> firstn j (parents p) = pre_names (segs p) j).
  { intros p j Hj. unfold parents, pre_names. rewrite firstn_map. f_equal. now apply firstn_seq. }
  assert (K : forall m m', canonical x m = Ok m' -> forall c q, vis [m'] c q <->
     (exists c', c = parents (m_name m) ++ c' /\ vis [m] c' q) \/ (q = None /\ exists j, 1 <= j < length (segs (m_name m)) /\ c = firstn j (parents (m_name m)))).
  { intros m m' Hm c0 q0. rewrite (embed_vis _ _ _ _ _ Hm c0 q0). split.
    - intros [V|(-> & j & Hj & ->)]; [left; exact V|right]. split; [reflexivity|]. exists j. split; [lia|]. symmetry. apply Kp. lia.
    - intros [V|(-> & j & Hj & ->)]; [left; exact V|right]. split; [reflexivity|]. exists j. split; [lia|]. apply Kp. lia. }
  split.
  - intros (m' & Hm' & V). destruct (mapM_In _ _ _ _ H Hm') as (m & Hm & E). exists m. split; [exact Hm|]. now apply (K m m').
  - intros (m & Hm & V). destruct (mapM_In_l _ _ _ _ H Hm) as (m' & Hm' & E). exists m'. split; [exact Hm'|]. now apply (K m m').
Qed.
Lemma canonicalize_vis : forall x l k, order_ok (pe_ord x) -> canonicalize x l = Ok k -> forall c q,
  vis k c q <-> exists m, In m l /\ ((exists c', c = parents (m_name m) ++ c' /\ vis [m] c' q) \/
                            (q = None /\ exists j, 1 <= j < length (segs (m_name m)) /\ c = firstn j (parents (m_name m)))).
Proof.
  intros x l k Ho H c q. unfold canonicalize in H. apply bind_Ok in H as (k0 & H0 & H).
  rewrite <- (canonical_vis x l k0 H0 c q). symmetry. now apply (siblings_vis x Ho (forest_depth k0)).
Qed.

(** ** Paths of modules *)
Lemma linked_app : forall c d a b, linked (c ++ [a]) -> linked (b :: d) -> extends a b -> linked (c ++ a :: b :: d).
Proof.
  induction c as [|y c IH]; intros d a b H1 H2 H; cbn [app].
  - split; assumption.
  - destruct c as [|z c]; cbn [app] in *.
    + destruct H1 as [H1 _]. split; [exact H1|]. split; assumption.
    + destruct H1 as [H1 H3]. split; [exact H1|]. now apply (IH d a b).
Qed.
Lemma pre_linked : forall full i, i <= length full -> linked (pre_names full i).
Proof.
  intros full. induction i as [|i IH]; intros Hi; [exact I|]. rewrite pre_S. destruct i as [|i]; [exact I|].
  rewrite pre_S, <- app_assoc. cbn [app]. apply linked_app; [rewrite <- pre_S; apply IH; lia|exact I|].
  unfold extends. cbn [segs]. assert (Hn : exists y, nth_error full (S i) = Some y).
  { destruct (nth_error full (S i)) eqn:E; [eauto|]. apply nth_error_None in E. lia. }
  destruct Hn as [y Hy]. exists y. clear - Hy. revert full Hy. generalize (S i). induction n as [|n IH]; intros [|z full] Hy; try discriminate.
  - injection Hy as ->. reflexivity.
  - cbn [nth_error] in Hy. cbn [firstn app]. f_equal. now apply IH.
Qed.
Lemma reach_head : forall m c k, reach [m] c k -> exists r, c = m_name m :: r.
Proof. intros m c k H. inversion H as [l0 m0 Hin|l0 m0 c0 k0 Hin Hr]; subst; destruct Hin as [<-|[]]; eauto. Qed.

Lemma canonical_linked : forall x l k, order_ok (pe_ord x) -> canonicalize x l = Ok k ->
  (forall m c, In m l -> present [m] c -> linked c) -> (forall m, In m l -> segs (m_name m) <> []) ->
  forall c, present k c -> linked c /\ exists n r, c = n :: r /\ length (segs n) = 1.
Proof.
  intros x l k Ho H Hl Hne c (m' & Hc). assert (V : vis k c None) by (exists m'; split; [exact Hc|exact I]).
  apply (canonicalize_vis x l k Ho H) in V as (m & Hm & [(c' & -> & V)|(_ & j & Hj & ->)]).
  - destruct V as (m0 & V & _). pose proof (Hl m c' Hm (ex_intro _ m0 V)) as Lc. destruct (reach_head m c' m0 V) as [r ->].
    specialize (Hne m Hm). unfold parents. change (map _ (seq 1 ?i)) with (pre_names (segs (m_name m)) i).
    destruct (segs (m_name m)) as [|a [|b full]] eqn:Es; [easy| |].
    + cbn [length Nat.sub pre_names seq map app]. split; [exact Lc|]. exists (m_name m), r. split; [reflexivity|]. now rewrite Es.
    + replace (length (a :: b :: full) - 1) with (S (length full)) by (cbn; lia). split.
      * rewrite pre_S, <- app_assoc. cbn [app]. apply linked_app; [rewrite <- pre_S; apply pre_linked; cbn; lia|exact Lc|].
        unfold extends. cbn [segs]. rewrite Es. destruct (@exists_last _ (b :: full)) as (q & y & E); [discriminate|].
        exists y. change (a :: b :: full) with (a :: (b :: full)). rewrite E. assert (El : length full = length q).
        { apply (f_equal (@length ident)) in E. rewrite app_length in E. cbn in E. lia. }
        rewrite El. cbn [firstn app]. f_equal. f_equal. rewrite firstn_app, firstn_all, Nat.sub_diag. cbn. now rewrite app_nil_r.
      * exists (mk_path false [a]). eexists. split; [cbn [pre_names seq map firstn app]; reflexivity|reflexivity].
  - assert (Ej : firstn j (parents (m_name m)) = pre_names (segs (m_name m)) j).
    { unfold parents, pre_names. rewrite firstn_map. f_equal. apply firstn_seq. lia. }
    rewrite Ej. split; [apply pre_linked; lia|]. destruct (segs (m_name m)) as [|a full]; [cbn in Hj; lia|]. destruct j as [|j]; [lia|].
    exists (mk_path false [a]). eexists. split; [cbn [pre_names seq map firstn app]; reflexivity|reflexivity].
Qed.
