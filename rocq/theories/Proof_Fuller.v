(** * Lemmas: the output of a run that excludes more names *)
From Coq Require Import Permutation Lia.
From Verif Require Import Base Model_Ident Model_Path Model_Import Model_Text Model_Config Model_Type Model_IntoRs Model_World Model_Out
  Model_Function Model_Property Model_Class Model_Module Model_Parse Model_Codegen Spec_Path Spec_Names Spec_Rust Spec_Call Spec_Items Spec_Tree Spec_Api Spec_Attr Spec_Safe Spec_Out Spec_Use Spec_Hash Spec_Clash
  Proof_Base Proof_Ident Proof_Path Proof_Text Proof_IntoRs Proof_Function Proof_Fresh Proof_Items Proof_Module Proof_Parse Proof_Forest Proof_Err Proof_Api Proof_Honest Proof_Calm Proof_Rooted
  Proof_Parts Proof_Switch Proof_Embed Proof_Attr Proof_Distinct Proof_Doc Proof_Use Proof_Full Proof_Order Proof_Hash Proof_Deps Proof_Term Proof_Scope Proof_Twin Proof_Clash Proof_More Proof_Block
  Model_Class Spec_Block Spec_More Spec_Fuller.

(** ** Scopes *)
Lemma scope_agree : forall l k s s' z, mapM (fun f => path_name (fn_name f)) l = Ok s -> mapM (fun f => path_name (fn_name f)) k = Ok s' ->
  (forall f : func, In f l -> In f k) -> (forall f, In f k -> path_name (fn_name f) = Ok z -> In f l) -> mem_str z s = mem_str z s'.
Proof.
  intros l k s s' z H H' A B. destruct (mem_str z s) eqn:E, (mem_str z s') eqn:E'; try reflexivity.
  - apply mem_str_In in E. destruct (mapM_In _ _ _ _ H E) as (f & Hf & Ef). destruct (mapM_In_l _ _ _ _ H' (A f Hf)) as (z' & Hz & Ez). rewrite Ef in Ez. injection Ez as <-. apply mem_str_In in Hz. congruence.
  - apply mem_str_In in E'. destruct (mapM_In _ _ _ _ H' E') as (f & Hf & Ef). destruct (mapM_In_l _ _ _ _ H (B f Hf Ef)) as (z' & Hz & Ez). rewrite Ef in Ez. injection Ez as <-. apply mem_str_In in Hz. congruence.
Qed.
Lemma fresh_agree : forall U base l k, (forall s, starts_with r_hash (u base ++ s) = false) -> (forall i, mem_str (candidate U base i) l = mem_str (candidate U base i) k) -> fresh U base l = fresh U base k.
Proof.
  intros U base l k Hb H. destruct (fresh_ok U base l Hb) as (a & Ea). destruct (fresh_ok U base k Hb) as (c & Ec). rewrite Ea, Ec. f_equal.
  unfold fresh in Ea, Ec. apply first_free_spec in Ea as (i & _ & -> & I1 & I2). apply first_free_spec in Ec as (j & _ & -> & J1 & J2).
  destruct (Nat.lt_trichotomy i j) as [L|[->|L]]; [|reflexivity|].
  - rewrite H, (J2 i) in I1; [discriminate|lia].
  - rewrite <- H, (I2 j) in J1; [discriminate|lia].
Qed.
Lemma unblocked_called : forall b p i, path_name p = Ok i -> called_unblocked b p = unblocked b i.
Proof. intros b p i H. apply path_name_ends in H as (q & E). unfold called_unblocked. now rewrite E, rev_app_distr. Qed.
Lemma unblocked_member : forall b p i, path_name p = Ok i -> member_unblocked b p = unblocked b i || (str_eqb (as_py i) (u "__init__") || str_eqb (as_py i) (u "__call__")).
Proof. intros b p i H. unfold member_unblocked. rewrite (unblocked_called b p i H). apply path_name_ends in H as (q & E). now rewrite E, rev_app_distr. Qed.
Lemma ordinary_free : forall b U p s, ordinary b -> In p ["get_"; "set_"; "new"; "call"]%string -> unblocked b (ident_from_py U (u p ++ s)) = true.
Proof.
  intros b U p s Hb Hp. unfold unblocked. assert (E : as_py (ident_from_py U (u p ++ s)) = u p ++ s) by (apply as_py_from_py; cbn in Hp; intuition subst; reflexivity). rewrite E.
  destruct (existsb _ b) eqn:K; [|reflexivity]. apply existsb_exists in K as (t & Ht & K). apply str_eqb_eq in K. subst t. pose proof (Hb _ (u p) Ht (in_map u _ _ Hp)) as F. rewrite starts_with_app in F. discriminate.
Qed.

Lemma called_kept : forall b U p n, n = u "__call__" \/ n = u "__init__" -> called U p n -> member_unblocked b p = true.
Proof.
  intros b U p n Hn [Hr (q & E)]. unfold member_unblocked. rewrite E, rev_app_distr. cbn [rev app]. rewrite (as_py_from_py U n Hr). destruct Hn as [-> | ->]; apply orb_true_r.
Qed.

(** ** Classes *)
Definition impl_of (i : fn_impl) : list frag * list frag * list frag := match i with IFunction l => (l, [], []) | IMethod t l => ([], t, l) end.
Lemma members_In : forall is m y,
  (In y (mb_struct (fold_left add_member is m)) <-> In y (mb_struct m) \/ exists i, In i is /\ In y (fst (fst (impl_of i)))) /\
  (In y (mb_defs (fold_left add_member is m)) <-> In y (mb_defs m) \/ exists i, In i is /\ In y (snd (fst (impl_of i)))) /\
  (In y (mb_impls (fold_left add_member is m)) <-> In y (mb_impls m) \/ exists i, In i is /\ In y (snd (impl_of i))).
Proof.
  induction is as [|i is IH]; intros m y; cbn [fold_left].
  - repeat split; try (intros H; now left); intros [H|(i & [] & _)]; exact H.
  - destruct (IH (add_member m i) y) as (A & B & C). rewrite A, B, C. clear - is. destruct i as [l|t l]; cbn [add_member mb_struct mb_defs mb_impls]; rewrite ?in_app_iff; repeat split;
      (intros [H|H]; [|try (destruct H as (j & [<-|Hj] & H); [cbn in H; tauto|])]; try (left; tauto); try (right; exists j; tauto); try (destruct H as (j & Hj & H); right; exists j; split; [now right|exact H])).
    all: try (destruct H as [H|H]; [now left|right; eexists; split; [now left|exact H]]).
Qed.
Lemma kept_part : forall i i' y, kept_impl i i' ->
  (In y (fst (fst (impl_of i))) -> exists y', In y' (fst (fst (impl_of i'))) /\ kept y y') /\
  (In y (snd (fst (impl_of i))) -> exists y', In y' (snd (fst (impl_of i'))) /\ kept y y') /\
  (In y (snd (impl_of i)) -> exists y', In y' (snd (impl_of i')) /\ kept y y').
Proof.
  intros [a|t a] [a'|t' a'] y K; try easy; cbn [impl_of fst snd] in *.
  - repeat split; try easy. now apply Forall2_left.
  - destruct K as [K1 K2]. repeat split; try easy; now apply Forall2_left.
Qed.
Section classes.
  Variables (b : list str) (cfg : config) (imp : str -> bool) (d n : bool) (U : uni) (lt lt' : table).
  Hypothesis Hb : ordinary b.
  Let g := mk_gctx (also_blocking b cfg) imp (mk_ctx d n U lt).
  Let g1 := mk_gctx cfg imp (mk_ctx d n U lt).
  Let g' := mk_gctx cfg imp (mk_ctx d n U lt').
  Lemma fn_config : forall s f, fn_generate g s f = fn_generate g1 s f.
  Proof. reflexivity. Qed.
  Lemma prop_config : forall s p, prop_generate g s p = prop_generate g1 s p.
  Proof. reflexivity. Qed.
  Lemma access_agree : forall s s' p, (forall nm z, path_name (pr_name p) = Ok nm -> (z = nm \/ z = ident_from_py U (u "get_" ++ as_py nm) \/ z = ident_from_py U (u "set_" ++ as_py nm)) -> mem_str z s = mem_str z s') -> same_access U s s' p.
  Proof.
    intros s s' p H nm En. pose proof (H nm _ En (or_introl eq_refl)) as E1. pose proof (H nm _ En (or_intror (or_introl eq_refl))) as E2. pose proof (H nm _ En (or_intror (or_intror eq_refl))) as E3.
    unfold getter_ident, prefixed_ident, name_taken. rewrite E1, E2, E3. now split.
  Qed.
  Lemma class_fuller : forall c r r', (forall t, In t (class_types c) -> fine U lt lt' t) -> class_facts U c ->
    class_generate g (without_class b c) = Ok r -> class_generate g' c = Ok r' -> forall y, In y r -> leads y = false -> exists y', In y' r' /\ fuller y y'.
  Proof.
    intros c r r' H CF E E' y Hy Hlead. unfold class_generate in E, E'. cbn [without_class cl_doc cl_name] in E.
    change (gen_doc g) with (gen_doc g') in E. destruct (gen_doc g' (cl_doc c)) as [docs| | |] eqn:Ed; [|discriminate..]. cbn [obind] in E, E'. destruct (path_name (cl_name c)) as [nm| | |]; [|discriminate..]. cbn [obind] in E, E'.
    change (g_uni g) with U in E. change (g_uni g') with U in E'.
    destruct (struct_ident U nm) as [id|]; [|injection E as <-; easy]. apply bind_Ok in E as (sc & Hsc & E). apply bind_Ok in E' as (sc' & Hsc' & E').
    apply bind_Ok in E as (fs & Hfs & E). apply bind_Ok in E' as (fs' & Hfs' & E'). apply bind_Ok in E as (ps & Hps & E). apply bind_Ok in E' as (ps' & Hps' & E').
    destruct (ident_to_syn U (ident_from_py U (id ++ u "Methods"))) as [tid| | |]; [|discriminate..]. cbn [obind] in E, E'. injection E as <-. injection E' as <-.
    cbn [without_class cl_methods cl_props] in Hsc, Hfs, Hps.
    assert (Sc : forall z, (unblocked b z = true \/ as_py z = u "__init__" \/ as_py z = u "__call__") -> mem_str z sc = mem_str z sc').
    { intros z Hz. apply (scope_agree _ _ _ _ z Hsc Hsc'); [intros f Hf; now apply filter_In in Hf|]. intros f Hf Ef. apply filter_In. split; [exact Hf|]. rewrite (unblocked_member b _ z Ef).
      destruct Hz as [-> |[-> | ->]]; [reflexivity|apply orb_true_r..]. }
    assert (Fr : same_fresh U sc sc') by (split; (apply fresh_agree; [reflexivity|]; intros i; apply Sc; left; apply (ordinary_free b U _ _ Hb); cbn; tauto)).
    assert (Ex : extra_scope U (filter (fun f => member_unblocked b (fn_name f)) (cl_methods c)) = extra_scope U (cl_methods c)).
    { assert (Kk : forall k, k = MConstructor \/ k = MCallable -> has_kind k (filter (fun f => member_unblocked b (fn_name f)) (cl_methods c)) = has_kind k (cl_methods c)).
      { intros k Hk. unfold has_kind. destruct (existsb _ (cl_methods c)) eqn:K.
        - apply existsb_exists in K as (f & Hf & K). apply existsb_exists. exists f. split; [|exact K]. apply filter_In. split; [exact Hf|].
          destruct (fn_typ f) as [|cp kk|] eqn:Et; [destruct k; discriminate| |destruct k; discriminate]. destruct (cf_kind _ _ CF f cp Hf) as [K1 K2].
          destruct kk, k; try discriminate; [exact (called_kept b U _ _ (or_introl eq_refl) (K2 Et))|exact (called_kept b U _ _ (or_intror eq_refl) (K1 Et))] || destruct kk, k; try discriminate; [exact (called_kept b U _ _ (or_intror eq_refl) (K1 Et))|exact (called_kept b U _ _ (or_introl eq_refl) (K2 Et))].
        - destruct (existsb _ (filter _ _)) eqn:K'; [|reflexivity]. apply existsb_exists in K' as (f & Hf & K'). apply filter_In in Hf as [Hf _]. rewrite <- K. symmetry. apply existsb_exists. now exists f. }
      unfold extra_scope. rewrite !Kk by tauto. reflexivity. }
    assert (F1 : forall i, In i fs -> exists i', In i' fs' /\ kept_impl i i').
    { intros i Hi. destruct (mapM_In _ _ _ _ Hfs Hi) as (f & Hf & Ei). apply filter_In in Hf as [Hf _]. destruct (mapM_In_l _ _ _ _ Hfs' Hf) as (i' & Hi' & Ei'). exists i'. split; [exact Hi'|].
      rewrite fn_config in Ei. refine (fn_grown cfg imp d n U lt lt' sc sc' f i i' (or_introl Fr) _ Ei Ei'). intros t Ht. apply H. unfold class_types. apply in_or_app. left. apply in_flat_map. now exists f. }
    assert (F2 : forall i, In i ps -> exists i', In i' ps' /\ kept_impl i i').
    { intros i Hi. destruct (mapM_In _ _ _ _ Hps Hi) as (p & Hp & Ei). apply filter_In in Hp as [Hp Hu]. destruct (mapM_In_l _ _ _ _ Hps' Hp) as (i' & Hi' & Ei'). exists i'. split; [exact Hi'|].
      rewrite prop_config in Ei. refine (prop_grown cfg imp d n U lt lt' _ _ p i i' _ _ Ei Ei'); [|apply H; unfold class_types; apply in_or_app; right; now apply in_map].
      apply access_agree. intros pn z En Hz. rewrite Ex. unfold mem_str. rewrite !existsb_app. f_equal. apply Sc. rewrite (unblocked_member b _ pn En) in Hu. destruct Hz as [->|[->| ->]].
      - apply orb_true_iff in Hu as [Hu|Hu]; [now left|right]. apply orb_true_iff in Hu as [Hu|Hu]; apply str_eqb_eq in Hu; auto.
      - left. apply (ordinary_free b U _ _ Hb). cbn; tauto.
      - left. apply (ordinary_free b U _ _ Hb). cbn; tauto. }
    assert (F3 : forall i, In i (fs ++ ps) -> exists i', In i' (fs' ++ ps') /\ kept_impl i i').
    { intros i Hi. apply in_app_or in Hi as [Hi|Hi]; [destruct (F1 i Hi) as (i' & Hi' & K)|destruct (F2 i Hi) as (i' & Hi' & K)]; exists i'; (split; [apply in_or_app; tauto|exact K]). }
    set (M := fold_left add_member (fs ++ ps) (mk_members [] [] [])) in *. set (M' := fold_left add_member (fs' ++ ps') (mk_members [] [] [])) in *.
    assert (G1 : forall z, In z (mb_struct M) -> exists z', In z' (mb_struct M') /\ kept z z').
    { intros z Hz. apply (members_In (fs ++ ps) _ z) in Hz as [[]|(i & Hi & Hz)]. destruct (F3 i Hi) as (i' & Hi' & K). destruct (proj1 (kept_part i i' z K) Hz) as (z' & Hz' & Kz). exists z'. split; [|exact Kz].
      apply (members_In (fs' ++ ps') _ z'). right. now exists i'. }
    assert (G2 : forall z, In z (mb_defs M) -> exists z', In z' (mb_defs M') /\ kept z z').
    { intros z Hz. apply (members_In (fs ++ ps) _ z) in Hz as [[]|(i & Hi & Hz)]. destruct (F3 i Hi) as (i' & Hi' & K). destruct (proj1 (proj2 (kept_part i i' z K)) Hz) as (z' & Hz' & Kz). exists z'. split; [|exact Kz].
      apply (members_In (fs' ++ ps') _ z'). right. now exists i'. }
    assert (G3 : forall z, In z (mb_impls M) -> exists z', In z' (mb_impls M') /\ kept z z').
    { intros z Hz. apply (members_In (fs ++ ps) _ z) in Hz as [[]|(i & Hi & Hz)]. destruct (F3 i Hi) as (i' & Hi' & K). destruct (proj2 (proj2 (kept_part i i' z K)) Hz) as (z' & Hz' & Kz). exists z'. split; [|exact Kz].
      apply (members_In (fs' ++ ps') _ z'). right. now exists i'. }
    clearbody M M'. apply in_app_or in Hy as [Hy|Hy]; [exists y; split; [apply in_or_app; now left|apply fu_kept, kp_same]|].
    assert (Q : exists y', In y' ([GAttr AttrRepr; GPub; GStruct id; GMacros id (to_py (cl_name c)); GAttr AttrDerived; GImpl id (mb_struct M')] ++ trait_docs ++
        [GAttr (AttrAlias id); GAttr AttrDerived; GPub; GTrait tid (mb_defs M'); GAttr AttrDerived; GImplFor tid id (mb_impls M')]) /\ fuller y y').
    { cbn [app trait_docs In] in Hy |- *. repeat (destruct Hy as [Hy|Hy]; [subst y; try discriminate Hlead; try (eexists; split; [|apply fu_kept, kp_same]; cbn [In]; tauto);
        first [eexists; split; [|apply fu_impl; intros z Hz _; exact (G1 z Hz)]|eexists; split; [|apply fu_trait; intros z Hz _; exact (G2 z Hz)]|eexists; split; [|apply fu_impl_for; intros z Hz _; exact (G3 z Hz)]]; cbn [In]; tauto|]). easy. }
    destruct Q as (y' & Hy' & K). exists y'. split; [|exact K]. apply in_or_app. now right.
  Qed.
End classes.

(** ** Forests *)
Definition less_forest (b : list str) (ms ms' : list module) : Prop := forall ch, (present ms ch -> present ms' ch) /\ forall it, holds ms ch it -> exists it', holds ms' ch it' /\ without b it' = Some it.
Lemma without_path : forall b it it', without b it' = Some it -> item_path it' = item_path it /\ ((forall j, it <> AnImport j) -> forall j, it' <> AnImport j).
Proof.
  intros b it it' H. destruct it'; cbn [without] in H; destruct (_ : bool) in H; try discriminate; injection H as <-; (split; [reflexivity|]); intros K j E; try discriminate E; exact (K j E).
Qed.
Lemma without_same : forall b it it', without b it' = Some it -> (forall c, it' <> AClass c) -> it = it'.
Proof. intros b it it' H K. destruct it'; cbn [without] in H; destruct (_ : bool) in H; try discriminate; injection H as <-; try reflexivity. now destruct (K c). Qed.
Lemma exists_less : forall b ms ms' p, less_forest b ms ms' -> existsb (path_exists p) ms = true -> existsb (path_exists p) ms' = true.
Proof.
  intros b ms ms' p S H. apply existsb_exists in H as (m & Hm & H). apply path_exists_found in H as (k & Hk & H). destruct (within_reach k m Hk ms Hm) as (ch & R).
  assert (G : exists k', reach ms' ch k' /\ ((exists s, In s (m_subs k') /\ m_name s = p) \/ (exists it, has k' it /\ item_path it = Some p /\ forall j, it <> AnImport j))).
  { destruct H as [(s & Hs & En)|(it & Hit & Ep & Hn)].
    - assert (Q : present ms (ch ++ [p])) by (exists s; rewrite <- En; now apply (reach_next ms ch k)). apply (proj1 (S _)) in Q as (s' & Q). destruct (reach_back _ _ _ _ Q (reach_ne _ _ _ R)) as (k' & R' & Hs' & En').
      exists k'. split; [exact R'|]. left. now exists s'.
    - assert (Q : holds ms ch it) by now exists k. apply (proj2 (S _)) in Q as (it' & (k' & R' & Hit') & Ew). exists k'. split; [exact R'|]. right. destruct (without_path b it it' Ew) as [E1 E2]. exists it'. split; [exact Hit'|]. split; [now rewrite E1|now apply E2]. }
  destruct G as (k' & R' & G). destruct (Proof_Api.reach_within _ _ _ R') as (m' & Hm' & Hk'). apply existsb_exists. exists m'. split; [exact Hm'|]. now apply (path_exists_from p k' m').
Qed.
Lemma types_less : forall b ms ms', less_forest b ms ms' -> forall p, In p (all_types ms) -> In p (all_types ms').
Proof.
  intros b ms ms' S p Hp. apply all_types_In in Hp as (m & k & Hm & Hk & Hp). apply all_types_In. destruct (within_reach k m Hk ms Hm) as (ch & R).
  assert (G : exists it, has k it /\ ((exists c, it = AClass c /\ cl_name c = p) \/ it = ATypeVar p)).
  { destruct Hp as [Hp|Hp]; [apply in_map_iff in Hp as (c & <- & Hc); exists (AClass c); split; [exact Hc|left; now exists c]|exists (ATypeVar p); now split; [|right]]. }
  destruct G as (it & Hit & G). assert (Q : holds ms ch it) by now exists k. apply (proj2 (S _)) in Q as (it' & (k' & R' & Hit') & Ew). destruct (Proof_Api.reach_within _ _ _ R') as (m' & Hm' & Hk').
  exists m', k'. split; [exact Hm'|]. split; [exact Hk'|]. destruct G as [(c & -> & <-)| ->]; destruct it'; cbn [without] in Ew; destruct (_ : bool) in Ew; try discriminate; injection Ew as <-; [left|right; exact Hit'].
  cbn [without_class cl_name]. exact (in_map cl_name _ _ Hit').
Qed.

(** ** Outputs *)
Section outputs.
  Variables (b : list str) (h : hash_order) (x : penv) (numpy : bool) (fuel : nat) (l : list request) (c c' : codegen) (ms ms' : list module) (out out' : list frag).
  Let U := pe_uni x.
  Let w := pe_world x.
  Let xb := blocked_run b h x.
  Hypothesis HU : uni_ok U.
  Hypothesis Ho : order_ok (pe_ord x).
  Hypothesis Ho' : order_ok h.
  Hypothesis Hw : honest U w.
  Hypothesis Hs : own_submodules w.
  Hypothesis Hd : names_differ w.
  Hypothesis Hb : ordinary b.
  Hypothesis Hl : asked_modules w l.
  Hypothesis Hc : asks xb fuel l cg_new = Ok c.
  Hypothesis Hf : final_modules xb fuel c = Ok ms.
  Hypothesis Hg : cg_generate xb numpy fuel c = Ok out.
  Hypothesis Hc' : asks x fuel l cg_new = Ok c'.
  Hypothesis Hf' : final_modules x fuel c' = Ok ms'.
  Hypothesis Hg' : cg_generate x numpy fuel c' = Ok out'.
  Hypothesis Ht : traverse_submodules (pe_cfg x) = true.
  Hypothesis Hv : forall m k, In m ms' -> within k m -> one_meaning U (all_types ms') k.
  Hypothesis Hr : forall m k, In m ms' -> within k m -> forall j, In j (m_prelude k) -> counterpart k j -> rust_ident U j.
  Let X := gen_ctx xb numpy ms.
  Let X' := gen_ctx x numpy ms'.
  Lemma fl_forest : less_forest b ms ms'.
  Proof. exact (proj1 (forest_less b h x Ho Ho' Hw Hs fuel l c c' ms ms' Hl (fun _ => Hd) Hc' Hf' Hc Hf)). Qed.
  Lemma fl_back : forall ch it it' it2, holds ms ch it -> holds ms' ch it' -> without b it' = Some it2 -> holds ms ch it2.
  Proof.
    intros ch it it' it2 H H' Ew. destruct (item_parsed xb fuel Ho' Hw l c ms Hl Hc Hf ch it H) as (d & _ & n & t & k & E & Ht0 & Hp & _ & K & _).
    destruct (item_parsed x fuel Ho Hw l c' ms' Hl Hc' Hf' ch it' H') as (d' & _ & n' & t' & k' & E' & Ht' & Hp' & Hi' & _ & _). rewrite E in E'. apply app_inj_tail in E' as [_ E'].
    destruct (parse_less b h x Ho Ho' Hw Hs n' t' k' Ht' Hp') as (k2 & Hp2 & L). pose proof (less_name _ _ _ L) as En.
    assert (k = k2) as <-. { apply (same_parse xb Ho' Hw Hd t t' k k2 Ht0 Ht' n n' Hp Hp2). congruence. }
    apply K. apply (has_less b k k' L). now exists it'.
  Qed.
  Lemma fl_sib : siblings_differ ms.
  Proof. exact (final_siblings xb Ho' Hw fuel l c ms Hl Hc Hf). Qed.
  Lemma fl_sib' : siblings_differ ms'.
  Proof. exact (final_siblings x Ho Hw fuel l c' ms' Hl Hc' Hf'). Qed.
  Section pair.
    Variables (ch : list path) (m k : module) (P P' : parts).
    Hypothesis R : reach ms ch m.
    Hypothesis R' : reach ms' ch k.
    Hypothesis HP : parts_of X m P.
    Hypothesis HP' : parts_of X' k P'.
    Lemma fl_name : m_name m = m_name k.
    Proof. destruct (reach_last _ _ _ R) as (d & E). destruct (reach_last _ _ _ R') as (d' & E'). rewrite E in E'. now apply app_inj_tail in E' as [_ E']. Qed.
    Lemma fl_item : forall it, has m it -> exists it', has k it' /\ without b it' = Some it.
    Proof.
      intros it H. assert (Q : holds ms ch it) by now exists m. apply (proj2 (fl_forest ch)) in Q as (it' & (k' & Q & Hi) & Ew). exists it'. split; [|exact Ew]. now rewrite <- (reach_once _ _ _ R' fl_sib' k' Q).
    Qed.
    Lemma fl_plain : forall it, has m it -> (forall c, it <> AClass c) -> has k it.
    Proof.
      intros it H K. destruct (fl_item it H) as (it' & Hi & Ew). rewrite (without_same b it it' Ew); [exact Hi|]. intros d ->. cbn [without] in Ew. destruct (_ : bool) in Ew; [|discriminate]. injection Ew as <-. now apply (K (without_class b d)).
    Qed.
    Lemma fl_same : forall it it' it2, has m it -> has k it' -> without b it' = Some it2 -> has m it2.
    Proof.
      intros it it' it2 H H' Ew. assert (Q : holds ms ch it) by now exists m. assert (Q' : holds ms' ch it') by now exists k.
      destruct (fl_back ch it it' it2 Q Q' Ew) as (m' & Q2 & Hi). now rewrite <- (reach_once _ _ _ R fl_sib m' Q2).
    Qed.
    Lemma fl_sub : forall s, In s (m_subs m) -> exists s', In s' (m_subs k) /\ m_name s' = m_name s.
    Proof.
      intros s Hin. assert (Q : present ms (ch ++ [m_name s])) by (exists s; now apply (reach_next ms ch m)). apply (proj1 (fl_forest _)) in Q as (s' & Q). destruct (reach_back _ _ _ _ Q (reach_ne _ _ _ R)) as (k' & Q' & Hs' & En).
      rewrite (reach_once _ _ _ R' fl_sib' k' Q') in Hs'. now exists s'.
    Qed.
    Lemma fl_fine : forall t, In t (module_types k) -> fine U (pt_lt P) (pt_lt P') t.
    Proof.
      intros t Hin. destruct (Proof_Api.reach_within _ _ _ R') as (k0 & H0 & Hk). destruct (Hv k0 k H0 Hk t Hin) as [G M]. split; [exact G|]. intros s Hst q Hq v E.
      refine (table_grown (pe_dbg x) U m k (all_types ms) (all_types ms') _ _ q (po_lt _ _ _ HP) (po_lt _ _ _ HP') fl_name _ (types_less b _ _ fl_forest) _ v E); [intros i Hi; apply (fl_plain (AnImport i) Hi); discriminate|].
      intros p p' S1 S2. exact (M s q p p' Hst Hq S1 S2).
    Qed.
    Lemma fl_source : forall s, m_source m = Some s -> m_source k = Some s.
    Proof.
      intros s Hsrc. pose proof fl_name as En. pose proof R as Q. pose proof R' as Q'. inversion Q as [l1 m1 Hm1 E1 E2 E3|l1 m1 c1 k1 Hm1 Hr1 E1 E2 E3]; subst l1.
      - subst m1. rewrite <- E2 in Q'. inversion Q' as [l2 m2 Hm2 F1 F2 F3|l2 m2 c2 k2 Hm2 Hr2 F1 F2 F3]; [subst l2 m2|inversion Hr2; congruence].
        rewrite (proj1 (final_source xb fuel l c ms Hc Hf m Hm1)) in Hsrc. now rewrite (proj1 (final_source x fuel l c' ms' Hc' Hf' k Hm2)), <- En.
      - exfalso. subst k1. destruct (final_source xb fuel l c ms Hc Hf m1 Hm1) as [_ S1]. destruct (Proof_Api.reach_within _ _ _ Hr1) as (s0 & Hs0 & Ws). rewrite (S1 s0 Hs0 m Ws) in Hsrc. discriminate.
    Qed.
    Lemma fl_counterpart : forall i, counterpart m i -> counterpart k i.
    Proof.
      intros i [(s & Hin & E)|(it & p & Hit & Ep & Hi & Hn)].
      - left. destruct (fl_sub s Hin) as (s' & Hs' & En). exists s'. split; [exact Hs'|]. now rewrite En.
      - right. destruct (fl_item it Hit) as (it' & Hit' & Ew). destruct (without_path b it it' Ew) as [E1 E2]. exists it', p. split; [exact Hit'|]. split; [now rewrite E1|]. split; [exact Hi|now apply E2].
    Qed.
    Lemma fl_prelude : forall n ex, In (GMod n [GPub; GUseSuper ex]) (pt_prelude P) -> exists n' ex', In (GMod n' [GPub; GUseSuper ex']) (pt_prelude P') /\ incl ex ex'.
    Proof.
      intros n ex E. destruct (Proof_Api.reach_within _ _ _ R) as (m0 & Hm0 & Hm). destruct (Proof_Api.reach_within _ _ _ R') as (k0 & Hk0 & Hk).
      pose proof (final_items_named xb Ho' Hw fuel l c ms Hl Hc Hf m0 m Hm0 Hm) as Nm. pose proof (final_items_named x Ho Hw fuel l c' ms' Hl Hc' Hf' k0 k Hk0 Hk) as Nk.
      pose proof (po_prelude _ _ _ HP) as H. pose proof (po_prelude _ _ _ HP') as H'. change (generate_preludes (mx_cfg X)) with (generate_preludes (pe_cfg x)) in H. change (generate_preludes (mx_cfg X')) with (generate_preludes (pe_cfg x)) in H'.
      change (mx_uni X') with U in H'. change (mx_uni X) with U in H.
      destruct (generate_preludes _); cbn [when] in H, H'; [|injection H as H; now rewrite <- H in E].
      destruct (prelude_shape _ _ _ H) as [K|(id & ex0 & K & Hgp)]; [now rewrite K in E|]. destruct (prelude_made U m _ HU Nm Hgp) as [[K' _]|(cc & ex1 & j & K' & Iff & Hri & Ecc & Hu & Hj)]; [now rewrite K' in E|].
      rewrite K' in E. destruct E as [E|[E|[]]]; [discriminate|]. injection E as -> ->.
      assert (Nex : exists i, In i ex).
      { destruct ex as [|i r]; [|exists i; now left]. exfalso. rewrite K' in Hgp. clear - Hgp. unfold gen_prelude in Hgp. destruct (m_prelude m); [discriminate|]. apply bind_Ok in Hgp as (kp & _ & Hgp). apply bind_Ok in Hgp as (e & _ & Hgp).
        destruct e; [discriminate|]. apply bind_Ok in Hgp as (z & _ & Hgp). apply bind_Ok in Hgp as (z' & _ & Hgp). discriminate. }
      assert (Inc : forall i, In i ex -> In i (m_prelude k) /\ counterpart k i).
      { intros i Hi. apply Iff in Hi as [Hi1 Hi2]. split; [|now apply fl_counterpart]. apply (fl_plain (AnExport i) Hi1). discriminate. }
      destruct Nex as (i0 & Hi0). destruct (prelude_total U k HU Nk (Hr k0 k Hk0 Hk)) as (lk & Hlk). rewrite Hlk in H'. injection H' as H'. rewrite <- H'.
      destruct (prelude_made U k _ HU Nk Hlk) as [[_ K2]|(cc' & ex' & j' & K2 & Iff' & _)]; [destruct (Inc i0 Hi0) as [I1 I2]; now destruct (K2 i0 I1)|].
      exists cc', ex'. split; [rewrite K2; right; now left|]. intros i Hi. apply Iff'. now apply Inc.
    Qed.
    Lemma fl_body : forall y, In y (pt_body m P) -> leads y = false ->
      (exists n ex n' ex', y = GMod n [GPub; GUseSuper ex] /\ In (GMod n' [GPub; GUseSuper ex']) (pt_body k P') /\ incl ex ex') \/ exists y', In y' (pt_body k P') /\ fuller y y'.
    Proof.
      intros y Hy Hlead. destruct (Proof_Api.reach_within _ _ _ R) as (m0 & Hm0 & Hm). destruct (Proof_Api.reach_within _ _ _ R') as (k0 & Hk0 & Hk). pose proof (final_typed xb fuel l c ms Ho' Hc Hf m0 m Hm0 Hm) as T.
      assert (Ty : forall f, In f (m_functions m) -> fn_typ f = FFunction \/ fn_typ f = FClosure) by apply T. clear T.
      destruct (body_frag X m P y HP Ty Hy) as [E|[(q & r & s & -> & E)|[(v & -> & E)|[(n & r & -> & E)|[(n & -> & E)|[E|[(d & -> & _ & E)|[(d & -> & _ & E)|(n & r & -> & E)]]]]]]]]; [congruence|..].
      - right. eexists. split; [|apply fu_kept, kp_same]. unfold pt_body. apply in_or_app. left. unfold gen_embed in E |- *. destruct (m_source m) as [src|] eqn:Es; [|easy]. rewrite (fl_source src Es), <- fl_name. exact E.
      - right. eexists. split; [|apply fu_kept, kp_same]. unfold pt_body. apply in_or_app. right. apply in_or_app. left.
        destruct (when_from _ _ _ _ _ (po_imports _ _ _ HP) E) as (B & i & fr & Hi & Ei & Hin). apply filter_In in Hi as [Hi He].
        destruct (when_In _ _ _ _ (po_imports _ _ _ HP') B i) as (fr' & Ei' & Inc); [apply filter_In; split; [apply (fl_plain (AnImport i) Hi); discriminate|exact (exists_less b ms ms' _ fl_forest He)]|].
        apply Inc. change (mx_uni X') with (mx_uni X) in Ei'. rewrite Ei in Ei'. now injection Ei' as <-.
      - left. pose proof (po_prelude _ _ _ HP) as Hpre. destruct (generate_preludes _); [|injection Hpre as Hpre; now rewrite <- Hpre in E]. cbn in Hpre.
        apply prelude_shape in Hpre as [Ep|(id & ex & Ep & _)]; pose proof E as E0; rewrite Ep in E; [easy|]. destruct E as [E|[E|[]]]; [discriminate|]. injection E as <- <-.
        destruct (fl_prelude id ex E0) as (n' & ex' & Hin & Hinc). exists id, ex, n', ex'. split; [reflexivity|]. split; [unfold pt_body; do 2 (apply in_or_app; right); apply in_or_app; now left|exact Hinc].
      - right. eexists. split; [|apply fu_kept, kp_same]. unfold pt_body. do 3 (apply in_or_app; right). apply in_or_app. left.
        destruct (when_from _ _ _ _ _ (po_vars _ _ _ HP) E) as (B & i & fr & Hi & Ei & Hin). destruct (when_In _ _ _ _ (po_vars _ _ _ HP') B i) as (fr' & Ei' & Inc); [apply (fl_plain (ATypeVar i) Hi); discriminate|].
        apply Inc. change (mx_uni X') with (mx_uni X) in Ei'. rewrite Ei in Ei'. now injection Ei' as <-.
      - right. destruct (when_from _ _ _ _ _ (po_classes _ _ _ HP) E) as (B & i & fr & Hi & Ei & Hin). destruct (fl_item (AClass i) Hi) as (it' & Hi' & Ew).
        destruct it' as [| |d| | |]; cbn [without] in Ew; destruct (_ : bool) in Ew; try discriminate. injection Ew as <-.
        destruct (when_In _ _ _ _ (po_classes _ _ _ HP') B d Hi') as (fr' & Ei' & Inc).
        destruct (class_fuller b (pe_cfg x) (mx_imp X') (pe_dbg x) numpy U (pt_lt P) (pt_lt P') Hb d fr fr') with (y := y) as (y' & Hy' & K); [|exact (final_class x Ho Hw fuel l c' ms' Hl Hc' Hf' k0 k d Hk0 Hk Hi')|exact Ei|exact Ei'|exact Hin|exact Hlead|].
        { intros t Hin'. apply fl_fine. unfold module_types. apply in_or_app. left. apply in_flat_map. exists d. split; [exact Hi'|exact Hin']. }
        exists y'. split; [|exact K]. unfold pt_body. do 4 (apply in_or_app; right). apply in_or_app. left. now apply Inc.
      - right. destruct (when_from _ _ _ _ _ (po_fns _ _ _ HP) E) as (B & i & fr & Hi & Ei & Hin). assert (Hi' : In i (m_functions k)) by (apply (fl_plain (AFunction i) Hi); discriminate).
        destruct (when_In _ _ _ _ (po_fns _ _ _ HP') B i Hi') as (fr' & Ei' & Inc).
        assert (F : Forall2 kept fr fr').
        { unfold fn_frags in Ei, Ei'. apply bind_Ok in Ei as (im & Em & Ei). apply bind_Ok in Ei' as (im' & Em' & Ei').
          assert (K : kept_impl im im').
          { refine (fn_grown (pe_cfg x) (mx_imp X') (pe_dbg x) numpy U (pt_lt P) (pt_lt P') (pt_scope P) (pt_scope P') i im im' (or_intror (Ty i Hi)) _ Em Em'). intros t Hin'. apply fl_fine. unfold module_types. apply in_or_app. right. apply in_or_app. left. apply in_flat_map. exists i. split; [exact Hi'|exact Hin']. }
          destruct im as [fr0|], im' as [fr0'|]; try easy. injection Ei as <-. injection Ei' as <-. exact K. }
        destruct (Forall2_left _ _ _ _ F Hin) as (y' & Hy' & K). exists y'. split; [|now apply fu_kept]. unfold pt_body. do 5 (apply in_or_app; right). apply in_or_app. left. now apply Inc.
      - right. destruct (when_from _ _ _ _ _ (po_props _ _ _ HP) E) as (B & i & fr & Hi & Ei & Hin). assert (Hi' : In i (m_properties k)) by (apply (fl_plain (AProperty i) Hi); discriminate).
        destruct (when_In _ _ _ _ (po_props _ _ _ HP') B i Hi') as (fr' & Ei' & Inc).
        assert (Ub : called_unblocked b (pr_name i) = true).
        { destruct (fl_item (AProperty i) Hi) as (it' & _ & Ew). destruct it'; cbn [without] in Ew; destruct (_ : bool) eqn:Eb in Ew; try discriminate. now injection Ew as <-. }
        assert (F : Forall2 kept fr fr').
        { unfold prop_frags in Ei, Ei'. apply bind_Ok in Ei as (im & Em & Ei). apply bind_Ok in Ei' as (im' & Em' & Ei').
          assert (N : same_access U (pt_scope P) (pt_scope P') i).
          { apply access_agree. intros nm z En Hz. apply (scope_agree _ _ _ _ z (po_scope _ _ _ HP) (po_scope _ _ _ HP')).
            - intros f Hfn. apply (fl_plain (AFunction f) Hfn). discriminate.
            - intros f Hfn Ef. apply (fl_same (AProperty i) (AFunction f) (AFunction f) Hi Hfn). cbn [without]. rewrite (unblocked_called b _ z Ef).
              assert (Uz : unblocked b z = true); [|now rewrite Uz]. rewrite (unblocked_called b _ nm En) in Ub. destruct Hz as [->|[->| ->]]; [exact Ub|apply (ordinary_free b U _ _ Hb); cbn; tauto..]. }
          assert (K : kept_impl im im').
          { refine (prop_grown (pe_cfg x) (mx_imp X') (pe_dbg x) numpy U (pt_lt P) (pt_lt P') (pt_scope P) (pt_scope P') i im im' N _ Em Em'). apply fl_fine. unfold module_types. do 2 (apply in_or_app; right). now apply in_map. }
          destruct im as [fr0|], im' as [fr0'|]; try easy. injection Ei as <-. injection Ei' as <-. exact K. }
        destruct (Forall2_left _ _ _ _ F Hin) as (y' & Hy' & K). exists y'. split; [|now apply fu_kept]. unfold pt_body. do 6 (apply in_or_app; right). apply in_or_app. left. now apply Inc.
      - right. destruct (when_from _ _ _ _ _ (po_subs _ _ _ HP) E) as (B & s & fr & Hs0 & Es & Hin). destruct (fl_sub s Hs0) as (s' & Hs' & En).
        destruct (when_In _ _ _ _ (po_subs _ _ _ HP') B s' Hs') as (fr' & Es' & Inc). destruct (generated_mods X s fr n r Es Hin) as (Q & _ & Hn & _). destruct (module_in X' s' fr' Es') as (Q' & n' & _ & Hn' & Hin').
        apply path_name_ends in Hn. rewrite En in Hn'. rewrite (ends_unique _ _ _ Hn' Hn) in Hin'. eexists. split; [|apply fu_kept, kp_mod]. unfold pt_body. do 7 (apply in_or_app; right). apply Inc. exact Hin'.
    Qed.
  End pair.
  Lemma fl_output : forall ns k y, at_path out ns k -> In y k -> leads y = false ->
    (exists ex, y = GUseSuper ex) \/ exists k', at_path out' ns k' /\ ((exists y', In y' k' /\ fuller y y') \/
      exists n ex n' ex', y = GMod n [GPub; GUseSuper ex] /\ In (GMod n' [GPub; GUseSuper ex']) k' /\ incl ex ex').
  Proof.
    intros ns r y Hbk Hy Hlead. destruct (output_named xb numpy fuel c out ms Hf Hg ns r Hbk) as [[-> K]|[(ex & ->)|(ch & m & P & R & M & HP & ->)]].
    - right. destruct (K y Hy) as [E|(n & b0 & ->)]; [congruence|]. assert (r = out) as -> by now inversion Hbk. exists out'.
      destruct (output_from xb numpy fuel c out ms Hf Hg _ Hy) as (m & lm & Hm & Em & Hin). destruct (generated_mods X m lm n b0 Em Hin) as (Q & _ & Hn & _). apply path_name_ends in Hn.
      assert (Z : present ms [m_name m]) by (exists m; now apply reach_here). apply (proj1 (fl_forest _)) in Z as (k & Z). pose proof (fl_name [m_name m] m k (reach_here ms m Hm) Z) as En.
      assert (Hk : In k ms') by (inversion Z as [l2 m2 Hm2 F1 F2|l2 m2 c2 k2 Hm2 Hr2 F1 F2]; subst; [exact Hm2|inversion Hr2]).
      destruct (output_of x numpy fuel c' out' ms' Hf' Hg' k Hk) as (lk & Ek & Il). destruct (module_in X' k lk Ek) as (Q' & n' & _ & Hn' & Hin'). rewrite <- En in Hn'. rewrite (ends_unique _ _ _ Hn' Hn) in Hin'.
      split; [constructor|]. left. eexists. split; [apply Il; exact Hin'|apply fu_kept, kp_mod].
    - left. destruct Hy as [<-|[<-|[]]]; [discriminate|now exists ex].
    - right. assert (Z : present ms ch) by now exists m. apply (proj1 (fl_forest _)) in Z as (k & R').
      destruct (output_reached x numpy fuel c' out' ms' Hf' Hg' ch k (or_introl Ht) R') as (ns' & P' & M' & HP' & A'). rewrite (mirrors_once ch ns' ns M' M) in A'.
      destruct (fl_body ch m k P P' R R' HP HP' y Hy Hlead) as [(n & ex & n' & ex' & E & Hin & Hinc)|(y' & Hy' & Q)]; exists (pt_body k P'); (split; [exact A'|]); [right; now exists n, ex, n', ex'|left; now exists y'].
  Qed.
End outputs.
