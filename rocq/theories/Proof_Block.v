(** * Lemmas: excluding more names (C79) *)
From Coq Require Import Permutation.
From Verif Require Import Base Model_Ident Model_Path Model_Import Model_Text Model_Config Model_Type Model_IntoRs Model_World Model_Out
  Model_Function Model_Property Model_Class Model_Module Model_Parse Model_Codegen Spec_Path Spec_Names Spec_Call Spec_Items Spec_Tree Spec_Api Spec_Safe Spec_Out Spec_Privacy Spec_Attr
  Proof_Base Proof_Ident Proof_Path Proof_Text Proof_IntoRs Proof_Call Proof_Function Proof_Fresh Proof_Method Proof_Kind Proof_Items Proof_Module
  Proof_Parse Proof_Forest Proof_Err Proof_Api Proof_Honest Proof_Calm Proof_Rooted Proof_Deps Proof_Attr Proof_Order Proof_Hash Proof_Acts Model_Class Spec_Block.

(** ** Filters *)
Lemma filter_and : forall {A} (p q : A -> bool) l, filter (fun a => p a && q a) l = filter q (filter p l).
Proof. intros A p q. induction l as [|a l IH]; [reflexivity|]. cbn [filter]. destruct (p a); cbn [andb filter]; rewrite IH; reflexivity. Qed.
Lemma filter_mem : forall (p : ident -> bool) l i, p i = true -> mem_str i (filter p l) = mem_str i l.
Proof.
  intros p l i Hp. destruct (mem_str i l) eqn:E.
  - apply mem_str_In. apply mem_str_In in E. apply filter_In. now split.
  - apply mem_str_notIn. apply mem_str_notIn in E. intros K. apply filter_In in K as [K _]. contradiction.
Qed.
Lemma filter_insert : forall (p : ident -> bool) l i, filter p (insert_name l i) = if p i then insert_name (filter p l) i else filter p l.
Proof.
  intros p l i. unfold insert_name. destruct (p i) eqn:Ep.
  - rewrite filter_mem by exact Ep. destruct (mem_str i l); [reflexivity|]. rewrite filter_app. cbn [filter]. now rewrite Ep.
  - destruct (mem_str i l); [reflexivity|]. rewrite filter_app. cbn [filter]. now rewrite Ep, app_nil_r.
Qed.
Lemma filter_inserts : forall (p : ident -> bool) l acc, fold_left insert_name (filter p l) (filter p acc) = filter p (fold_left insert_name l acc).
Proof.
  intros p. induction l as [|i l IH]; intros acc; [reflexivity|]. cbn [filter fold_left]. rewrite <- IH, filter_insert. destruct (p i); [reflexivity|reflexivity].
Qed.

(** ** What is allowed *)
Lemma allowed_less : forall b cfg i m, is_attr_allowed (also_blocking b cfg) i m = is_attr_allowed cfg i m && unblocked b i.
Proof.
  intros b cfg i m. unfold is_attr_allowed, unblocked. cbn [include_private blocklist_names also_blocking]. rewrite existsb_app.
  set (a1 := mem_str _ _). set (a2 := negb (include_private cfg) && _). set (a3 := existsb _ b). set (a4 := existsb _ (blocklist_names cfg)). set (a5 := existsb _ (segs m)).
  set (a6 := existsb _ (segs m)). clearbody a1 a2 a3 a4 a5 a6. destruct a1, a2, a3, a4, a5, a6; reflexivity.
Qed.
Lemma segments_less : forall b cfg l before, segments_allowed (also_blocking b cfg) before l = segments_allowed cfg before l && forallb (unblocked b) l.
Proof.
  intros b cfg. induction l as [|i l IH]; intros before; [reflexivity|]. cbn [segments_allowed forallb]. rewrite allowed_less, IH.
  destruct (is_attr_allowed cfg i _), (unblocked b i), (segments_allowed cfg _ l), (forallb _ l); reflexivity.
Qed.
Lemma called_snoc : forall b p i, called_unblocked b (path_snoc p i) = unblocked b i.
Proof. intros b p i. unfold called_unblocked, path_snoc. cbn [segs]. now rewrite rev_app_distr. Qed.
Lemma member_snoc : forall b p i, member_unblocked b (path_snoc p i) = unblocked b i || mem_str (as_py i) (map u ["__init__"; "__call__"]%string).
Proof.
  intros b p i. unfold member_unblocked. rewrite called_snoc. unfold path_snoc. cbn [segs]. rewrite rev_app_distr. cbn [rev app]. f_equal.
  unfold mem_str. cbn [map existsb]. now rewrite orb_false_r.
Qed.

(** ** The loop over the attributes, twice *)
Lemma each_less : forall {S} e o (R : list str -> S -> S -> Prop) (al al' : attr -> bool) (step step' : S -> attr -> outcome S),
  (forall s r st st', R (s :: r) st st' -> R r st st') ->
  (forall a, al a = true -> al' a = true) ->
  forall names, (forall pre s r a st st' st1', names = pre ++ s :: r -> R (s :: r) st st' -> read_attr e o s = Ok (Some a) -> al' a = true -> step' st' a = Ok st1' ->
     if al a then exists st1, step st a = Ok st1 /\ R r st1 st1' else R r st st1') ->
  forall st st' st1', R names st st' -> each_attr e o al' step' names st' = Ok st1' -> exists st1, each_attr e o al step names st = Ok st1 /\ R [] st1 st1'.
Proof.
  intros S e o R al al' step step' Hmono Hal. induction names as [|s r IH]; intros Hstep st st' st1' HR H.
  - injection H as <-. exists st. now split.
  - cbn [each_attr] in *. apply bind_Ok in H as (a & Ha & H). apply bind_Ok in H as (st2' & H2 & H).
    assert (K : exists st2, match a with Some a => if al a then step st a else Ok st | None => Ok st end = Ok st2 /\ R r st2 st2').
    { destruct a as [a|].
      - destruct (al' a) eqn:E'.
        + pose proof (Hstep [] s r a st st' st2' eq_refl HR Ha E' H2) as K. destruct (al a); [exact K|now exists st].
        + injection H2 as <-. assert (E : al a = false) by (destruct (al a) eqn:E; [apply Hal in E; congruence|reflexivity]). rewrite E. exists st. split; [reflexivity|now apply (Hmono s)].
      - injection H2 as <-. exists st. split; [reflexivity|now apply (Hmono s)]. }
    destruct K as (st2 & K1 & K2). destruct (IH (fun pre s' r' a st st' st1' E => Hstep (s :: pre) s' r' a st st' st1' (f_equal (cons s) E)) st2 st2' st1' K2 H) as (st1 & J1 & J2).
    exists st1. split; [|exact J2]. rewrite Ha. cbn [obind]. rewrite K1. exact J1.
Qed.

(** ** Classes *)
Lemma fn_called : forall e o p k f, fn_parse e o p k = Ok f -> fn_name f = p.
Proof.
  intros e o p k f H. unfold fn_parse in H. apply bind_Ok in H as (doc & _ & H). destruct (w_signature _ o) as [sg|]; [|now injection H as <-].
  apply bind_Ok in H as (ps0 & H0 & H). apply bind_Ok in H as (ret & _ & H). apply bind_Ok in H as (t1 & _ & H). destruct (infer_self t1 _) as [t2 ps2].
  apply bind_Ok in H as (ps3 & H3 & H). now injection H as <-.
Qed.
Lemma prop_called : forall e o p k f, prop_parse e o p k = Ok f -> pr_name f = p.
Proof. intros e o p k f H. apply (prop_parse_any_name _ _ _ p) in H as E. rewrite E in H. injection H as H. now rewrite <- H. Qed.
Lemma class_called : forall e cfg o p c, class_parse e cfg o p = Ok c -> cl_name c = p.
Proof. intros e cfg o p c H. unfold class_parse in H. apply bind_Ok in H as ([ms ps] & _ & H). apply bind_Ok in H as (d & _ & H). now injection H as <-. Qed.
Lemma class_less : forall b e cfg o name c, class_parse e cfg o name = Ok c -> class_parse e (also_blocking b cfg) o name = Ok (without_class b c).
Proof.
  intros b e cfg o name c H. unfold class_parse in *. apply bind_Ok in H as ([ms ps] & H1 & H). apply bind_Ok in H as (doc & H2 & H). injection H as <-.
  set (R := fun (_ : list str) (st st' : list func * list property) =>
    st = (filter (fun f => member_unblocked b (fn_name f)) (fst st'), filter (fun p => member_unblocked b (pr_name p)) (snd st'))).
  destruct (each_less e o R (class_attr_allowed (also_blocking b cfg)) (class_attr_allowed cfg) (class_step e name) (class_step e name)) with (names := unique_names (e_uni e) [] (w_dir (e_world e) o)) (st := ([] : list func, [] : list property)) (st' := ([] : list func, [] : list property)) (st1' := (ms, ps)) as (st & K1 & K2).
  - intros s r st st' K. exact K.
  - intros a. unfold class_attr_allowed. rewrite allowed_less. rewrite !orb_true_iff, andb_true_iff. tauto.
  - intros pre s r a [fs qs] [fs' qs'] st1' _ E Ha Hal Hs. unfold R in E. cbn [fst snd] in E. injection E as -> ->.
    assert (A : class_attr_allowed (also_blocking b cfg) a = member_unblocked b (path_snoc name (at_name a))).
    { rewrite member_snoc. unfold class_attr_allowed in *. rewrite allowed_less. destruct (is_attr_allowed cfg _ _); [reflexivity|]. cbn [orb andb] in *. now rewrite Hal, orb_true_r. }
    rewrite A. unfold class_step in *. apply bind_Ok in Hs as (v & Hv & Hs). unfold R. rewrite Hv. cbn [obind fst snd] in *.
    assert (Same : Ok (fs', qs') = Ok st1' -> if member_unblocked b (path_snoc name (at_name a)) then
      exists st1, Ok (filter (fun f => member_unblocked b (fn_name f)) fs', filter (fun p => member_unblocked b (pr_name p)) qs') = Ok st1 /\
        st1 = (filter (fun f => member_unblocked b (fn_name f)) (fst st1'), filter (fun p => member_unblocked b (pr_name p)) (snd st1'))
      else (filter (fun f => member_unblocked b (fn_name f)) fs', filter (fun p => member_unblocked b (pr_name p)) qs') =
           (filter (fun f => member_unblocked b (fn_name f)) (fst st1'), filter (fun p => member_unblocked b (pr_name p)) (snd st1'))).
    { intros E. injection E as <-. cbn [fst snd]. destruct (member_unblocked _ _); [|reflexivity]. eexists. split; reflexivity. }
    destruct v; try (exact (Same Hs)).
    1,2: apply bind_Ok in Hs as (f & Hf & Hs); injection Hs as <-; rewrite Hf; cbn [obind fst snd]; rewrite filter_app; cbn [filter]; rewrite (fn_called _ _ _ _ _ Hf);
      destruct (member_unblocked _ _); [eexists; split; reflexivity|now rewrite app_nil_r].
    apply bind_Ok in Hs as (f & Hf & Hs); injection Hs as <-; rewrite Hf; cbn [obind fst snd]; rewrite filter_app; cbn [filter]; rewrite (prop_called _ _ _ _ _ Hf).
    destruct (member_unblocked _ _); [eexists; split; reflexivity|now rewrite app_nil_r].
  - reflexivity.
  - exact H1.
  - rewrite K1. cbn [obind]. unfold R in K2. subst st. cbn [fst snd obind]. rewrite H2. reflexivity.
Qed.

(** ** Modules *)
Section blocking.
  Variable b : list str.
  Variable h : hash_order.
  Variable x : penv.
  Let U := pe_uni x.
  Let w := pe_world x.
  Let x' := blocked_run b h x.

  Definition less_found (st st' : found) : Prop :=
    fd_conflicts st' = [] /\
    st = mk_found (filter (import_unblocked b) (fd_imports st')) [] (map (without_class b) (filter (fun c => called_unblocked b (cl_name c)) (fd_classes st')))
           (filter (called_unblocked b) (fd_typevars st')) (filter (fun f => called_unblocked b (fn_name f)) (fd_functions st'))
           (filter (fun p => called_unblocked b (pr_name p)) (fd_properties st')) (filter (unblocked b) (fd_subs st')).
  Lemma read_import_less : forall a full i, read_import x a full = Ok i ->
    read_import x' a full = Ok (match i with Some i => if forallb (unblocked b) (segs (im_origin i)) then Some i else None | None => None end).
  Proof.
    intros a full i H. unfold read_import in *. apply bind_Ok in H as (og & Ho & H). change (import_origin x' a) with (import_origin x a). rewrite Ho. cbn [obind].
    destruct (path_eqb og full); [now injection H as <-|]. change (pe_cfg x') with (also_blocking b (pe_cfg x)). rewrite segments_less.
    destruct (segments_allowed (pe_cfg x) [] (segs og)); cbn [andb negb] in *; [|now injection H as <-].
    destruct (import_new og full) as [j|e|e|] eqn:E; cbn [omap] in *; try discriminate. injection H as <-.
    assert (K : im_origin j = og) by (unfold import_new in E; apply bind_Ok in E as (t & _ & E); now injection E as <-). rewrite K. destruct (forallb _ _); reflexivity.
  Qed.
  Lemma step_less : forall name a st st' st1', less_found st st' -> module_step x name st' a = Ok st1' ->
    (mem_str (at_name a) (fd_subs st') = true -> determine (pe_env x) (at_obj a) (at_module a) name true = Ok VImport -> read_import x a (path_snoc name (at_name a)) = Ok None) ->
    if unblocked b (at_name a) then exists st1, module_step x' name st a = Ok st1 /\ less_found st1 st1' else less_found st st1'.
  Proof.
    intros name a st [ims cfs cls tvs fns prs sbs] st1' [Ec ->] H Hid. cbn [fd_imports fd_conflicts fd_classes fd_typevars fd_functions fd_properties fd_subs] in *. subst cfs.
    cbn [module_step] in *. change (pe_env x') with (pe_env x). apply bind_Ok in H as (v & Hv & H). rewrite Hv. cbn [obind]. destruct v.
    - apply bind_Ok in H as (i & Hi & H). rewrite (read_import_less _ _ _ Hi). cbn [obind].
      destruct i as [i|].
      + destruct (mem_str (at_name a) sbs) eqn:Em; [rewrite (Hid eq_refl Hv) in Hi; discriminate|]. injection H as <-.
        pose proof (read_import_target _ _ _ _ Hi) as Et.
        assert (E : import_unblocked b i = unblocked b (at_name a) && forallb (unblocked b) (segs (im_origin i))) by (unfold import_unblocked; now rewrite Et, called_snoc).
        destruct (unblocked b (at_name a)) eqn:Eb; cbn [andb] in E.
        * rewrite filter_mem, Em by exact Eb. destruct (forallb _ _) eqn:Ef; (eexists; split; [reflexivity|]); (split; [reflexivity|]);
            cbn [fd_imports fd_conflicts fd_classes fd_typevars fd_functions fd_properties fd_subs]; rewrite filter_app; cbn [filter]; rewrite E; now rewrite ?app_nil_r.
        * split; [reflexivity|]. cbn [fd_imports fd_conflicts fd_classes fd_typevars fd_functions fd_properties fd_subs]. rewrite filter_app. cbn [filter]. rewrite E. now rewrite app_nil_r.
      + injection H as <-. destruct (unblocked b (at_name a)); [eexists; split; [reflexivity|]|]; (split; reflexivity).
    - injection H as <-. destruct (unblocked b (at_name a)) eqn:Eb; [eexists; split; [reflexivity|]|]; (split; [reflexivity|]);
        cbn [fd_imports fd_conflicts fd_classes fd_typevars fd_functions fd_properties fd_subs]; rewrite filter_insert, Eb; reflexivity.
    - apply bind_Ok in H as (c & Hc & H). injection H as <-. change (pe_cfg x') with (also_blocking b (pe_cfg x)). rewrite (class_less b _ _ _ _ _ Hc).
      assert (E : called_unblocked b (cl_name c) = unblocked b (at_name a)) by (now rewrite (class_called _ _ _ _ _ Hc), called_snoc).
      destruct (unblocked b (at_name a)) eqn:Eb; [eexists; split; [reflexivity|]|]; (split; [reflexivity|]);
        cbn [fd_imports fd_conflicts fd_classes fd_typevars fd_functions fd_properties fd_subs]; rewrite filter_app; cbn [filter]; rewrite E, map_app; cbn [map]; now rewrite ?app_nil_r.
    - apply bind_Ok in H as (c & Hc & H). injection H as <-. rewrite Hc.
      assert (E : called_unblocked b (fn_name c) = unblocked b (at_name a)) by (now rewrite (fn_called _ _ _ _ _ Hc), called_snoc).
      destruct (unblocked b (at_name a)) eqn:Eb; [eexists; split; [reflexivity|]|]; (split; [reflexivity|]);
        cbn [fd_imports fd_conflicts fd_classes fd_typevars fd_functions fd_properties fd_subs]; rewrite filter_app; cbn [filter]; rewrite E; now rewrite ?app_nil_r.
    - injection H as <-. destruct (unblocked b (at_name a)); [eexists; split; [reflexivity|]|]; (split; reflexivity).
    - apply bind_Ok in H as (c & Hc & H). injection H as <-. rewrite Hc.
      assert (E : called_unblocked b (fn_name c) = unblocked b (at_name a)) by (now rewrite (fn_called _ _ _ _ _ Hc), called_snoc).
      destruct (unblocked b (at_name a)) eqn:Eb; [eexists; split; [reflexivity|]|]; (split; [reflexivity|]);
        cbn [fd_imports fd_conflicts fd_classes fd_typevars fd_functions fd_properties fd_subs]; rewrite filter_app; cbn [filter]; rewrite E; now rewrite ?app_nil_r.
    - injection H as <-. pose proof (called_snoc b name (at_name a)) as E.
      destruct (unblocked b (at_name a)) eqn:Eb; [eexists; split; [reflexivity|]|]; (split; [reflexivity|]);
        cbn [fd_imports fd_conflicts fd_classes fd_typevars fd_functions fd_properties fd_subs]; rewrite filter_app; cbn [filter]; rewrite E; now rewrite ?app_nil_r.
    - apply bind_Ok in H as (c & Hc & H). injection H as <-. rewrite Hc.
      assert (E : called_unblocked b (pr_name c) = unblocked b (at_name a)) by (now rewrite (prop_called _ _ _ _ _ Hc), called_snoc).
      destruct (unblocked b (at_name a)) eqn:Eb; [eexists; split; [reflexivity|]|]; (split; [reflexivity|]);
        cbn [fd_imports fd_conflicts fd_classes fd_typevars fd_functions fd_properties fd_subs]; rewrite filter_app; cbn [filter]; rewrite E; now rewrite ?app_nil_r.
  Qed.

  Lemma submodules_less : forall o l, extract_submodules x o = Ok l -> extract_submodules x' o = Ok (filter (unblocked b) l).
  Proof.
    intros o l H. unfold extract_submodules in *. change (module_path x' o) with (module_path x o). apply bind_Ok in H as (name & Hn & H). rewrite Hn. cbn [obind].
    apply bind_Ok in H as (ids & Hi & H). change (pe_dbg x') with (pe_dbg x). change (pe_uni x') with (pe_uni x). change (pe_world x') with (pe_world x). rewrite Hi. cbn [obind].
    injection H as <-. f_equal. rewrite <- (filter_inserts (unblocked b) _ []). cbn [filter]. f_equal. rewrite <- filter_and. apply filter_ext. intros i. apply allowed_less.
  Qed.
  Lemma prelude_less : forall o name l, extract_prelude x o name = Ok l -> extract_prelude x' o name = Ok (filter (unblocked b) l).
  Proof.
    intros o name l H. unfold extract_prelude in *. change (pe_dbg x') with (pe_dbg x). change (pe_uni x') with (pe_uni x). change (pe_world x') with (pe_world x).
    apply bind_Ok in H as (index & Hi & H). rewrite Hi. cbn [obind]. apply bind_Ok in H as (names & Hn & H). rewrite Hn. cbn [obind].
    destruct (same_set _ _); [now injection H as <-|]. change (generate_dependencies (pe_cfg x')) with (generate_dependencies (pe_cfg x)).
    change (is_reexported x' o name) with (is_reexported x o name). apply bind_Ok in H as (kept & Hk & H). rewrite Hk. cbn [obind]. injection H as <-. f_equal.
    rewrite <- filter_and. apply filter_ext. intros i. unfold prelude_allowed. change (pe_world x') with (pe_world x). destruct (w_getattr _ o _); [apply allowed_less|reflexivity].
  Qed.

  Hypothesis HU : uni_ok U.
  Hypothesis Ho : order_ok (pe_ord x).
  Hypothesis Ho' : order_ok h.
  Hypothesis Hw : honest U w.
  Hypothesis Hs : own_submodules w.

  Lemma child_path : forall o s, is_module w o -> py_name s -> path_from_py U (dot (w_name w o) s) = path_snoc (path_from_py U (w_name w o)) (ident_from_py U s).
  Proof.
    intros o s Hm Hp. destruct (hn_name _ _ Hw o Hm) as (l & Hl & Hl2 & E). rewrite E, <- join_snoc by exact Hl.
    assert (C : forall t, In t l -> component t) by (intros t Ht; now apply Hl2). rewrite (named_segs U l C).
    rewrite named_segs; [unfold path_snoc; cbn [segs leading_colon]; now rewrite map_app|]. intros t Ht. apply in_app_or in Ht as [Ht|[<-|[]]]; [now apply C|apply Hp].
  Qed.
  Lemma unhidden : forall o s a l name, is_module w o -> module_path x o = Ok name -> extract_submodules x o = Ok l -> read_attr (pe_env x) o s = Ok (Some a) -> In (at_name a) l ->
    determine (pe_env x) (at_obj a) (at_module a) name true = Ok VImport -> forall r, read_import x a (path_snoc name (at_name a)) = Ok r -> r = None.
  Proof.
    intros o s a l name Hm Hn Hl Ha Hin Hv r Hr. apply chk_path in Hn. fold U in Hn. fold w in Hn. apply read_attr_inv in Ha as (A1 & A2 & A3).
    change (e_uni (pe_env x)) with U in *. change (e_world (pe_env x)) with w in *.
    assert (C : exists t, In t (w_iter_modules w o) /\ at_name a = ident_from_py U t).
    { unfold extract_submodules in Hl. apply bind_Ok in Hl as (n & _ & Hl). apply bind_Ok in Hl as (ids & Hids & Hl). injection Hl as <-.
      destruct (insert_fold (filter (fun i => is_attr_allowed (pe_cfg x) i n) ids) [] (NoDup_nil _)) as [_ B]. apply B in Hin as [[]|Hin]. apply filter_In in Hin as [Hin _].
      destruct (mapM_In _ _ _ _ Hids Hin) as (t & Ht & E). apply chk_ident in E. now exists t. }
    destruct C as (t & Ht & Et). pose proof (hn_child _ _ Hw o t Hm (or_introl Ht)) as Hp.
    assert (Ep : as_py (at_name a) = t) by (rewrite Et; apply as_py_from_py; apply Hp).
    rewrite Ep in A2. unfold from_module in A3. destruct (Hs o t (at_obj a) Hm Ht A2) as [[K1 K2]|[K|(K1 & K2 & K3 & K4)]].
    - unfold read_import, import_origin in Hr. fold w in Hr. rewrite K2 in Hr. apply bind_Ok in Hr as (og & Hog & Hr). apply bind_Ok in Hog as (p & Hpp & Hog). apply chk_path in Hpp.
      fold U in Hpp. rewrite A3, K1 in Hog. rewrite Hpp, child_path in Hog by assumption. unfold path_join in Hog. cbn [path_snoc leading_colon path_from_py path_default segs app] in Hog.
      destruct (hn_name _ _ Hw o Hm) as (ls & Hls & Hl2 & E). assert (Cc : forall t, In t ls -> component t) by (intros t0 Ht0; now apply Hl2).
      rewrite E, (named_segs U ls Cc) in Hog. cbn [leading_colon segs] in Hog. injection Hog as <-.
      rewrite Hn, E, (named_segs U ls Cc), Et in Hr. unfold path_snoc in Hr. cbn [leading_colon segs] in Hr. rewrite path_eqb_refl in Hr. now injection Hr as <-.
    - rewrite A3, K, <- Hn in Hv. now apply determine_own in Hv.
    - exfalso. unfold determine in Hv. apply bind_Ok in Hv as (tn & _ & Hv). apply bind_Ok in Hv as (tm & _ & Hv). change (e_world (pe_env x)) with w in Hv. rewrite K1, K2, K3, K4 in Hv.
      cbn [orb] in Hv. rewrite !andb_false_r in Hv. injection Hv as Hv. repeat match type of Hv with (if ?c then _ else _) = _ => destruct c; try discriminate end.
  Qed.

  Lemma attrs_less : forall o name sbs st1', is_module w o -> module_path x o = Ok name -> (sbs = [] \/ extract_submodules x o = Ok sbs) ->
    each_attr (pe_env x) o (fun a => is_attr_allowed (pe_cfg x) (at_name a) (at_module a)) (module_step x name) (unique_names U [] (w_dir w o)) (mk_found [] [] [] [] [] [] sbs) = Ok st1' ->
    exists st1, each_attr (pe_env x) o (fun a => is_attr_allowed (pe_cfg x') (at_name a) (at_module a)) (module_step x' name) (unique_names U [] (w_dir w o))
      (mk_found [] [] [] [] [] [] (filter (unblocked b) sbs)) = Ok st1 /\ less_found st1 st1'.
  Proof.
    intros o name sbs st1' Hm Hn Hsb H.
    set (R := fun (l : list str) st st' => less_found st st' /\ forall s, In s l -> In (ident_from_py U s) (fd_subs st') -> In (ident_from_py U s) sbs).
    destruct (each_less (pe_env x) o R (fun a => is_attr_allowed (pe_cfg x') (at_name a) (at_module a)) (fun a => is_attr_allowed (pe_cfg x) (at_name a) (at_module a)) (module_step x' name) (module_step x name))
      with (names := unique_names U [] (w_dir w o)) (st := mk_found [] [] [] [] [] [] (filter (unblocked b) sbs)) (st' := mk_found [] [] [] [] [] [] sbs) (st1' := st1') as (st1 & K1 & K2 & _).
    - intros s r st st' [A B]. split; [exact A|]. intros t Ht. apply B. now right.
    - intros a. change (pe_cfg x') with (also_blocking b (pe_cfg x)). rewrite allowed_less. now intros [K _]%andb_true_iff.
    - intros pre s r a st st' st2' E [A B] Ha Hal Hst. pose proof (read_attr_inv _ _ _ _ Ha) as (A1 & _ & _). change (e_uni (pe_env x)) with U in A1.
      change (pe_cfg x') with (also_blocking b (pe_cfg x)). rewrite allowed_less, Hal. cbn [andb].
      assert (L : forall t, In t r -> In (ident_from_py U t) (fd_subs st2') -> In (ident_from_py U t) sbs).
      { intros t Ht Hi. apply step_subs in Hst as [Es|(Es & _)]; rewrite Es in Hi; [now apply (B t); [right|]|]. apply insert_In in Hi as [Hi|Hi]; [now apply (B t); [right|]|].
        exfalso. destruct (unique_names_nodup U (w_dir w o) []) as [Nd _]. rewrite E, map_app in Nd. cbn [map] in Nd. apply NoDup_remove_2 in Nd. apply Nd. apply in_or_app. right.
        rewrite <- A1, <- Hi. now apply in_map. }
      pose proof (step_less name a st st' st2' A Hst) as K. destruct (unblocked b (at_name a)).
      + destruct K as (st1 & K1 & K2); [|exists st1; split; [exact K1|split; [exact K2|exact L]]].
        intros Em Hv. apply mem_str_In in Em. rewrite A1 in Em. apply (B s (or_introl eq_refl)) in Em. destruct Hsb as [->|Hsb]; [easy|].
        destruct (read_import x a (path_snoc name (at_name a))) as [rr|e|e|] eqn:Er;
          [f_equal; apply (unhidden o s a sbs name Hm Hn Hsb Ha); [now rewrite A1|exact Hv|exact Er]|..];
          exfalso; destruct st' as [ims cfs cls tvs fns prs sb2]; cbn [module_step] in Hst; rewrite Hv in Hst; cbn [obind] in Hst; rewrite Er in Hst; discriminate.
      + split; [|exact L]. apply K.
        intros Em Hv. apply mem_str_In in Em. rewrite A1 in Em. apply (B s (or_introl eq_refl)) in Em. destruct Hsb as [->|Hsb]; [easy|].
        destruct (read_import x a (path_snoc name (at_name a))) as [rr|e|e|] eqn:Er;
          [f_equal; apply (unhidden o s a sbs name Hm Hn Hsb Ha); [now rewrite A1|exact Hv|exact Er]|..];
          exfalso; destruct st' as [ims cfs cls tvs fns prs sb2]; cbn [module_step] in Hst; rewrite Hv in Hst; cbn [obind] in Hst; rewrite Er in Hst; discriminate.
    - split; [split; reflexivity|]. intros s _ K. exact K.
    - exact H.
    - exists st1. now split.
  Qed.

  (** Submodules *)
  Lemma subs_children : forall o name sbs st, is_module w o -> module_path x o = Ok name -> (sbs = [] \/ extract_submodules x o = Ok sbs) ->
    each_attr (pe_env x) o (fun a => is_attr_allowed (pe_cfg x) (at_name a) (at_module a)) (module_step x name) (unique_names U [] (w_dir w o)) (mk_found [] [] [] [] [] [] sbs) = Ok st ->
    forall i, In i (fd_subs st) -> child_ident x o i.
  Proof.
    intros o name sbs st Hm Hname Hsbs Hst. apply chk_path in Hname.
    refine (each_attr_inv (fun st => forall i, In i (fd_subs st) -> child_ident x o i) _ _ _ _ _ _ _ _ _ Hst).
    - intros st0 a st1 s Hs0 Hr Ha P2 Hstep. apply unique_names_In in Hs0.
      apply step_subs in Hstep as [E|(E & T1 & T2)]; rewrite E; [exact P2|].
      intros i Hi. apply insert_In in Hi as [Hi| ->]; [now apply P2|].
      unfold read_attr in Hr. apply bind_Ok in Hr as (nm & Hnm & Hr). apply chk_ident in Hnm.
      destruct (w_getattr _ o (as_py nm)) as [a0|] eqn:Eg; [|discriminate]. apply bind_Ok in Hr as (md & Hmd & Hr). injection Hr as <-.
      cbn [at_name at_obj at_module] in *. apply chk_path in Hmd. exists s. split; [exact Hnm|]. right. exists a0. split; [exact Hs0|].
      split; [|split].
      + rewrite Hnm, as_py_from_py in Eg by (apply (hn_dir _ _ Hw o s Hs0)). exact Eg.
      + exact T1.
      + destruct T2 as [T2|T2]; [now left|right]. fold U. rewrite Hmd, Hname in T2. exact T2.
    - cbn [fd_subs]. destruct Hsbs as [->|Hsbs]; [easy|]. now apply submodules_names in Hsbs.
  Qed.
  Lemma found_child : forall o name i t, is_module w o -> module_path x o = Ok name -> child_ident x o i -> find_submodule x o (path_snoc name i) i = Some t ->
    is_module w t /\ path_from_py U (w_name w t) = path_snoc name i.
  Proof.
    intros o name i t Hm Hname (s & -> & Hc) Ht. apply chk_path in Hname. fold U in Hname, Ht |- *. fold w in Hname. pose proof (hn_child _ _ Hw o s Hm Hc) as Hps.
    destruct (hn_name _ _ Hw o Hm) as (l & Hl & Hpy & En).
    assert (Et : to_py (path_snoc name (ident_from_py U s)) = dot (w_name w o) s).
    { rewrite Hname, <- child_path by assumption. rewrite En, <- join_snoc by exact Hl. apply named_to_py. intros y Hy. apply in_app_or in Hy as [Hy|[<-|[]]]; [now apply Hpy|exact Hps]. }
    unfold find_submodule in Ht. fold w in Ht. rewrite Et in Ht. rewrite Hname, <- child_path by assumption.
    destruct (w_import w (dot (w_name w o) s)) as [t'|] eqn:Ei.
    - injection Ht as ->. apply (hn_import _ _ Hw) in Ei as [E1 E2]. rewrite E2. now split.
    - assert (Er : starts_with r_hash s = false) by apply Hps. rewrite as_py_from_py in Ht by exact Er. destruct (w_getattr w o s) as [a|] eqn:Eg; [|discriminate].
      destruct (tf_is_module (w_type w a)) eqn:Em; [|discriminate]. injection Ht as ->. split; [exact Em|]. now rewrite (hn_attr _ _ Hw o s t Hm Hc Eg Em).
  Qed.
  Lemma plain_acts : forall y rec o name l r, mapM (act y rec o name []) l = Ok r -> concat (map fst r) = [] /\
    forall s, In s (concat (map snd r)) <-> exists i t, In i l /\ find_submodule y o (path_snoc name i) i = Some t /\ rec t = Ok s.
  Proof.
    intros y rec o name. induction l as [|i l IH]; intros r H; cbn [mapM] in H.
    - injection H as <-. split; [reflexivity|]. intros s. split; [easy|]. now intros (i & t & [] & _).
    - apply bind_Ok in H as (e & He & H). apply bind_Ok in H as (r2 & Hr & H). injection H as <-. destruct (IH r2 Hr) as [A B]. unfold act in He. cbn [find_path find] in He.
      cbn [map concat]. destruct (find_submodule y o (path_snoc name i) i) as [t|] eqn:Ef.
      + apply bind_Ok in He as (m & Hm & He). injection He as <-. cbn [fst snd app]. split; [exact A|]. intros s. cbn [In]. rewrite B. split.
        * intros [<-|(j & t2 & Hj & K)]; [exists i, t; repeat split; [now left|assumption..]|exists j, t2; split; [now right|exact K]].
        * intros (j & t2 & [<-|Hj] & K1 & K2); [left; congruence|right; now exists j, t2].
      + injection He as <-. cbn [fst snd app]. split; [exact A|]. intros s. rewrite B. split; intros (j & t2 & Hj & K); [exists j, t2; split; [now right|exact K]|].
        destruct Hj as [<-|Hj]; [destruct K; congruence|now exists j, t2].
  Qed.

  Theorem parse_less : forall fuel o m', is_module w o -> mod_parse x fuel o = Ok m' -> exists m, mod_parse x' fuel o = Ok m /\ less b m m'.
  Proof.
    induction fuel as [|fuel IH]; intros o m' Hm H; [discriminate|]. cbn [mod_parse] in *. rewrite body_split in *. unfold before_subs in *.
    change (module_path x' o) with (module_path x o). change (pe_world x') with w. change (generate_preludes (pe_cfg x')) with (generate_preludes (pe_cfg x)).
    change (traverse_submodules (pe_cfg x')) with (traverse_submodules (pe_cfg x)). change (pe_env x') with (pe_env x). change (pe_uni x') with U. change (pe_ord x') with h. fold U in H. fold w in H.
    apply bind_Ok in H as ([[[name pre] pk] st'] & H0 & H). apply bind_Ok in H0 as (nm & Hn & H0). apply bind_Ok in H0 as (pr & Hpre & H0).
    apply bind_Ok in H0 as (sbs & Hsb & H0). apply bind_Ok in H0 as (s0 & Hst & H0). injection H0 as <- <- <- <-. rewrite Hn. cbn [obind].
    assert (Epre : (if generate_preludes (pe_cfg x) then extract_prelude x' o nm else Ok []) = Ok (filter (unblocked b) pr)).
    { destruct (generate_preludes (pe_cfg x)); [now apply prelude_less|now injection Hpre as <-]. }
    rewrite Epre. cbn [obind]. set (isp := match w_getattr w o (u "__path__") with Some _ => true | None => false end) in *.
    assert (Esb : (if isp then extract_submodules x' o else Ok []) = Ok (filter (unblocked b) sbs)).
    { destruct isp; [now apply submodules_less|now injection Hsb as <-]. }
    rewrite Esb. cbn [obind]. assert (Dsb : sbs = [] \/ extract_submodules x o = Ok sbs) by (destruct isp; [now right|left; now injection Hsb as <-]).
    destruct (attrs_less o nm sbs s0 Hm Hn Dsb Hst) as (st & Est & Lc & Est2). rewrite Est. cbn [obind]. rewrite Est2. cbn [fd_conflicts fd_subs]. rewrite Lc in H.
    pose proof (subs_children o nm sbs s0 Hm Hn Dsb Hst) as Hch. apply bind_Ok in H as (r' & Hr' & H). unfold after_subs in *. fold w in H. apply bind_Ok in H as (doc & Hdoc & H).
    assert (Er' : concat (map fst r') = []) by (destruct (traverse_submodules (pe_cfg x)); [now apply plain_acts in Hr'|now injection Hr' as <-]).
    rewrite Er' in H. cbn [retargets fold_left] in H. injection H as <-.
    assert (K : exists r, (if traverse_submodules (pe_cfg x) then mapM (act x' (mod_parse x' fuel) o nm []) (ho h (filter (unblocked b) (fd_subs s0))) else Ok []) = Ok r /\ concat (map fst r) = [] /\
      (forall s, In s (concat (map snd r)) -> exists s', In s' (concat (map snd r')) /\ called_unblocked b (m_name s') = true /\ less b s s') /\
      (forall s', In s' (concat (map snd r')) -> called_unblocked b (m_name s') = true -> exists s, In s (concat (map snd r)) /\ less b s s')).
    { destruct (traverse_submodules (pe_cfg x)).
      2:{ injection Hr' as <-. exists []. repeat split; intros s []. }
      destruct (plain_acts _ _ _ _ _ _ Hr') as [_ Q'].
      assert (Sub : forall i t, In i (fd_subs s0) -> find_submodule x o (path_snoc nm i) i = Some t ->
        exists s' s, mod_parse x fuel t = Ok s' /\ mod_parse x' fuel t = Ok s /\ less b s s' /\ called_unblocked b (m_name s') = unblocked b i).
      { intros i t Hi Hf. destruct (found_child o nm i t Hm Hn (Hch i Hi) Hf) as [T1 T2].
        assert (Hi2 : In i (ho (pe_ord x) (fd_subs s0))) by (apply (Permutation_in i (Permutation_sym (Ho _ _)) Hi)).
        destruct (mapM_In_l _ _ _ _ Hr' Hi2) as (e & _ & He). unfold act in He. cbn [find_path find] in He. rewrite Hf in He. apply bind_Ok in He as (s' & Hs' & _).
        destruct (IH t s' T1 Hs') as (s & Hp & Hl). exists s', s. split; [exact Hs'|]. split; [exact Hp|]. split; [exact Hl|]. rewrite (parsed_name x Ho Hw fuel t s' T1 Hs'). fold U. fold w. rewrite T2. apply called_snoc. }
      destruct (mapM_total (act x' (mod_parse x' fuel) o nm []) (ho h (filter (unblocked b) (fd_subs s0)))) as (r & Hr).
      { intros i Hi. apply (Permutation_in i (Ho' _ _)) in Hi. apply filter_In in Hi as [Hi _]. unfold act. cbn [find_path find].
        change (find_submodule x' o (path_snoc nm i) i) with (find_submodule x o (path_snoc nm i) i). destruct (find_submodule x o (path_snoc nm i) i) as [t|] eqn:Ef; [|eauto].
        destruct (Sub i t Hi Ef) as (s' & s & _ & E & _). rewrite E. cbn [obind]. eauto. }
      exists r. split; [exact Hr|]. destruct (plain_acts _ _ _ _ _ _ Hr) as [Q0 Q]. split; [exact Q0|]. split.
      - intros s Hin. apply Q in Hin as (i & t & Hi & Hf & Hp). apply (Permutation_in i (Ho' _ _)) in Hi. apply filter_In in Hi as [Hi Hb].
        change (find_submodule x' o (path_snoc nm i) i) with (find_submodule x o (path_snoc nm i) i) in Hf.
        destruct (Sub i t Hi Hf) as (s' & s2 & E1 & E2 & L & C). rewrite E2 in Hp. injection Hp as ->. exists s'. split; [|split; [now rewrite C|exact L]].
        apply Q'. exists i, t. split; [apply (Permutation_in i (Permutation_sym (Ho _ _)) Hi)|now split].
      - intros s' Hin Hb. apply Q' in Hin as (i & t & Hi & Hf & Hp). apply (Permutation_in i (Ho _ _)) in Hi.
        destruct (Sub i t Hi Hf) as (s2 & s & E1 & E2 & L & C). rewrite E1 in Hp. injection Hp as ->. exists s. split; [|exact L].
        apply Q. exists i, t. split; [|now split]. apply (Permutation_in i (Permutation_sym (Ho' _ _))). apply filter_In. split; [exact Hi|now rewrite <- C]. }
    destruct K as (r & Hr & Q0 & Q1 & Q2). rewrite Hr. cbn [obind]. change (pe_world x') with w. rewrite Hdoc. cbn [obind]. rewrite Q0. cbn [retargets fold_left]. eexists. split; [reflexivity|].
    constructor; try reflexivity; cbn [m_subs]; assumption.
  Qed.
End blocking.

(** ** Items and places *)
Lemma has_less : forall b m m', less b m m' -> forall it, has m it <-> exists it', has m' it' /\ without b it' = Some it.
Proof.
  intros b m m' L it. destruct L as [m m' _ _ _ _ Lp Li Lc Lt Lf Lq _ _]. split.
  - intros H. destruct it as [i|i|c|p|f|p]; cbn [has] in H.
    + rewrite Lp in H. apply filter_In in H as [H E]. exists (AnExport i). cbn. now rewrite E.
    + rewrite Li in H. apply filter_In in H as [H E]. exists (AnImport i). cbn. now rewrite E.
    + rewrite Lc in H. apply in_map_iff in H as (c' & <- & H). apply filter_In in H as [H E]. exists (AClass c'). cbn. now rewrite E.
    + rewrite Lt in H. apply filter_In in H as [H E]. exists (ATypeVar p). cbn. now rewrite E.
    + rewrite Lf in H. apply filter_In in H as [H E]. exists (AFunction f). cbn. now rewrite E.
    + rewrite Lq in H. apply filter_In in H as [H E]. exists (AProperty p). cbn. now rewrite E.
  - intros (it' & H & E). destruct it' as [i|i|c|p|f|p]; cbn [has without] in H, E;
      match type of E with (if ?t then _ else _) = _ => destruct t eqn:Eb; [injection E as <-|discriminate] end; cbn [has].
    + rewrite Lp. now apply filter_In.
    + rewrite Li. now apply filter_In.
    + rewrite Lc. apply in_map. now apply filter_In.
    + rewrite Lt. now apply filter_In.
    + rewrite Lf. now apply filter_In.
    + rewrite Lq. now apply filter_In.
Qed.
Lemma less_name : forall b m m', less b m m' -> m_name m = m_name m'.
Proof. now intros b m m' [? ? En]. Qed.
Lemma less_subs : forall b m m', less b m m' -> forall s, In s (m_subs m) -> exists s', In s' (m_subs m') /\ less b s s'.
Proof. intros b m m' [? ? _ _ _ _ _ _ _ _ _ _ L _] s Hs. destruct (L s Hs) as (s' & A & _ & B). now exists s'. Qed.
Lemma more_subs : forall b m m', less b m m' -> forall s', In s' (m_subs m') -> called_unblocked b (m_name s') = true -> exists s, In s (m_subs m) /\ less b s s'.
Proof. now intros b m m' [? ? _ _ _ _ _ _ _ _ _ _ _ L]. Qed.
Lemma reach_less : forall b l ch k, reach l ch k -> forall l', (forall s, In s l -> exists s', In s' l' /\ less b s s') -> exists k', reach l' ch k' /\ less b k k'.
Proof.
  intros b l ch k R. induction R as [l m Hm|l m ch k Hm R IH]; intros l' S; destruct (S m Hm) as (m' & Hm' & L); rewrite (less_name _ _ _ L).
  - exists m'. split; [now apply reach_here|exact L].
  - destruct (IH (m_subs m')) as (k' & R' & L'); [exact (less_subs _ _ _ L)|]. exists k'. split; [now apply reach_down|exact L'].
Qed.
Lemma reach_more : forall b l' ch k', reach l' ch k' -> forall l, (forall p, In p ch -> called_unblocked b p = true) ->
  (forall s', In s' l' -> called_unblocked b (m_name s') = true -> exists s, In s l /\ less b s s') -> exists k, reach l ch k /\ less b k k'.
Proof.
  intros b l' ch k' R. induction R as [l' m' Hm|l' m' ch k' Hm R IH]; intros l C S; destruct (S m' Hm (C _ (or_introl eq_refl))) as (m & Hm' & L); rewrite <- (less_name _ _ _ L).
  - exists m. split; [now apply reach_here|exact L].
  - destruct (IH (m_subs m)) as (k & R' & L'); [intros p Hp; apply C; now right|exact (more_subs _ _ _ L)|]. exists k. split; [now apply reach_down|exact L'].
Qed.
Lemma vis_less : forall b m m' ch q, less b m m' -> vis [m] ch q -> exists q', vis [m'] ch q' /\ match q with Some it => exists it', q' = Some it' /\ without b it' = Some it | None => q' = None end.
Proof.
  intros b m m' ch q L (k & R & H). destruct (reach_less b _ _ _ R [m']) as (k' & R' & L'); [intros s [<-|[]]; exists m'; split; [now left|exact L]|].
  destruct q as [it|].
  - destruct (proj1 (has_less _ _ _ L' it) H) as (it' & H' & E). exists (Some it'). split; [now exists k'|]. now exists it'.
  - exists None. split; [now exists k'|reflexivity].
Qed.
Lemma vis_more : forall b m m' ch q', less b m m' -> (forall p, In p ch -> called_unblocked b p = true) -> vis [m'] ch q' ->
  match q' with Some it' => forall it, without b it' = Some it -> vis [m] ch (Some it) | None => vis [m] ch None end.
Proof.
  intros b m m' ch q' L C (k' & R & H). destruct (reach_more b _ _ _ R [m] C) as (k & R' & L'); [intros s' [<-|[]] _; exists m; split; [now left|exact L]|].
  destruct q' as [it'|]; [|now exists k]. intros it E. exists k. split; [exact R'|]. apply (has_less _ _ _ L'). now exists it'.
Qed.

Section forests.
  Variable b : list str.
  Variable h : hash_order.
  Variable x : penv.
  Let U := pe_uni x.
  Let w := pe_world x.
  Let x' := blocked_run b h x.
  Hypothesis HU : uni_ok U.
  Hypothesis Ho : order_ok (pe_ord x).
  Hypothesis Ho' : order_ok h.
  Hypothesis Hw : honest U w.
  Hypothesis Hs : own_submodules w.

  Lemma asked_in : forall l r o, In (Some o) (flat_map (asked w) l) -> asked_modules w l -> r = o -> is_module w r.
  Proof. intros l r o H Hl ->. apply in_flat_map in H as (q & Hq & H). exact (Hl q o Hq H). Qed.
  Lemma requested_less : forall fuel l c c', asked_modules w l -> asks x fuel l cg_new = Ok c' -> asks x' fuel l cg_new = Ok c -> Forall2 (less b) (cg_modules c) (cg_modules c').
  Proof.
    intros fuel l c c' Hl Hc' Hc. apply asks_state in Hc', Hc. change (pe_world x') with w in Hc. fold w in Hc'.
    assert (M : forall o, In (Some o) (flat_map (asked w) l) -> is_module w o) by (intros o H; exact (asked_in l o o H Hl eq_refl)).
    revert M. generalize dependent (cg_modules c). induction Hc' as [|q m' qs ms' (o & Eq & Hp) F IH]; intros ms F2 M; inversion F2 as [|? m ? ms2 (o2 & Eq2 & Hp2) F3]; subst; constructor.
    - injection Eq2 as <-. destruct (parse_less b h x Ho Ho' Hw Hs fuel o m' (M o (or_introl eq_refl)) Hp) as (m2 & E & L). unfold x' in Hp2. rewrite E in Hp2. now injection Hp2 as <-.
    - apply IH; [exact F3|]. intros p H. apply M. now right.
  Qed.
  Lemma cg_module_less : forall fuel o c d c', is_module w o -> cg_module x fuel o c' = Ok c -> exists c2, cg_module x' fuel o d = Ok c2.
  Proof.
    intros fuel o c d c' Hm H. unfold cg_module in *. apply bind_Ok in H as (m & Hp & _). destruct (parse_less b h x Ho Ho' Hw Hs fuel o m Hm Hp) as (m2 & E & _).
    fold x' in E. rewrite E. cbn [obind]. eauto.
  Qed.
  Lemma ask_less : forall fuel r c c' d, (forall o, In (Some o) (asked w r) -> is_module w o) -> ask x fuel r c' = Ok c -> exists c2, ask x' fuel r d = Ok c2.
  Proof.
    intros fuel r c c' d M H. destruct r as [o|n|l|l|src n o]; cbn [ask asked] in *.
    - apply (cg_module_less fuel o c d c'); [apply M; now left|exact H].
    - unfold cg_module_name in *. change (pe_world x') with w. fold w in H. destruct (w_import w n) as [o|]; [|discriminate]. apply (cg_module_less fuel o c d c'); [apply M; now left|exact H].
    - revert c' d H. induction l as [|o l IH]; intros c' d H; cbn [cg_modules_all] in *; [eauto|]. apply bind_Ok in H as (c1 & H1 & H).
      destruct (cg_module_less fuel o c1 d c') as (d1 & E); [apply M; now left|exact H1|]. rewrite E. cbn [obind]. apply (IH (fun p Hp => M p (or_intror Hp)) c1 d1 H).
    - revert c' d H. induction l as [|n l IH]; intros c' d H; cbn [cg_module_names] in *; [eauto|]. apply bind_Ok in H as (c1 & H1 & H).
      assert (E : exists d1, cg_module_name x' fuel n d = Ok d1).
      { unfold cg_module_name in *. change (pe_world x') with w. fold w in H1. destruct (w_import w n) as [o|] eqn:Ei; [|discriminate]. apply (cg_module_less fuel o c1 d c'); [apply M; left; exact Ei|exact H1]. }
      destruct E as (d1 & E). rewrite E. cbn [obind]. apply (IH (fun p Hp => M p (or_intror Hp)) c1 d1 H).
    - unfold cg_module_from_str in *. destruct o as [o|]; [|discriminate]. exact (cg_module_less fuel o c _ _ (M o (or_introl eq_refl)) H).
  Qed.
  Lemma asks_less : forall fuel l c c' d, asked_modules w l -> asks x fuel l c' = Ok c -> exists c2, asks x' fuel l d = Ok c2.
  Proof.
    intros fuel. induction l as [|r l IH]; intros c c' d Hl H; cbn [asks] in *; [eauto|]. apply bind_Ok in H as (c1 & H1 & H).
    destruct (ask_less fuel r c1 c' d) as (d1 & E); [intros o Hin; exact (Hl r o (or_introl eq_refl) Hin)|exact H1|]. rewrite E. cbn [obind].
    apply (IH c c1 d1); [intros r0 o0 Hr0; apply Hl; now right|exact H].
  Qed.
  Lemma requests_less : forall fuel l c', asked_modules w l -> asks x fuel l cg_new = Ok c' -> exists c, asks x' fuel l cg_new = Ok c /\ Forall2 (less b) (cg_modules c) (cg_modules c').
  Proof. intros fuel l c' Hl H. destruct (asks_less fuel l c' cg_new cg_new Hl H) as (c & E). exists c. split; [exact E|]. exact (requested_less fuel l c c' Hl H E). Qed.
  Lemma within_less : forall k m m', less b m m' -> within k m -> exists k', within k' m' /\ less b k k'.
  Proof.
    intros k m m' L H. destruct (within_reach k m H [m] (or_introl eq_refl)) as (ch & R). destruct (reach_less b _ _ _ R [m']) as (k' & R' & L'); [intros s [<-|[]]; exists m'; split; [now left|exact L]|].
    apply Proof_Api.reach_within in R' as (m2 & [<-|[]] & Wi). now exists k'.
  Qed.
  Lemma inputs_less : forall fuel l c c' inp inp', asked_modules w l -> (generate_dependencies (pe_cfg x) = true -> names_differ w) ->
    asks x fuel l cg_new = Ok c' -> asks x' fuel l cg_new = Ok c -> all_inputs x fuel c' inp' -> all_inputs x' fuel c inp ->
    (forall m, In m inp -> exists m', In m' inp' /\ less b m m') /\
    (generate_dependencies (pe_cfg x) = false -> forall m', In m' inp' -> exists m, In m inp /\ less b m m').
  Proof.
    intros fuel l c c' inp inp' Hl Hd Hc' Hc Hi' Hi. pose proof (requested_less fuel l c c' Hl Hc' Hc) as F. destruct (generate_dependencies (pe_cfg x)) eqn:Eg.
    - specialize (Hd eq_refl). split; [|discriminate]. intros m Hm. apply (inputs_iff x' Hw Hd) in Hi as [Hi _]. apply (inputs_iff x Hw Hd) in Hi' as [Hi' Hi2].
      apply Hi in Hm as [Hm|(_ & o & (m0 & k & i & Hm0 & Hk & Hik & Ht & Hh) & Hex & Hp)].
      + destruct (forall2_in_l _ _ _ _ F Hm) as (m' & Hm' & L). exists m'. split; [apply Hi'; now left|exact L].
      + destruct (forall2_in_l _ _ _ _ F Hm0) as (m0' & Hm0' & L0). destruct (within_less k m0 m0' L0 Hk) as (k' & Hk' & L).
        assert (Hik' : In i (m_imports k')) by (destruct L as [? ? _ _ _ _ _ Li _ _ _ _ _ _]; rewrite Li in Hik; now apply filter_In in Hik).
        assert (Hf : imported_from w (cg_modules c') o) by (exists m0', k', i; auto).
        assert (Hex' : ~ excluded x o).
        { intros K. apply Hex. unfold excluded, hidden in *. change (include_private (pe_cfg x')) with (include_private (pe_cfg x)). change (pe_world x') with (pe_world x). change (pe_uni x') with (pe_uni x).
          change (blocklist_names (pe_cfg x')) with (b ++ blocklist_names (pe_cfg x)). rewrite in_app_iff. tauto. }
        destruct (Hi2 Eg o Hf Hex') as (m' & Hp'). exists m'. split; [apply Hi'; right; split; [exact Eg|]; now exists o|].
        destruct (parse_less b h x Ho Ho' Hw Hs fuel o m' (home_module x Hw (im_origin i) o Hh) Hp') as (m2 & E & L2). unfold x' in Hp. rewrite E in Hp. now injection Hp as <-.
    - destruct Hi as [_ Hi], Hi' as [_ Hi']. change (generate_dependencies (pe_cfg x')) with (generate_dependencies (pe_cfg x)) in Hi. rewrite Eg in Hi, Hi'. injection Hi as <-. injection Hi' as <-.
      split; [intros m Hm; exact (forall2_in_l _ _ _ _ F Hm)|]. intros _ m' Hm'. exact (forall2_in_r _ _ _ _ F Hm').
  Qed.
  Theorem forest_less : forall fuel l c c' ms ms', asked_modules w l -> (generate_dependencies (pe_cfg x) = true -> names_differ w) ->
    asks x fuel l cg_new = Ok c' -> final_modules x fuel c' = Ok ms' -> asks x' fuel l cg_new = Ok c -> final_modules x' fuel c = Ok ms ->
    (forall ch, (present ms ch -> present ms' ch) /\ forall it, holds ms ch it -> exists it', holds ms' ch it' /\ without b it' = Some it) /\
    (generate_dependencies (pe_cfg x) = false -> forall ch, (forall p, In p ch -> called_unblocked b p = true) ->
       (present ms' ch -> present ms ch) /\ forall it it', holds ms' ch it' -> without b it' = Some it -> holds ms ch it).
  Proof.
    intros fuel l c c' ms ms' Hl Hd Hc' Hf' Hc Hf. destruct (final_vis x Ho fuel c' ms' Hf') as (inp' & Hi' & V'). destruct (final_vis x' Ho' fuel c ms Hf) as (inp & Hi & V).
    destruct (inputs_less fuel l c c' inp inp' Hl Hd Hc' Hc Hi' Hi) as [A B]. split.
    - assert (K : forall ch q, vis ms ch q -> exists q', vis ms' ch q' /\ match q with Some it => exists it', q' = Some it' /\ without b it' = Some it | None => q' = None end).
      { intros ch q H. destruct (proj1 (V ch q) H) as (m & Hm & H2). destruct (A m Hm) as (m' & Hm' & L). rewrite (less_name _ _ _ L) in H2. destruct H2 as [(d & -> & H2)|(-> & H2)].
        - destruct (vis_less b m m' d q L H2) as (q' & Q1 & Q2). exists q'. split; [|exact Q2]. apply (proj2 (V' _ q')). exists m'. split; [exact Hm'|]. left. now exists d.
        - exists None. split; [|reflexivity]. apply (proj2 (V' _ None)). exists m'. split; [exact Hm'|]. now right. }
      intros ch. split.
      + intros (m & R). destruct (K ch None) as (q' & (m' & R' & _) & _); [now exists m|]. now exists m'.
      + intros it H. destruct (K ch (Some it) H) as (q' & H' & it' & -> & E). now exists it'.
    - intros Eg ch C. specialize (B Eg).
      assert (K : forall q', vis ms' ch q' -> match q' with Some it' => forall it, without b it' = Some it -> vis ms ch (Some it) | None => vis ms ch None end).
      { intros q' H. destruct (proj1 (V' ch q') H) as (m' & Hm' & H2). destruct (B m' Hm') as (m & Hm & L). rewrite <- (less_name _ _ _ L) in H2. destruct H2 as [(d & -> & H2)|(-> & H2)].
        - assert (C2 : forall p, In p d -> called_unblocked b p = true) by (intros p Hp; apply C, in_or_app; now right).
          pose proof (vis_more b m m' d q' L C2 H2) as K. destruct q' as [it'|].
          + intros it E. apply (proj2 (V _ _)). exists m. split; [exact Hm|]. left. exists d. split; [reflexivity|now apply K].
          + apply (proj2 (V _ _)). exists m. split; [exact Hm|]. left. now exists d.
        - apply (proj2 (V _ _)). exists m. split; [exact Hm|]. now right. }
      split.
      + intros (m' & R). destruct (K None) as (m & R' & _); [now exists m'|]. now exists m.
      + intros it it' H E. exact (K (Some it') H it E).
  Qed.
End forests.
