(** * Lemmas: what is written in two runs that differ in the order of hash sets *)
From Coq Require Import Permutation Lia.
From Verif Require Import Base Model_Ident Model_Path Model_Import Model_Text Model_Config Model_Type Model_IntoRs Model_World Model_Out
  Model_Function Model_Property Model_Class Model_Module Model_Parse Model_Codegen Spec_Path Spec_Names Spec_Call Spec_Items Spec_Tree Spec_Api Spec_Attr Spec_Safe Spec_Out Spec_Hash
  Proof_Base Proof_Ident Proof_Path Proof_Text Proof_IntoRs Proof_Function Proof_Fresh Proof_Items Proof_Module Proof_Parse Proof_Forest Proof_Err Proof_Api Proof_Honest Proof_Calm Proof_Rooted
  Proof_Parts Proof_Switch Proof_Embed Proof_Attr Proof_Distinct Proof_Doc Proof_Use Proof_Full Proof_Order Proof_Hash.

(** ** Reordering *)
Lemma ro_concat : forall ks ks', Forall2 reordered ks ks' -> (forall k, In k ks -> whole k) -> (forall k, In k ks' -> whole k) -> reordered (concat ks) (concat ks').
Proof.
  intros ks ks' F. induction F as [|a b l k H F IH]; intros W W'; [apply ro_same|]. cbn [concat]. apply ro_app; [apply W; now left|apply W'; now left|exact H|].
  apply IH; intros y Hy; [apply W|apply W']; now right.
Qed.
Lemma ro_perm : forall ks ks', Permutation ks ks' -> (forall k, In k ks -> whole k) -> reordered (concat ks) (concat ks').
Proof.
  intros ks ks' P. induction P as [|a l k P IH|a b l|l k q P1 IH1 P2 IH2]; intros W.
  - apply ro_same.
  - cbn [concat]. apply ro_app; [apply W; now left..|apply ro_same|]. apply IH. intros y Hy. apply W. now right.
  - cbn [concat]. rewrite !app_assoc. assert (Wa : whole a) by (apply W; right; now left). assert (Wb : whole b) by (apply W; now left).
    apply ro_app; [now apply closed_app|now apply closed_app|now apply ro_swap|apply ro_same].
  - apply (ro_trans _ (concat k)); [now apply IH1|]. apply IH2. intros y Hy. apply W. now apply (Permutation_in y (Permutation_sym P1)).
Qed.

(** ** The same calls in another order *)
Definition some_of {A} (m : outcome A) : option A := match m with Ok a => Some a | _ => None end.
Lemma mapM_some : forall {A B} (f : A -> outcome B) l k, mapM f l = Ok k -> map (fun a => some_of (f a)) l = map Some k.
Proof.
  intros A B f. induction l as [|a l IH]; intros k H; cbn [mapM] in H; [now injection H as <-|]. apply bind_Ok in H as (b & Hb & H). apply bind_Ok in H as (r & Hr & H). injection H as <-.
  cbn [map]. now rewrite Hb, (IH r Hr).
Qed.
Lemma map_Some_inj : forall {A} (l k : list A), map Some l = map Some k -> l = k.
Proof. intros A. induction l as [|a l IH]; intros [|b k] E; try discriminate; [reflexivity|]. injection E as -> E. f_equal. now apply IH. Qed.
Lemma mapM_perm : forall {A B} (f : A -> outcome B) l l' k k', Permutation l l' -> mapM f l = Ok k -> mapM f l' = Ok k' -> Permutation k k'.
Proof.
  intros A B f l l' k k' P H H'. apply mapM_some in H. apply mapM_some in H'. pose proof (Permutation_map (fun a => some_of (f a)) P) as Q. rewrite H, H' in Q.
  apply Permutation_map_inv in Q as (k2 & E & Q). apply map_Some_inj in E. subst k2. now apply Permutation_sym.
Qed.
Lemma mapM_same : forall {A B} (f g : A -> outcome B) l, (forall a, In a l -> f a = g a) -> mapM f l = mapM g l.
Proof.
  intros A B f g. induction l as [|a l IH]; intros H; [reflexivity|]. cbn [mapM]. rewrite (H a (or_introl eq_refl)), IH; [reflexivity|]. intros b Hb. apply H. now right.
Qed.
Lemma when_perm : forall {A} b (f g : A -> outcome (list frag)) l l' r r', Permutation l l' -> (forall a, In a l -> f a = g a) ->
  (forall a y, In a l -> f a = Ok y -> whole y) -> when b (concatM f l) = Ok r -> when b (concatM g l') = Ok r' -> reordered r r'.
Proof.
  intros A b f g l l' r r' P E W H H'. destruct b; [|injection H as <-; injection H' as <-; apply ro_same]. cbn in H, H'.
  apply bind_Ok in H as (ks & Hks & H). injection H as <-. apply bind_Ok in H' as (ks' & Hks' & H'). injection H' as <-.
  apply ro_perm.
  - apply (mapM_perm f l l' ks ks' P Hks). rewrite <- Hks'. apply mapM_same. intros a Ha. apply E. now apply (Permutation_in a (Permutation_sym P)).
  - intros y Hy. destruct (mapM_In _ _ _ _ Hks Hy) as (a & Ha & Ea). now apply (W a).
Qed.

(** ** Conversion with another table *)
Definition agree_on (U : uni) (lt lt' : table) (s : str) : Prop :=
  lt_get lt (path_from_py U s) = lt_get lt' (path_from_py U s) /\ lt_get lt (path_from_py U (before_bracket s)) = lt_get lt' (path_from_py U (before_bracket s)).
Section conv.
  Variables (d n : bool) (U : uni) (lt lt' : table).
  Let c := mk_ctx d n U lt.
  Let c' := mk_ctx d n U lt'.
  Lemma map_type_agree : forall s, agree_on U lt lt' s -> map_type c s = map_type c' s.
  Proof.
    intros s [_ H]. unfold map_type. change (map_external c' s) with (map_external c s). destruct (map_external c s); [reflexivity|]. subst c c'. cbn [cx_dbg cx_uni cx_local].
    unfold path_from_py_chk. destruct (_ && _); [reflexivity|]. cbn [obind]. now rewrite H.
  Qed.
  Lemma into_rs_agree : forall t, (forall s, In s (texts t) -> agree_on U lt lt' s) -> into_rs c t = into_rs c' t.
  Proof.
    intros t. induction t as [x IH|l IH|k v IHk IHv|x IH|x IH|x IH|l IH|ps r|s|t Ht] using ptype_ind'; intros H; cbn [texts] in H.
    - cbn [into_rs]. now rewrite (IH H).
    - reflexivity.
    - cbn [into_rs]. rewrite IHk, IHv; [reflexivity|intros s Hs; apply H; apply in_or_app; now right|intros s Hs; apply H; apply in_or_app; now left].
    - cbn [into_rs]. now rewrite (IH H).
    - cbn [into_rs]. now rewrite (IH H).
    - cbn [into_rs]. now rewrite (IH H).
    - assert (K : forall y, In y l -> into_rs c y = into_rs c' y). { intros y Hy. apply IH; [exact Hy|]. intros s Hs. apply H. apply in_flat_map. now exists y. }
      destruct l as [|a [|b l]]; [reflexivity..|]. rewrite !into_tuple. unfold into_rs_owned. rewrite (K a (or_introl eq_refl)).
      destruct (_ && _); [reflexivity|]. f_equal. apply mapM_same. intros y Hy. now rewrite (K y Hy).
    - reflexivity.
    - apply map_type_agree. apply H. now left.
    - destruct t; easy.
  Qed.
  Lemma owned_agree : forall t, (forall s, In s (texts t) -> agree_on U lt lt' s) -> into_rs_owned c t = into_rs_owned c' t.
  Proof. intros t H. unfold into_rs_owned. now rewrite (into_rs_agree t H). Qed.
  Lemma borrowed_agree : forall t, (forall s, In s (texts t) -> agree_on U lt lt' s) -> into_rs_borrowed c t = into_rs_borrowed c' t.
  Proof. intros t H. unfold into_rs_borrowed. now rewrite (into_rs_agree t H). Qed.
  Lemma needs_agree : forall k v, (forall s, In s (texts k ++ texts v) -> agree_on U lt lt' s) -> dict_needs_prep c k v = dict_needs_prep c' k v.
  Proof. intros k v H. unfold dict_needs_prep. rewrite owned_agree; [reflexivity|]. intros s Hs. apply H. apply in_or_app. now right. Qed.
  Lemma prep_agree : forall t, (forall s, In s (texts t) -> agree_on U lt lt' s) -> preprocess_borrowed c t = preprocess_borrowed c' t.
  Proof.
    intros t H. destruct t; try reflexivity; cbn [texts] in H.
    - destruct (H s (or_introl eq_refl)) as [A _]. cbn [preprocess_borrowed]. change (map_external c' s) with (map_external c s). destruct (map_external c s); [reflexivity|].
      subst c c'. cbn [cx_dbg cx_uni cx_local]. unfold path_from_py_chk. destruct (_ && _); [reflexivity|]. cbn [obind]. unfold lt_mem. now rewrite A.
    - destruct t; try reflexivity. cbn [preprocess_borrowed]. now rewrite (needs_agree t1 t2 H).
    - cbn [preprocess_borrowed]. now rewrite (needs_agree t1 t2 H).
  Qed.
End conv.

(** ** Functions, variables and classes *)
Lemma mem_perm : forall s l k, Permutation l k -> mem_str s l = mem_str s k.
Proof.
  intros s l k P. destruct (mem_str s l) eqn:E, (mem_str s k) eqn:E'; try reflexivity.
  - apply mem_str_In in E. apply (Permutation_in s P) in E. apply mem_str_In in E. congruence.
  - apply mem_str_In in E'. apply (Permutation_in s (Permutation_sym P)) in E'. apply mem_str_In in E'. congruence.
Qed.
Lemma first_free_same : forall U base f g fuel i, (forall c, f c = g c) -> first_free U base f fuel i = first_free U base g fuel i.
Proof. intros U base f g fuel. induction fuel as [|n IH]; intros i H; [reflexivity|]. cbn [first_free]. rewrite H. destruct (g _); [now apply IH|reflexivity]. Qed.
Lemma fresh_perm : forall U base l k, Permutation l k -> fresh U base l = fresh U base k.
Proof. intros U base l k P. unfold fresh. rewrite (Permutation_length P). apply first_free_same. intros c. now apply mem_perm. Qed.
Lemma taken_perm : forall l k i, Permutation l k -> name_taken l i = name_taken k i.
Proof. intros l k i P. unfold name_taken. now rewrite (mem_perm i l k P). Qed.
Lemma prefixed_perm : forall U l k p n, Permutation l k -> prefixed_ident U l p n = prefixed_ident U k p n.
Proof. intros U l k p n P. unfold prefixed_ident. now rewrite (taken_perm l k _ P). Qed.
Lemma getter_perm : forall U l k n, Permutation l k -> getter_ident U l n = getter_ident U k n.
Proof. intros U l k n P. unfold getter_ident. now rewrite (taken_perm l k _ P), (prefixed_perm U l k _ _ P). Qed.
Lemma contract_perm : forall U t l k n ps r, Permutation l k -> gen_contract U t l n ps r = gen_contract U t k n ps r.
Proof. intros U t l k n ps r P. unfold gen_contract. now rewrite !(fresh_perm U _ l k P). Qed.
Section items.
  Variables (cfg : config) (imp : str -> bool) (d n : bool) (U : uni) (lt lt' : table).
  Let g := mk_gctx cfg imp (mk_ctx d n U lt).
  Let g' := mk_gctx cfg imp (mk_ctx d n U lt').
  Lemma fn_agree : forall l k f, Permutation l k -> (forall s, In s (fn_texts f) -> agree_on U lt lt' s) -> fn_generate g l f = fn_generate g' k f.
  Proof.
    intros l k f P H. unfold fn_generate. change (g_uni g') with (g_uni g). change (gen_doc g') with (gen_doc g).
    destruct (gen_doc g (fn_doc f)) as [docs| | |]; [|reflexivity..]. cbn [obind]. destruct (path_name (fn_name f)) as [nm| | |]; [|reflexivity..]. cbn [obind].
    destruct (fn_ident (g_uni g) nm) as [id|]; [|reflexivity]. destruct (mapM (param_ident (g_uni g)) (fn_params f)) as [ids| | |]; [|reflexivity..]. cbn [obind].
    assert (Kp : forall p s, In p (fn_params f) -> In s (texts (p_ann p)) -> agree_on U lt lt' s).
    { intros p s Hp Hs. apply H. unfold fn_texts. apply in_or_app. left. apply in_flat_map. now exists p. }
    rewrite (mapM_same (fun p => preprocess_borrowed (g_cx g) (p_ann p)) (fun p => preprocess_borrowed (g_cx g') (p_ann p))) by (intros p Hp; apply prep_agree; intros s Hs; now apply (Kp p)).
    destruct (mapM _ (fn_params f)) as [preps| | |]; [|reflexivity..]. cbn [obind].
    rewrite (mapM_same (fun p => into_rs_borrowed (g_cx g) (p_ann p)) (fun p => into_rs_borrowed (g_cx g') (p_ann p))) by (intros p Hp; apply borrowed_agree; intros s Hs; now apply (Kp p)).
    destruct (mapM _ (fn_params f)) as [tys| | |]; [|reflexivity..]. cbn [obind].
    assert (Kr : into_rs_owned (g_cx g) (fn_ret f) = into_rs_owned (g_cx g') (fn_ret f)) by (apply owned_agree; intros s Hs; apply H; apply in_or_app; now right).
    rewrite Kr.
    destruct (into_rs_owned (g_cx g') (fn_ret f)) as [rt| | |]; [|reflexivity..]. cbn [obind]. now rewrite (contract_perm _ _ l k _ _ _ P).
  Qed.
  Lemma get_agree : forall l k p, Permutation l k -> (forall s, In s (prop_texts p) -> agree_on U lt lt' s) -> gen_getter g l p = gen_getter g' k p.
  Proof.
    intros l k p P H. unfold gen_getter. change (g_uni g') with (g_uni g). change (gen_doc g') with (gen_doc g). change (prop_disp g') with (prop_disp g).
    destruct (gen_doc g (pr_doc p)) as [docs| | |]; [|reflexivity..]. cbn [obind]. destruct (path_name (pr_name p)) as [nm| | |]; [|reflexivity..]. cbn [obind].
    rewrite (getter_perm _ l k nm P). destruct (getter_ident _ k nm) as [[id|]| | |]; [|reflexivity..]. cbn [obind].
    now rewrite (owned_agree d n U lt lt' (pr_ann p) H : into_rs_owned (g_cx g) (pr_ann p) = into_rs_owned (g_cx g') (pr_ann p)).
  Qed.
  Lemma set_agree : forall l k p, Permutation l k -> (forall s, In s (prop_texts p) -> agree_on U lt lt' s) -> gen_setter g l p = gen_setter g' k p.
  Proof.
    intros l k p P H. unfold gen_setter. change (g_uni g') with (g_uni g). change (gen_doc g') with (gen_doc g). change (prop_disp g') with (prop_disp g).
    destruct (gen_doc g (pr_setter_doc p)) as [docs| | |]; [|reflexivity..]. cbn [obind]. destruct (path_name (pr_name p)) as [nm| | |]; [|reflexivity..]. cbn [obind].
    rewrite (prefixed_perm _ l k _ nm P). destruct (prefixed_ident _ k _ nm) as [[id|]| | |]; [|reflexivity..]. cbn [obind].
    rewrite (prep_agree d n U lt lt' (pr_ann p) H : preprocess_borrowed (g_cx g) (pr_ann p) = preprocess_borrowed (g_cx g') (pr_ann p)).
    now rewrite (borrowed_agree d n U lt lt' (pr_ann p) H : into_rs_borrowed (g_cx g) (pr_ann p) = into_rs_borrowed (g_cx g') (pr_ann p)).
  Qed.
  Lemma prop_agree : forall l k p, Permutation l k -> (forall s, In s (prop_texts p) -> agree_on U lt lt' s) -> prop_generate g l p = prop_generate g' k p.
  Proof. intros l k p P H. unfold prop_generate. now rewrite (get_agree l k p P H), (set_agree l k p P H). Qed.
  Lemma class_agree : forall c, (forall s, In s (class_texts c) -> agree_on U lt lt' s) -> class_generate g c = class_generate g' c.
  Proof.
    intros c H. unfold class_generate. change (g_uni g') with (g_uni g). change (gen_doc g') with (gen_doc g).
    destruct (gen_doc g (cl_doc c)) as [docs| | |]; [|reflexivity..]. cbn [obind]. destruct (path_name (cl_name c)) as [nm| | |]; [|reflexivity..]. cbn [obind].
    destruct (struct_ident (g_uni g) nm) as [id|]; [|reflexivity]. destruct (mapM _ (cl_methods c)) as [scope| | |]; [|reflexivity..]. cbn [obind].
    rewrite (mapM_same (fn_generate g scope) (fn_generate g' scope)).
    2: { intros f Hf. apply fn_agree; [reflexivity|]. intros s Hs. apply H. apply in_or_app. left. apply in_flat_map. now exists f. }
    rewrite (mapM_same (prop_generate g (scope ++ extra_scope (g_uni g) (cl_methods c))) (prop_generate g' (scope ++ extra_scope (g_uni g) (cl_methods c)))); [reflexivity|].
    intros p Hp. apply prop_agree; [reflexivity|]. intros s Hs. apply H. apply in_or_app. right. apply in_flat_map. now exists p.
  Qed.
End items.

(** ** The tables *)
Lemma lt_none : forall lt q, lt_get lt q = None -> forall v, ~ In (q, v) lt.
Proof.
  intros lt q H v Hin. unfold lt_get in H. destruct (find _ lt) as [e|] eqn:E; [discriminate|]. pose proof (find_none _ _ E _ Hin) as K. cbn [fst] in K. now rewrite path_eqb_refl in K.
Qed.
Lemma lt_app : forall a b q, lt_get (a ++ b) q = match lt_get a q with Some v => Some v | None => lt_get b q end.
Proof.
  intros a b q. unfold lt_get. induction a as [|e a IH]; [reflexivity|]. cbn [app find]. destruct (path_eqb (fst e) q); [reflexivity|exact IH].
Qed.
Lemma lt_some : forall lt q v, lt_get lt q = Some v -> In (q, v) lt.
Proof. intros lt q v H. apply lt_get_In in H as (k & H & E). apply path_eqb_eq in E. now subst k. Qed.
Lemma lt_same : forall a b q, (forall v, In (q, v) a <-> In (q, v) b) -> (forall v v', In (q, v) a -> In (q, v') a -> v = v') -> lt_get a q = lt_get b q.
Proof.
  intros a b q H F. destruct (lt_get a q) as [v|] eqn:E, (lt_get b q) as [v'|] eqn:E'; try reflexivity.
  - f_equal. apply lt_some in E. apply lt_some in E'. apply H in E'. now apply F.
  - apply lt_some in E. apply H in E. now apply lt_none with (v := v) in E'.
  - apply lt_some in E'. apply H in E'. now apply lt_none with (v := v') in E.
Qed.
Lemma key_seen : forall dbg U im p q, path_starts_with p (im_origin im) = true -> alias_key dbg U im p = Ok q -> seen_as U im p q.
Proof.
  intros dbg U im p q Hs H. apply path_starts_with_iff in Hs. unfold alias_key in H. destruct (strip_prefix _ _) as [s|] eqn:E.
  - apply strip_prefix_Some in E. unfold path_from_py_chk in H. destruct (_ && _); [discriminate|]. cbn [obind] in H. apply bind_Ok in H as (a & Ha & H).
    unfold set_first in H. destruct (segs (path_from_py U s)) as [|b r] eqn:Es; [discriminate|]. injection H as <-. unfold path_name in Ha. destruct (last_opt _) as [z|] eqn:El; [|discriminate]. injection Ha as ->.
    apply last_opt_split in El as (t & El). exists t, a. split; [exact El|]. split; [exact Hs|]. left. exists s, b, r. split; [now rewrite E, <- app_assoc|]. now split.
  - apply bind_Ok in H as (a & Ha & H). injection H as <-. unfold path_name in Ha. destruct (last_opt _) as [z|] eqn:El; [|discriminate]. injection Ha as ->.
    apply last_opt_split in El as (t & El). exists t, a. split; [exact El|]. split; [exact Hs|]. right. split; [|reflexivity]. intros s K.
    rewrite K in E. change (c_dot :: s) with ([c_dot] ++ s) in E. now rewrite app_assoc, strip_prefix_app in E.
Qed.
Definition aliased_to (dbg : bool) (U : uni) (m : module) (ts : list path) (q v : path) : Prop :=
  exists im p, In im (m_imports m) /\ In p ts /\ path_starts_with p (im_origin im) = true /\ alias_key dbg U im p = Ok q /\ relative_to (m_name m) p false = Ok v.
Lemma table_parts : forall dbg U m ts lt, local_types dbg U m ts = Ok lt -> exists own al, lt = rev al ++ rev own /\
  (forall q v, In (q, v) own <-> In q ts /\ relative_to (m_name m) q false = Ok v) /\ (forall q v, In (q, v) al <-> aliased_to dbg U m ts q v).
Proof.
  intros dbg U m ts lt H. unfold local_types in H. apply bind_Ok in H as (own & Ho & H). apply bind_Ok in H as (al & Ha & H). injection H as <-. exists own, (concat al).
  split; [apply rev_app_distr|]. split; intros q v; split.
  - intros Hin. destruct (mapM_In _ _ _ _ Ho Hin) as (p & Hp & E). apply bind_Ok in E as (r & Er & E). injection E as -> ->. now split.
  - intros [Hq Hr]. destruct (mapM_In_l _ _ _ _ Ho Hq) as (e & He & E). rewrite Hr in E. cbn [obind] in E. injection E as <-. exact He.
  - intros Hin. apply in_concat in Hin as (e & He & Hin). destruct (mapM_In _ _ _ _ Ha He) as (im & Hi & Em). unfold alias_entries in Em.
    destruct (mapM_In _ _ _ _ Em Hin) as (p & Hp & E). apply filter_In in Hp as [Hp Hs]. apply bind_Ok in E as (key & Ek & E). apply bind_Ok in E as (r & Er & E). injection E as -> ->. now exists im, p.
  - intros (im & p & Hi & Hp & Hs & Ek & Er). destruct (mapM_In_l _ _ _ _ Ha Hi) as (e & He & Em). apply in_concat. exists e. split; [exact He|]. unfold alias_entries in Em.
    assert (Hp' : In p (filter (fun p => path_starts_with p (im_origin im)) ts)) by (apply filter_In; now split).
    destruct (mapM_In_l _ _ _ _ Em Hp') as (y & Hy & E). rewrite Ek in E. cbn [obind] in E. rewrite Er in E. cbn [obind] in E. injection E as <-. exact Hy.
Qed.
Lemma table_agree : forall dbg U m k ts ts' lt lt' q, local_types dbg U m ts = Ok lt -> local_types dbg U k ts' = Ok lt' -> m_name m = m_name k ->
  (forall i, In i (m_imports m) <-> In i (m_imports k)) -> (forall p, In p ts <-> In p ts') ->
  (forall im im' p p', In im (m_imports m) -> In im' (m_imports m) -> In p ts -> In p' ts -> seen_as U im p q -> seen_as U im' p' q -> p = p') ->
  lt_get lt q = lt_get lt' q.
Proof.
  intros dbg U m k ts ts' lt lt' q H H' En Ei Et Hu. apply table_parts in H as (own & al & -> & O & A). apply table_parts in H' as (own' & al' & -> & O' & A'). rewrite !lt_app.
  assert (E1 : lt_get (rev al) q = lt_get (rev al') q).
  { apply lt_same.
    - intros v. rewrite <- !in_rev, A, A'. unfold aliased_to. rewrite En. setoid_rewrite Ei. setoid_rewrite Et. reflexivity.
    - intros v v' K K'. rewrite <- in_rev, A in K, K'. destruct K as (im & p & K1 & K2 & K3 & K4 & K5), K' as (im' & p' & L1 & L2 & L3 & L4 & L5).
      assert (p = p') as <-. { apply (Hu im im' p p'); auto; now apply (key_seen dbg). } congruence. }
  assert (E2 : lt_get (rev own) q = lt_get (rev own') q).
  { apply lt_same.
    - intros v. rewrite <- !in_rev, O, O'. rewrite En, Et. reflexivity.
    - intros v v' K K'. rewrite <- in_rev, O in K, K'. destruct K as [_ K], K' as [_ K']. congruence. }
  now rewrite E1, E2.
Qed.

(** ** The prelude *)
Lemma filterM_filter : forall {A} (f : A -> outcome bool) b l, (forall a, In a l -> f a = Ok (b a)) -> filterM f l = Ok (filter b l).
Proof.
  intros A f b. induction l as [|a l IH]; intros H; [reflexivity|]. cbn [filterM filter]. rewrite (H a (or_introl eq_refl)). cbn [obind]. rewrite IH by (intros c Hc; apply H; now right). reflexivity.
Qed.
Lemma filter_perm : forall {A} (f : A -> bool) l k, Permutation l k -> Permutation (filter f l) (filter f k).
Proof.
  intros A f l k P. induction P as [|a l k P IH|a b l|l k q P1 IH1 P2 IH2]; cbn [filter]; [constructor|destruct (f a); [now constructor|exact IH]| |now apply (Permutation_trans IH1)].
  destruct (f a), (f b); try apply Permutation_refl. constructor.
Qed.
Lemma syn_all : forall U l, (mapM (ident_to_syn U) l = Ok l /\ forall i, In i l -> syn_ident_ok U (as_rs i) = true) \/
  (mapM (ident_to_syn U) l = Err ESyn /\ exists i, In i l /\ syn_ident_ok U (as_rs i) = false).
Proof.
  intros U. induction l as [|i l IH]; [left; split; [reflexivity|intros i []]|]. cbn [mapM]. unfold ident_to_syn at 1 3. destruct (syn_ident_ok U (as_rs i)) eqn:E; cbn [obind].
  - destruct IH as [[-> H]|[-> (j & Hj & H)]]; cbn [obind]; [left; split; [reflexivity|intros j [<-|Hj]; auto]|right; split; [reflexivity|]]. exists j. split; [now right|exact H].
  - right. split; [reflexivity|]. exists i. split; [now left|exact E].
Qed.
Lemma first_unused_same : forall U m k fuel i, (forall n, ident_exists m n true = ident_exists k n true) -> first_unused U m fuel i = first_unused U k fuel i.
Proof. intros U m k fuel. induction fuel as [|f IH]; intros i H; [reflexivity|]. cbn [first_unused]. rewrite H. destruct (ident_exists k _ true) as [[]| | |]; cbn [obind]; auto. Qed.
Lemma prelude_ro : forall U m k r r', Permutation (m_prelude m) (m_prelude k) -> (forall n b, exists e, ident_exists m n b = Ok e /\ ident_exists k n b = Ok e) -> item_count m = item_count k ->
  drop_err (gen_prelude U m) = Ok r -> drop_err (gen_prelude U k) = Ok r' -> reordered r r'.
Proof.
  intros U m k r r' P E C H H'.
  set (e := fun i => match ident_exists m i false with Ok b => b | _ => false end).
  assert (F : filterM (fun i => ident_exists m i false) (m_prelude m) = Ok (filter e (m_prelude m))).
  { apply filterM_filter. intros i _. unfold e. destruct (E i false) as (b & -> & _). reflexivity. }
  assert (F' : filterM (fun i => ident_exists k i false) (m_prelude k) = Ok (filter e (m_prelude k))).
  { apply filterM_filter. intros i _. unfold e. destruct (E i false) as (b & -> & ->). reflexivity. }
  assert (Q : Permutation (filter e (m_prelude m)) (filter e (m_prelude k))) by now apply filter_perm.
  assert (N : forall m', m_prelude m' = [] -> gen_prelude U m' = Ok []) by (intros m' Em; unfold gen_prelude; now rewrite Em).
  destruct (m_prelude m) as [|a l] eqn:Em.
  { apply Permutation_nil in P. rewrite (N m Em) in H. rewrite (N k P) in H'. injection H as <-. injection H' as <-. apply ro_same. }
  destruct (m_prelude k) as [|a' l'] eqn:Ek; [apply Permutation_sym, Permutation_nil in P; discriminate|].
  unfold gen_prelude in H, H'. rewrite Em, F in H. rewrite Ek, F' in H'. cbn [obind] in H, H'. set (p := filter e (a :: l)) in *. set (p' := filter e (a' :: l')) in *. clearbody p p'. clear F F' N P Em Ek.
  destruct (syn_all U p) as [[S1 S2]|[S1 (i & Hi & S2)]], (syn_all U p') as [[T1 T2]|[T1 (j & Hj & T2)]]; rewrite S1 in H; rewrite T1 in H'; cbn [obind drop_err] in H, H'.
  - destruct p as [|b p].
    + apply Permutation_nil in Q. subst p'. injection H as <-. injection H' as <-. apply ro_same.
    + destruct p' as [|b' p']; [apply Permutation_sym, Permutation_nil in Q; discriminate|].
      rewrite (first_unused_same U m k) in H by (intros n; destruct (E n true) as (e' & -> & ->); reflexivity). rewrite C in H.
      destruct (first_unused U k (S (item_count k)) 0) as [c| | |]; cbn [obind drop_err] in H, H'; try discriminate; [|injection H as <-; injection H' as <-; apply ro_same].
      destruct (ident_to_syn U c) as [id| | |]; cbn [obind drop_err] in H, H'; try discriminate; [|injection H as <-; injection H' as <-; apply ro_same].
      injection H as <-. injection H' as <-. apply (ro_mod [GPub] id); [reflexivity|]. now apply (ro_use [GPub]).
  - apply (Permutation_in j (Permutation_sym Q)), S2 in Hj. congruence.
  - apply (Permutation_in i Q), T2 in Hi. congruence.
  - injection H as <-. injection H' as <-. apply ro_same.
Qed.

(** ** Going through two forests at once *)
Lemma reach_next : forall l ch k s, reach l ch k -> In s (m_subs k) -> reach l (ch ++ [m_name s]) s.
Proof. intros l ch k s H Hs. induction H as [l m Hm|l m c k Hm H IH]; cbn [app]; [apply (reach_down l m); [exact Hm|now apply reach_here]|apply (reach_down l m); auto]. Qed.
Lemma reach_back : forall l ch n s, reach l (ch ++ [n]) s -> ch <> [] -> exists k, reach l ch k /\ In s (m_subs k) /\ m_name s = n.
Proof.
  intros l ch n s. revert l. induction ch as [|a ch IH]; intros l H Hne; [easy|]. cbn [app] in H. inversion H as [l1 m1 Hm1 E1|l1 m1 c1 k1 Hm1 Hr E1]; subst; [destruct ch; discriminate|].
  destruct ch as [|b ch].
  - cbn [app] in Hr. inversion Hr as [l2 m2 Hm2 E2|l2 m2 c2 k2 Hm2 Hr2 E2]; subst; [|inversion Hr2]. exists m1. split; [now apply reach_here|]. now split.
  - destruct (IH (m_subs m1) Hr) as (k & Hk & Hs & En); [easy|]. exists k. split; [now apply reach_down|]. now split.
Qed.
Lemma reach_ne : forall l ch k, reach l ch k -> ch <> [].
Proof. intros l ch k H. destruct H; easy. Qed.
Lemma path_exists_from : forall p k m, within k m ->
  (exists s, In s (m_subs k) /\ m_name s = p) \/ (exists it, has k it /\ item_path it = Some p /\ forall j, it <> AnImport j) -> path_exists p m = true.
Proof.
  intros p k m H K.
  assert (E : forall m, path_exists p m = has_path m_name p (m_subs m) || has_path cl_name p (m_classes m) || has_path fn_name p (m_functions m)
      || has_path (fun x => x) p (m_typevars m) || has_path pr_name p (m_properties m) || existsb (path_exists p) (m_subs m)) by now intros [].
  induction H as [|m s Hs H IH]; rewrite E, !orb_true_iff, !has_path_iff, existsb_exists; clear E.
  - destruct K as [K|(it & Hit & Ep & Hn)]; [auto 10|]. destruct it as [i|i|c|q|f|q]; cbn [has item_path] in *; [discriminate|now destruct (Hn i)|..]; injection Ep as <-; eauto 12.
  - right. now exists s.
Qed.
Lemma exists_alike : forall ms ms' p, same_forest ms ms' -> existsb (path_exists p) ms = existsb (path_exists p) ms'.
Proof.
  assert (K : forall ms ms' p, same_forest ms ms' -> existsb (path_exists p) ms = true -> existsb (path_exists p) ms' = true).
  { intros ms ms' p S H. apply existsb_exists in H as (m & Hm & H). apply path_exists_found in H as (k & Hk & H). destruct (within_reach k m Hk ms Hm) as (ch & R).
    assert (G : exists k', reach ms' ch k' /\ ((exists s, In s (m_subs k') /\ m_name s = p) \/ (exists it, has k' it /\ item_path it = Some p /\ forall j, it <> AnImport j))).
    { destruct H as [(s & Hs & En)|(it & Hit & Ep & Hn)].
      - assert (Q : present ms (ch ++ [p])) by (exists s; rewrite <- En; now apply (reach_next ms ch k)). apply (proj1 (S _)) in Q as (s' & Q). destruct (reach_back _ _ _ _ Q (reach_ne _ _ _ R)) as (k' & R' & Hs' & En').
        exists k'. split; [exact R'|]. left. now exists s'.
      - assert (Q : holds ms ch it) by now exists k. apply (proj2 (S _)) in Q as (k' & R' & Hit'). exists k'. split; [exact R'|]. right. now exists it. }
    destruct G as (k' & R' & G). destruct (Proof_Api.reach_within _ _ _ R') as (m' & Hm' & Hk'). apply existsb_exists. exists m'. split; [exact Hm'|]. now apply (path_exists_from p k' m'). }
  intros ms ms' p S. assert (S' : same_forest ms' ms) by (intros ch; destruct (S ch) as [A B]; split; [now symmetry|intros it; now rewrite B]).
  destruct (existsb (path_exists p) ms) eqn:E, (existsb (path_exists p) ms') eqn:E'; try reflexivity.
  - rewrite (K _ _ _ S E) in E'. discriminate.
  - rewrite (K _ _ _ S' E') in E. discriminate.
Qed.
Lemma types_alike : forall ms ms', same_forest ms ms' -> forall p, In p (all_types ms) <-> In p (all_types ms').
Proof.
  assert (K : forall ms ms', same_forest ms ms' -> forall p, In p (all_types ms) -> In p (all_types ms')).
  { intros ms ms' S p Hp. apply all_types_In in Hp as (m & k & Hm & Hk & Hp). apply all_types_In. destruct (within_reach k m Hk ms Hm) as (ch & R).
    assert (G : exists it, has k it /\ ((exists c, it = AClass c /\ cl_name c = p) \/ it = ATypeVar p)).
    { destruct Hp as [Hp|Hp]; [apply in_map_iff in Hp as (c & <- & Hc); exists (AClass c); split; [exact Hc|left; now exists c]|exists (ATypeVar p); now split; [|right]]. }
    destruct G as (it & Hit & G). assert (Q : holds ms ch it) by now exists k. apply (proj2 (S _)) in Q as (k' & R' & Hit'). destruct (Proof_Api.reach_within _ _ _ R') as (m' & Hm' & Hk').
    exists m', k'. split; [exact Hm'|]. split; [exact Hk'|]. destruct G as [(c & -> & <-)| ->]; [left; now apply in_map|now right]. }
  intros ms ms' S p. split; apply K; [exact S|]. intros ch. destruct (S ch) as [A B]. split; [now symmetry|]. intros it. now rewrite B.
Qed.
Lemma linked_longer : forall d a b, linked (a :: d ++ [b]) -> length (segs a) < length (segs b).
Proof.
  induction d as [|e d IH]; intros a b H; cbn [app linked] in H; destruct H as [(i & E) H].
  - rewrite E, app_length. cbn. lia.
  - apply IH in H. rewrite E, app_length in H. lia.
Qed.
Lemma nested_deep : forall ms ch m, (forall ch, present ms ch -> linked ch /\ exists n r, ch = n :: r /\ length (segs n) = 1) -> reach ms ch m -> In m ms -> exists n, ch = [n].
Proof.
  intros ms ch m L R Hm. destruct (reach_last _ _ _ R) as ([|a d] & ->); [now exists (m_name m)|]. exfalso.
  destruct (L _ (ex_intro _ m R)) as [K (n & r & E & Hn)]. injection E as <- _. cbn [app] in K. apply linked_longer in K.
  destruct (L [m_name m]) as [_ (n' & r' & E' & Hn')]; [exists m; now apply reach_here|]. injection E' as <- _. lia.
Qed.

Lemma paired : forall (f g : module -> outcome (list frag)) l k ks ks', map m_name l = map m_name k -> mapM f l = Ok ks -> mapM g k = Ok ks' ->
  (forall a b y z, In a l -> In b k -> m_name a = m_name b -> f a = Ok y -> g b = Ok z -> reordered y z) -> Forall2 reordered ks ks'.
Proof.
  intros f g. induction l as [|a l IH]; intros [|b k] ks ks' E H H' K; try discriminate; cbn [mapM] in H, H'; [injection H as <-; injection H' as <-; constructor|].
  apply bind_Ok in H as (y & Hy & H). apply bind_Ok in H as (r & Hr & H). injection H as <-. apply bind_Ok in H' as (z & Hz & H'). apply bind_Ok in H' as (r' & Hr' & H'). injection H' as <-.
  cbn [map] in E. injection E as En E. constructor; [now apply (K a b); [left|left|..]|]. apply (IH k r r' E Hr Hr'). intros a' b' y' z' Ha Hb. now apply K; right.
Qed.

Section twin.
  Variables (x : penv) (h : hash_order) (numpy : bool) (fuel : nat) (l l' : list request) (c c' : codegen) (ms ms' : list module).
  Let U := pe_uni x.
  Let y := with_order x h.
  Hypothesis Ho : order_ok (pe_ord x).
  Hypothesis Ho' : order_ok h.
  Hypothesis HU : uni_ok U.
  Hypothesis Hw : honest U (pe_world x).
  Hypothesis Hd : names_differ (pe_world x).
  Hypothesis Hl : asked_modules (pe_world x) l.
  Hypothesis HS : same_members (flat_map (asked (pe_world x)) l) (flat_map (asked (pe_world x)) l').
  Hypothesis HG : forall n, given l n = given l' n.
  Hypothesis Hc : asks x fuel l cg_new = Ok c.
  Hypothesis Hf : final_modules x fuel c = Ok ms.
  Hypothesis Hc' : asks y fuel l' cg_new = Ok c'.
  Hypothesis Hf' : final_modules y fuel c' = Ok ms'.
  Hypothesis Hv : forall m k, In m ms -> within k m -> variables_named U k /\ unambiguous U (all_types ms) k.
  Let X := gen_ctx x numpy ms.
  Let X' := gen_ctx y numpy ms'.

  Lemma tw_asked : asked_modules (pe_world x) l'.
  Proof.
    intros r o Hr Ha. assert (K : In (Some o) (flat_map (asked (pe_world x)) l')) by (apply in_flat_map; now exists r). apply HS in K. apply in_flat_map in K as (r' & Hr' & K). now apply (Hl r').
  Qed.
  Lemma tw_forest : same_forest ms ms'.
  Proof. apply (final_alike x h fuel l l' c c' ms ms' Ho Ho'); auto. Qed.
  Lemma tw_sib : siblings_differ ms.
  Proof. exact (final_siblings x Ho Hw fuel l c ms Hl Hc Hf). Qed.
  Lemma tw_sib' : siblings_differ ms'.
  Proof. exact (final_siblings y Ho' Hw fuel l' c' ms' tw_asked Hc' Hf'). Qed.
  Section pair.
    Variables (ch : list path) (m k : module).
    Hypothesis R : reach ms ch m.
    Hypothesis R' : reach ms' ch k.
    Lemma tw_in : exists m0, In m0 ms /\ within m m0.
    Proof. exact (Proof_Api.reach_within _ _ _ R). Qed.
    Lemma tw_in' : exists m0, In m0 ms' /\ within k m0.
    Proof. exact (Proof_Api.reach_within _ _ _ R'). Qed.
    Lemma tw_name : m_name m = m_name k.
    Proof. destruct (reach_last _ _ _ R) as (d & E). destruct (reach_last _ _ _ R') as (d' & E'). rewrite E in E'. now apply app_inj_tail in E' as [_ E']. Qed.
    Lemma tw_item : forall it, has m it <-> has k it.
    Proof.
      intros it. destruct (tw_forest ch) as [_ K]. specialize (K it). split; intros H.
      - assert (Q : holds ms ch it) by now exists m. apply K in Q as (k' & Q & Hi). now rewrite <- (reach_once _ _ _ R' tw_sib' k' Q).
      - assert (Q : holds ms' ch it) by now exists k. apply K in Q as (m' & Q & Hi). now rewrite <- (reach_once _ _ _ R tw_sib m' Q).
    Qed.
    Lemma tw_tidy : tidy m /\ tidy k.
    Proof.
      destruct tw_in as (m0 & H0 & Hm). destruct tw_in' as (k0 & H0' & Hk). split.
      - exact (final_tidy x Ho Hw fuel l c ms Hl Hc Hf m0 m H0 Hm).
      - exact (final_tidy y Ho' Hw fuel l' c' ms' tw_asked Hc' Hf' k0 k H0' Hk).
    Qed.
    Lemma tw_lists : Permutation (m_prelude m) (m_prelude k) /\ Permutation (m_imports m) (m_imports k) /\ Permutation (m_classes m) (m_classes k) /\
      Permutation (m_typevars m) (m_typevars k) /\ Permutation (m_functions m) (m_functions k) /\ Permutation (m_properties m) (m_properties k).
    Proof.
      destruct tw_tidy as [(N1 & N2 & N3 & N4 & N5 & N6) (M1 & M2 & M3 & M4 & M5 & M6)]. pose proof tw_item as I. repeat split; apply NoDup_Permutation; try assumption; intros a.
      - exact (I (AnExport a)).
      - exact (I (AnImport a)).
      - exact (I (AClass a)).
      - exact (I (ATypeVar a)).
      - exact (I (AFunction a)).
      - exact (I (AProperty a)).
    Qed.
    Lemma tw_subs : Permutation (map m_name (m_subs m)) (map m_name (m_subs k)).
    Proof.
      destruct tw_in as (m0 & H0 & Hm). destruct tw_in' as (k0 & H0' & Hk). apply NoDup_Permutation; [now apply (proj2 tw_sib m0)|now apply (proj2 tw_sib' k0)|]. intros n.
      destruct (tw_forest (ch ++ [n])) as [K _]. split; intros Hn; apply in_map_iff in Hn as (s & <- & Hs).
      - assert (Q : present ms (ch ++ [m_name s])) by (exists s; now apply (reach_next ms ch m)). apply K in Q as (s' & Q). destruct (reach_back _ _ _ _ Q (reach_ne _ _ _ R)) as (k' & Q' & Hs' & En).
        rewrite (reach_once _ _ _ R' tw_sib' k' Q') in Hs'. rewrite <- En. now apply in_map.
      - assert (Q : present ms' (ch ++ [m_name s])) by (exists s; now apply (reach_next ms' ch k)). apply K in Q as (s' & Q). destruct (reach_back _ _ _ _ Q (reach_ne _ _ _ R')) as (m' & Q' & Hs' & En).
        rewrite (reach_once _ _ _ R tw_sib m' Q') in Hs'. rewrite <- En. now apply in_map.
    Qed.
    Lemma tw_doc : m_doc m = m_doc k.
    Proof.
      destruct tw_in as (m0 & H0 & Hm). destruct tw_in' as (k0 & H0' & Hk).
      destruct (final_sound_module x fuel l c ms Ho Hw Hl Hc Hf m0 m H0 Hm) as (o & O1 & O2 & O3).
      destruct (final_sound_module y fuel l' c' ms' Ho' Hw tw_asked Hc' Hf' k0 k H0' Hk) as (o' & P1 & P2 & P3).
      assert (o = o') as <-.
      { apply Hd; [exact O1|exact P1|]. pose proof tw_name as En. rewrite O2, P2 in En. change (pe_world y) with (pe_world x) in *. change (pe_uni y) with U in En. fold U in En.
        destruct (hn_name _ _ Hw o O1) as (a & _ & A & Ea). destruct (hn_name _ _ Hw o' P1) as (b & _ & B & Eb). rewrite Ea, Eb in *.
        rewrite <- (named_to_py U a A), <- (named_to_py U b B). now rewrite En. }
      change (pe_world y) with (pe_world x) in P3. congruence.
    Qed.
    Lemma tw_source : m_source m = m_source k.
    Proof.
      pose proof tw_name as En. pose proof R as Q. pose proof R' as Q'. inversion Q as [l1 m1 Hm1 E1 E2 E3|l1 m1 c1 k1 Hm1 Hr E1 E2 E3]; subst l1.
      - subst m1. rewrite <- E2 in Q'. inversion Q' as [l2 m2 Hm2 F1 F2 F3|l2 m2 c2 k2 Hm2 Hr F1 F2 F3]; [subst l2 m2|inversion Hr; congruence].
        rewrite (proj1 (final_source x fuel l c ms Hc Hf m Hm1)), (proj1 (final_source y fuel l' c' ms' Hc' Hf' k Hm2)), En. apply HG.
      - subst k1. rewrite <- E2 in Q'. inversion Q' as [l2 m2 Hm2 F1 F2 F3|l2 m2 c2 k2 Hm2 Hr2 F1 F2 F3]; [subst; inversion Hr|]. subst l2 k2.
        destruct (final_source x fuel l c ms Hc Hf m1 Hm1) as [_ S1]. destruct (final_source y fuel l' c' ms' Hc' Hf' m2 Hm2) as [_ S2].
        destruct (Proof_Api.reach_within _ _ _ Hr) as (s & Hs & Ws). destruct (Proof_Api.reach_within _ _ _ Hr2) as (s2 & Hs2 & Ws2).
        now rewrite (S1 s Hs m Ws), (S2 s2 Hs2 k Ws2).
    Qed.
    Lemma tw_top : pt_top X m = pt_top X' k.
    Proof.
      pose proof (final_linked x Ho Hw fuel l c ms Hl Hc Hf) as L. pose proof (final_linked y Ho' Hw fuel l' c' ms' tw_asked Hc' Hf') as L'.
      assert (E : In m ms <-> In k ms').
      { split; intros H.
        - destruct (nested_deep ms ch m L R H) as (n & E). pose proof R' as Q. rewrite E in Q. inversion Q as [l2 m2 Hm2 F1 F2|l2 m2 c2 k2 Hm2 Hr F1 F2]; subst; [exact Hm2|inversion Hr].
        - destruct (nested_deep ms' ch k L' R' H) as (n & E). pose proof R as Q. rewrite E in Q. inversion Q as [l2 m2 Hm2 F1 F2|l2 m2 c2 k2 Hm2 Hr F1 F2]; subst; [exact Hm2|inversion Hr]. }
      unfold pt_top. change (mx_top X) with ms. change (mx_top X') with ms'. destruct (in_dec module_dec m ms), (in_dec module_dec k ms'); tauto.
    Qed.
    Lemma tw_named : forall n b, exists e, ident_exists m n b = Ok e /\ ident_exists k n b = Ok e.
    Proof.
      intros n b. destruct tw_in as (m0 & H0 & Hm). destruct tw_in' as (k0 & H0' & Hk).
      pose proof (final_items_named x Ho Hw fuel l c ms Hl Hc Hf m0 m H0 Hm) as N. pose proof (final_items_named y Ho' Hw fuel l' c' ms' tw_asked Hc' Hf' k0 k H0' Hk) as N'.
      destruct (ident_exists_iff m b n N) as (e & E & I). destruct (ident_exists_iff k b n N') as (e' & E' & I'). exists e. split; [exact E|]. rewrite E'. f_equal.
      assert (K : uses_name m b n <-> uses_name k b n).
      { destruct tw_lists as (_ & P1 & P2 & P3 & P4 & P5). unfold uses_name.
        assert (G : forall {A} (f : A -> path) a a', Permutation a a' -> ((exists i, In i a /\ path_name (f i) = Ok n) <-> exists i, In i a' /\ path_name (f i) = Ok n)).
        { intros A f a a' P. split; intros (i & Hi & Ei); exists i; (split; [|exact Ei]); [now apply (Permutation_in i P)|now apply (Permutation_in i (Permutation_sym P))]. }
        assert (Gs : (exists s, In s (m_subs m) /\ path_name (m_name s) = Ok n) <-> exists s, In s (m_subs k) /\ path_name (m_name s) = Ok n).
        { pose proof (G _ (fun p => p) _ _ tw_subs) as K. split; intros (s & Hs & Es).
          - destruct (proj1 K) as (p & Hp & Ep); [exists (m_name s); split; [now apply in_map|exact Es]|]. apply in_map_iff in Hp as (s' & <- & Hs'). now exists s'.
          - destruct (proj2 K) as (p & Hp & Ep); [exists (m_name s); split; [now apply in_map|exact Es]|]. apply in_map_iff in Hp as (s' & <- & Hs'). now exists s'. }
        rewrite (G _ im_target _ _ P1), Gs, (G _ cl_name _ _ P2), (G _ fn_name _ _ P4), (G _ (fun p => p) _ _ P3), (G _ pr_name _ _ P5). reflexivity. }
      destruct e, e'; try reflexivity; [apply I', K, I; reflexivity|symmetry; apply I, K, I'; reflexivity].
    Qed.
    Lemma tw_count : item_count m = item_count k.
    Proof.
      destruct tw_lists as (_ & P1 & P2 & P3 & P4 & P5). unfold item_count. pose proof (Permutation_length tw_subs) as P0. rewrite !map_length in P0.
      now rewrite (Permutation_length P1), P0, (Permutation_length P2), (Permutation_length P3), (Permutation_length P4), (Permutation_length P5).
    Qed.
    Variables (P P' : parts).
    Hypothesis HP : parts_of X m P.
    Hypothesis HP' : parts_of X' k P'.
    Lemma tw_table : forall s, In s (module_texts m) -> agree_on U (pt_lt P) (pt_lt P') s.
    Proof.
      intros s Hs. destruct tw_in as (m0 & H0 & Hm). destruct (Hv m0 m H0 Hm) as [_ A].
      assert (K : forall q, q = path_from_py U s \/ q = path_from_py U (before_bracket s) -> lt_get (pt_lt P) q = lt_get (pt_lt P') q).
      { intros q Hq. apply (table_agree (pe_dbg x) U m k (all_types ms) (all_types ms')); [exact (po_lt _ _ _ HP)|exact (po_lt _ _ _ HP')|exact tw_name| |exact (types_alike _ _ tw_forest)|].
        - intros i. exact (tw_item (AnImport i)).
        - intros im im' p p' H1 H2 H3 H4 H5 H6. now apply (A s q im im' p p'). }
      split; apply K; auto.
    Qed.
    Lemma tw_scope : Permutation (pt_scope P) (pt_scope P').
    Proof. destruct tw_lists as (_ & _ & _ & _ & Q & _). exact (mapM_perm _ _ _ _ _ Q (po_scope _ _ _ HP) (po_scope _ _ _ HP')). Qed.
    Lemma tw_prop_closed : forall p f, In p (m_properties m) -> prop_frags (pt_ctx X P) (pt_scope P) p = Ok f -> closed f.
    Proof.
      intros p f Hp H. destruct tw_in as (m0 & H0 & Hm). destruct (Hv m0 m H0 Hm) as [(F & HF & HV) _].
      destruct (final_typed x fuel l c ms Ho Hc Hf m0 m H0 Hm) as (_ & T & _). destruct (T p Hp) as (_ & D1 & D2).
      destruct (HV p Hp) as (n & (Hn & q & Hq) & Hacc). unfold prop_frags in H.
      pose proof (mapM_names _ _ _ _ HF (po_scope _ _ _ HP)) as Es. rewrite Es in H.
      assert (HR : forall f, In f F -> starts_with r_hash f = false).
      { intros g Hg. clear - HF Hg. induction HF as [|a b l k [Ha _] H IHf]; [easy|]. destruct Hg as [<-|Hg]; auto. }
      destruct (accessors_some U F n HU Hn HR Hacc) as [A1 A2].
      assert (E : forall name, path_name (pr_name p) = Ok name -> name = ident_from_py U n).
      { intros z Hz. unfold path_name in Hz. rewrite Hq, last_opt_app in Hz. now injection Hz as <-. }
      apply (wf_closed (mx_uni X) InModule).
      apply (accessor_module (pt_ctx X P) (map (ident_from_py U) F) p f HU (parts_table _ _ _ HP) D1 D2); [| |exact H]; intros z Hz; apply E in Hz; subst z; assumption.
    Qed.
    Lemma tw_body : reordered (pt_subs P) (pt_subs P') -> reordered (pt_body m P) (pt_body k P').
    Proof.
      intros HSub. destruct tw_lists as (P1 & P2 & P3 & P4 & P5 & P6). destruct tw_in as (m0 & H0 & Hm). destruct (final_typed x fuel l c ms Ho Hc Hf m0 m H0 Hm) as (_ & _ & T3).
      assert (C : forall {A} b (f : A -> outcome (list frag)) z r, when b (concatM f z) = Ok r -> (forall a f', In a z -> f a = Ok f' -> closed f') -> whole r) by (intros A b f z r; exact (when_closed b f z r)).
      pose proof tw_table as TT. unfold module_texts in TT.
      (* each part *)
      assert (B0 : gen_embed m = gen_embed k) by (unfold gen_embed; now rewrite tw_source, tw_name).
      assert (W0 : whole (gen_embed m)) by exact (embed_closed m).
      pose proof (po_imports _ _ _ HP) as I. pose proof (po_imports _ _ _ HP') as I'. change (mx_uni X') with (mx_uni X) in I'. change (mx_cfg X') with (mx_cfg X) in I'.
      change (mx_top X) with ms in I. change (mx_top X') with ms' in I'.
      assert (Fi : Permutation (filter (fun i => existsb (path_exists (im_origin i)) ms) (m_imports m)) (filter (fun i => existsb (path_exists (im_origin i)) ms') (m_imports k))).
      { rewrite (filter_ext _ (fun i => existsb (path_exists (im_origin i)) ms')) by (intros i; apply exists_alike, tw_forest). now apply filter_perm. }
      assert (Ui : forall a f', use_frag_of (mx_uni X) a = Ok f' -> closed f') by (intros a f'; apply use_closed).
      assert (B1 : reordered (pt_imports P) (pt_imports P')) by (apply (when_perm _ _ (use_frag_of (mx_uni X)) _ _ _ _ Fi (fun _ _ => eq_refl) (fun a f' _ => Ui a f') I I')).
      assert (W1 : whole (pt_imports P)) by exact (C _ _ _ _ _ I (fun a f' _ => Ui a f')). assert (W1' : whole (pt_imports P')) by exact (C _ _ _ _ _ I' (fun a f' _ => Ui a f')).
      assert (B2 : reordered (pt_prelude P) (pt_prelude P')).
      { pose proof (po_prelude _ _ _ HP) as H. pose proof (po_prelude _ _ _ HP') as H'. change (mx_uni X') with (mx_uni X) in H'. change (mx_cfg X') with (mx_cfg X) in H'.
        destruct (generate_preludes _); cbn [when] in H, H'; [|injection H as E; injection H' as E'; rewrite <- E, <- E'; apply ro_same].
        exact (prelude_ro _ m k _ _ P1 tw_named tw_count H H'). }
      assert (W2 : whole (pt_prelude P)) by exact (prelude_part_closed X m P HP). assert (W2' : whole (pt_prelude P')) by exact (prelude_part_closed X' k P' HP').
      pose proof (po_vars _ _ _ HP) as V. pose proof (po_vars _ _ _ HP') as V'. change (mx_uni X') with (mx_uni X) in V'. change (mx_cfg X') with (mx_cfg X) in V'.
      assert (Uv : forall a f', type_var_generate (mx_uni X) a = Ok f' -> closed f') by (intros a f'; apply var_closed).
      assert (B3 : reordered (pt_vars P) (pt_vars P')) by exact (when_perm _ _ _ _ _ _ _ P4 (fun _ _ => eq_refl) (fun a f' _ => Uv a f') V V').
      assert (W3 : whole (pt_vars P)) by exact (C _ _ _ _ _ V (fun a f' _ => Uv a f')). assert (W3' : whole (pt_vars P')) by exact (C _ _ _ _ _ V' (fun a f' _ => Uv a f')).
      pose proof (po_classes _ _ _ HP) as G. pose proof (po_classes _ _ _ HP') as G'. change (mx_cfg X') with (mx_cfg X) in G'.
      assert (B4 : reordered (pt_classes P) (pt_classes P')).
      { refine (when_perm _ _ _ _ _ _ _ P3 _ _ G G'); [|intros a f' _ Hf0; now apply class_closed in Hf0]. intros a Ha. apply class_agree. intros s Hs. apply TT. apply in_or_app. left. apply in_flat_map. now exists a. }
      assert (W4 : whole (pt_classes P)) by (refine (C _ _ _ _ _ G _); intros a f' _ Hf0; now apply class_closed in Hf0).
      assert (W4' : whole (pt_classes P')) by (refine (C _ _ _ _ _ G' _); intros a f' _ Hf0; now apply class_closed in Hf0).
      pose proof (po_fns _ _ _ HP) as F. pose proof (po_fns _ _ _ HP') as F'. change (mx_cfg X') with (mx_cfg X) in F'.
      assert (Ef : forall a, In a (m_functions m) -> fn_frags (pt_ctx X P) (pt_scope P) a = fn_frags (pt_ctx X' P') (pt_scope P') a).
      { intros a Ha. unfold fn_frags. assert (Eg : fn_generate (pt_ctx X P) (pt_scope P) a = fn_generate (pt_ctx X' P') (pt_scope P') a); [|now rewrite Eg].
        apply (fn_agree (mx_cfg X) (mx_imp X) (mx_dbg X) numpy U (pt_lt P) (pt_lt P') _ _ a tw_scope).
        intros s Hs. apply TT. apply in_or_app. right. apply in_or_app. left. apply in_flat_map. now exists a. }
      assert (Uf : forall a f', In a (m_functions m) -> fn_frags (pt_ctx X P) (pt_scope P) a = Ok f' -> closed f') by (intros a f' Ha Hf0; apply (fn_closed _ _ _ _ Hf0); now apply T3).
      assert (B5 : reordered (pt_fns P) (pt_fns P')) by exact (when_perm _ _ _ _ _ _ _ P5 Ef Uf F F').
      assert (W5 : whole (pt_fns P)) by exact (C _ _ _ _ _ F Uf).
      assert (W5' : whole (pt_fns P')). { refine (C _ _ _ _ _ F' _). intros a f' Ha Hf0. apply (Permutation_in a (Permutation_sym P5)) in Ha. rewrite <- (Ef a Ha) in Hf0. now apply (Uf a). }
      pose proof (po_props _ _ _ HP) as Q. pose proof (po_props _ _ _ HP') as Q'. change (mx_cfg X') with (mx_cfg X) in Q'.
      assert (Ep : forall a, In a (m_properties m) -> prop_frags (pt_ctx X P) (pt_scope P) a = prop_frags (pt_ctx X' P') (pt_scope P') a).
      { intros a Ha. unfold prop_frags. assert (Eg : prop_generate (pt_ctx X P) (pt_scope P) a = prop_generate (pt_ctx X' P') (pt_scope P') a); [|now rewrite Eg].
        apply (prop_agree (mx_cfg X) (mx_imp X) (mx_dbg X) numpy U (pt_lt P) (pt_lt P') _ _ a tw_scope).
        intros s Hs. apply TT. apply in_or_app. right. apply in_or_app. right. apply in_flat_map. now exists a. }
      assert (B6 : reordered (pt_props P) (pt_props P')) by exact (when_perm _ _ _ _ _ _ _ P6 Ep tw_prop_closed Q Q').
      assert (W6 : whole (pt_props P)) by exact (C _ _ _ _ _ Q tw_prop_closed).
      assert (W6' : whole (pt_props P')). { refine (C _ _ _ _ _ Q' _). intros a f' Ha Hf0. apply (Permutation_in a (Permutation_sym P6)) in Ha. rewrite <- (Ep a Ha) in Hf0. now apply (tw_prop_closed a). }
      unfold pt_body. rewrite <- B0. repeat (apply ro_app; [assumption..|apply ro_same|] || (apply ro_app; [assumption..|])). exact HSub.
    Qed.
  End pair.
  Lemma tw_module : forall m ch k f f', reach ms ch m -> reach ms' ch k -> mod_generate X m = Ok f -> mod_generate X' k = Ok f' -> reordered f f'.
  Proof.
    intros m. induction m as [m IH] using module_nested_ind. intros ch k f f' R R' H H'.
    apply mod_generate_inv in H as (P & id & HP & Hid & _ & ->). apply mod_generate_inv in H' as (P' & id' & HP' & Hid' & _ & ->).
    rewrite (tw_name ch m k R R') in Hid. rewrite Hid in Hid'. injection Hid' as <-. rewrite (tw_top ch m k R R').
    assert (D : pt_docs P = pt_docs P').
    { pose proof (po_docs _ _ _ HP) as D. pose proof (po_docs _ _ _ HP') as D'. rewrite (tw_doc ch m k R R') in D. unfold gen_doc in *. change (g_cfg (pt_ctx X' P')) with (g_cfg (pt_ctx X P)) in D'. rewrite D in D'. now injection D' as D'. }
    rewrite D. assert (Ld : forallb leads (pt_top X' k ++ pt_docs P' ++ [GPub]) = true).
    { rewrite !forallb_app. change (forallb leads [GPub]) with true. rewrite andb_true_r. apply andb_true_iff. split; [unfold pt_top; now destruct (in_dec _ _ _)|]. apply forallb_forall. intros z Hz.
      destruct (doc_only _ _ _ (po_docs _ _ _ HP') z Hz) as (t & ->). reflexivity. }
    replace (pt_top X' k ++ pt_docs P' ++ [GPub; GMod id (pt_body m P)]) with ((pt_top X' k ++ pt_docs P' ++ [GPub]) ++ [GMod id (pt_body m P)]) by now rewrite <- !app_assoc.
    replace (pt_top X' k ++ pt_docs P' ++ [GPub; GMod id (pt_body k P')]) with ((pt_top X' k ++ pt_docs P' ++ [GPub]) ++ [GMod id (pt_body k P')]) by now rewrite <- !app_assoc.
    apply ro_mod; [exact Ld|]. apply (tw_body ch m k R R' P P' HP HP').
    pose proof (po_subs _ _ _ HP) as Sb. pose proof (po_subs _ _ _ HP') as Sb'. change (mx_cfg X') with (mx_cfg X) in Sb'.
    destruct (traverse_submodules (mx_cfg X)); cbn [when] in Sb, Sb'; [|injection Sb as E; injection Sb' as E'; rewrite <- E, <- E'; apply ro_same].
    apply bind_Ok in Sb as (ks & Hks & Sb). injection Sb as <-. apply bind_Ok in Sb' as (ks' & Hks' & Sb'). injection Sb' as <-.
    destruct (Permutation_map_inv _ _ (tw_subs ch m k R R')) as (l3 & E3 & Q3).
    assert (H3 : exists k3, mapM (mod_generate X') l3 = Ok k3).
    { apply mapM_total. intros s Hs. apply (Permutation_in s (Permutation_sym Q3)) in Hs. destruct (mapM_In_l _ _ _ _ Hks' Hs) as (r & _ & Er). now exists r. }
    destruct H3 as (k3 & H3). apply (ro_trans _ (concat k3)).
    - apply ro_concat; [|intros z Hz; destruct (mapM_In _ _ _ _ Hks Hz) as (s & _ & Es); now apply mod_closed in Es|intros z Hz; destruct (mapM_In _ _ _ _ H3 Hz) as (s & _ & Es); now apply mod_closed in Es].
      apply (paired _ _ _ _ _ _ E3 Hks H3). intros s s3 a a3 Hs Hs3 En Ha Ha3. apply (Permutation_in s3 (Permutation_sym Q3)) in Hs3.
      apply (IH s Hs (ch ++ [m_name s]) s3); [now apply (reach_next ms ch m s R)|rewrite En; now apply (reach_next ms' ch k s3 R')|exact Ha|exact Ha3].
    - apply ro_perm; [|intros z Hz; destruct (mapM_In _ _ _ _ H3 Hz) as (s & _ & Es); now apply mod_closed in Es]. apply Permutation_sym in Q3. exact (mapM_perm _ _ _ _ _ Q3 H3 Hks').
  Qed.
End twin.

Lemma output_reordered : forall x h numpy fuel l l' c c' ms out out', order_ok (pe_ord x) -> order_ok h -> uni_ok (pe_uni x) ->
  honest (pe_uni x) (pe_world x) -> names_differ (pe_world x) -> asked_modules (pe_world x) l ->
  same_members (flat_map (asked (pe_world x)) l) (flat_map (asked (pe_world x)) l') -> (forall n, given l n = given l' n) ->
  asks x fuel l cg_new = Ok c -> final_modules x fuel c = Ok ms ->
  (forall m k, In m ms -> within k m -> variables_named (pe_uni x) k /\ unambiguous (pe_uni x) (all_types ms) k) ->
  cg_generate x numpy fuel c = Ok out -> asks (with_order x h) fuel l' cg_new = Ok c' -> cg_generate (with_order x h) numpy fuel c' = Ok out' -> reordered out out'.
Proof.
  intros x h numpy fuel l l' c c' ms out out' Ho Ho' HU Hw Hd Hl HS HG Hc Hf Hv Hout Hc' Hout'.
  unfold cg_generate in Hout, Hout'. rewrite Hf in Hout. cbn [obind] in Hout. apply bind_Ok in Hout' as (ms' & Hf' & Hout').
  apply bind_Ok in Hout as (ks & Hks & Hout). injection Hout as <-. apply bind_Ok in Hout' as (ks' & Hks' & Hout'). injection Hout' as <-.
  pose proof (tw_module x h numpy fuel l l' c c' ms ms' Ho Ho' HU Hw Hd Hl HS HG Hc Hf Hc' Hf' Hv) as TM.
  pose proof (tw_forest x h fuel l l' c c' ms ms' Ho Ho' Hw Hd HS Hc Hf Hc' Hf') as SF.
  pose proof (tw_sib x fuel l c ms Ho Hw Hl Hc Hf) as [N _]. pose proof (tw_sib' x h fuel l l' c' ms' Ho' Hw Hl HS Hc' Hf') as [N' _].
  assert (Q : Permutation (map m_name ms) (map m_name ms')).
  { apply NoDup_Permutation; [exact N|exact N'|]. intros n. destruct (SF [n]) as [K _].
    assert (T : forall z, In n (map m_name z) <-> present z [n]).
    { intros z. split; intros H; [apply in_map_iff in H as (s & <- & Hs); exists s; now apply reach_here|]. destruct H as (s & H). inversion H as [l2 m2 Hm2 F1 F2|l2 m2 c2 k2 Hm2 Hr F1 F2]; subst; [now apply in_map|inversion Hr]. }
    now rewrite !T. }
  destruct (Permutation_map_inv _ _ Q) as (l3 & E3 & Q3).
  assert (H3 : exists k3, mapM (mod_generate (gen_ctx (with_order x h) numpy ms')) l3 = Ok k3).
  { apply mapM_total. intros s Hs. apply (Permutation_in s (Permutation_sym Q3)) in Hs. destruct (mapM_In_l _ _ _ _ Hks' Hs) as (r & _ & Er). now exists r. }
  destruct H3 as (k3 & H3). apply (ro_trans _ (concat k3)).
  - apply ro_concat; [|intros z Hz; destruct (mapM_In _ _ _ _ Hks Hz) as (s & _ & Es); now apply mod_closed in Es|intros z Hz; destruct (mapM_In _ _ _ _ H3 Hz) as (s & _ & Es); now apply mod_closed in Es].
    apply (paired _ _ _ _ _ _ E3 Hks H3). intros s s3 a a3 Hs Hs3 En Ha Ha3. apply (Permutation_in s3 (Permutation_sym Q3)) in Hs3.
    apply (TM s [m_name s] s3); [now apply reach_here|rewrite En; now apply reach_here|exact Ha|exact Ha3].
  - apply ro_perm; [|intros z Hz; destruct (mapM_In _ _ _ _ H3 Hz) as (s & _ & Es); now apply mod_closed in Es]. apply Permutation_sym in Q3. exact (mapM_perm _ _ _ _ _ Q3 H3 Hks').
Qed.
