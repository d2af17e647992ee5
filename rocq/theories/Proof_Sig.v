(** * Lemmas: what the types in the generated signatures refer to (C66) *)
From Coq Require Import Permutation.
From Verif Require Import Base Model_Ident Model_Path Model_Import Model_Text Model_Config Model_Type Model_IntoRs Model_World Model_Out
  Model_Function Model_Property Model_Class Model_Module Model_Parse Model_Codegen Spec_Path Spec_Names Spec_Rust Spec_Items Spec_Tree Spec_Api Spec_Safe Spec_Out Spec_Privacy Spec_Prop Spec_Attr Spec_Full Spec_Use Spec_Sig
  Proof_Base Proof_Ident Proof_Path Proof_Text Proof_Type Proof_IntoRs Proof_Function Proof_Fresh Proof_Kind Proof_Items Proof_Module
  Proof_Parse Proof_Forest Proof_Err Proof_Api Proof_Honest Proof_Rooted Proof_Parts Proof_Property Proof_Scope Proof_Attr Proof_Shown Proof_Full Proof_Calm Proof_Use Proof_Clash.

(** ** Types come from annotations *)
Definition from_ctx (c : ctx) (t : rty) : Prop := exists ty, into_rs_owned c ty = Ok t \/ into_rs_borrowed c ty = Ok t.
Definition mention_ok (c : ctx) (r : mention) : Prop :=
  match r with
  | MBare s => In s bare_types
  | MLib p => In p library_items \/ In p missing_paths
  | MLocal p => (exists k, In (k, p) (cx_local c)) /\ syn_path_ok (cx_uni c) p = true
  end.
Definition all_ok (c : ctx) (t : rty) : Prop := forall r, In r (mentions t) -> mention_ok c r.
Ltac lib_in := solve [left; vm_compute; tauto | right; vm_compute; tauto | vm_compute; tauto].
Lemma any_ok : forall c, all_ok c (fst r_any) /\ all_ok c (snd r_any).
Proof. intros c. split; intros r Hr; cbn in Hr; repeat (destruct Hr as [<-|Hr]; [lib_in|]); destruct Hr. Qed.
Ltac fixed_ok := split; intros ?r ?Hr; cbn in Hr; repeat (destruct Hr as [<-|Hr]; [lib_in|]); destruct Hr.
Lemma into_rs_ok : forall c t o b, into_rs c t = Ok (o, b) -> all_ok c o /\ all_ok c b.
Proof.
  assert (H1 : forall c p o, (In p library_items \/ In p missing_paths) -> all_ok c o -> all_ok c (RAbs p [o])).
  { intros c p o Hp Ho r [<-|Hr]; [exact Hp|]. cbn in Hr. rewrite app_nil_r in Hr. now apply Ho. }
  assert (H2 : forall c p o o', (In p library_items \/ In p missing_paths) -> all_ok c o -> all_ok c o' -> all_ok c (RAbs p [o; o'])).
  { intros c p o o' Hp Ho Ho' r [<-|Hr]; [exact Hp|]. cbn in Hr. rewrite app_nil_r in Hr. apply in_app_or in Hr as [Hr|Hr]; auto. }
  assert (H3 : forall c o, all_ok c o -> all_ok c (RVec o)).
  { intros c o Ho r [<-|Hr]; [vm_compute; tauto|now apply Ho]. }
  intros c t. induction t as [x IH|l IH|k v IHk IHv|x IH|x IH|x IH|l IH|ps r|s|t Ht] using ptype_ind'; intros o b H.
  - cbn in H. apply bind_Ok in H as (i & Hi & H). injection H as <- <-. apply owned_of in Hi as (bi & Hi). apply IH in Hi as [Hi _].
    split; (apply H1; [lib_in|exact Hi]).
  - cbn in H. injection H as <- <-. apply any_ok.
  - cbn [into_rs] in H. apply bind_Ok in H as (v' & Hv' & H). apply owned_of in Hv' as (bv & Hv'). destruct (is_hashable k && negb (mentions_pyany v')).
    + apply bind_Ok in H as (k' & Hk' & H). injection H as <- <-. apply owned_of in Hk' as (bk & Hk'). apply IHv in Hv' as [Hv' _]. apply IHk in Hk' as [Hk' _].
      split; [|change (all_ok c (r_hashmap k' v'))]; (apply H2; [lib_in|exact Hk'|exact Hv']).
    + injection H as <- <-. fixed_ok.
  - cbn [into_rs] in H. destruct (is_hashable x); [|injection H as <- <-; fixed_ok]. apply bind_Ok in H as (k' & Hk' & H). injection H as <- <-. apply owned_of in Hk' as (bk & Hk').
    apply IH in Hk' as [Hk' _]. split; [|change (all_ok c (r_hashset k'))]; (apply H1; [lib_in|exact Hk']).
  - cbn in H. apply bind_Ok in H as (i & Hi & H). injection H as <- <-. apply owned_of in Hi as (bi & Hi). apply IH in Hi as [Hi _]. split; [now apply H3|exact Hi].
  - cbn [into_rs] in H. destruct (is_hashable x); [|injection H as <- <-; fixed_ok]. apply bind_Ok in H as (k' & Hk' & H). injection H as <- <-. apply owned_of in Hk' as (bk & Hk').
    apply IH in Hk' as [Hk' _]. split; [|change (all_ok c (r_hashset k'))]; (apply H1; [lib_in|exact Hk']).
  - destruct l as [|x [|y l]]; try (cbn in H; injection H as <- <-; fixed_ok).
    rewrite into_tuple in H. destruct (is_ellipsis y && _).
    + apply bind_Ok in H as (i & Hi & H). injection H as <- <-. apply owned_of in Hi as (bi & Hi). apply IH in Hi as [Hi _]; [|now left]. split; [now apply H3|exact Hi].
    + apply bind_Ok in H as (is & Hi & H). injection H as <- <-.
      assert (E : all_ok c (RTup is)); [|split; exact E]. intros r Hr. cbn [mentions] in Hr. apply in_flat_map in Hr as (z & Hz & Hr).
      destruct (mapM_In _ _ _ _ Hi Hz) as (a & Ha & Ez). apply owned_of in Ez as (bz & Ez). apply (IH a Ha) in Ez as [Ez _]. now apply Ez.
  - cbn in H. injection H as <- <-. fixed_ok.
  - cbn [into_rs] in H. unfold map_type in H. destruct (map_external c s) as [r|] eqn:Em.
    + unfold map_external in Em. destruct (_ && _); [|discriminate]. injection Em as <-. injection H as <- <-. fixed_ok.
    + apply bind_Ok in H as (key & _ & H). destruct (lt_get (cx_local c) key) as [rel|] eqn:El; [|injection H as <- <-; apply any_ok].
      destruct (syn_path_ok (cx_uni c) rel) eqn:Es; [|discriminate]. injection H as <- <-. apply lt_get_In in El as (k & Hk & _).
      split; intros r Hr; cbn in Hr; (destruct Hr as [<-|[<-|[]]]; [lib_in|split; [now exists k|exact Es]]).
  - split_leaf t Ht H; fixed_ok.
Qed.
Lemma from_ctx_ok : forall c t, from_ctx c t -> all_ok c t.
Proof.
  intros c t (ty & [H|H]); unfold into_rs_owned, into_rs_borrowed in H; destruct (into_rs c ty) as [[o b]| | |] eqn:E; try discriminate; injection H as <-; [exact (proj1 (into_rs_ok c ty o b E))|exact (proj2 (into_rs_ok c ty o b E))].
Qed.

(** ** Every signature *)
Definition from_annotations (c : ctx) (k : contract) : Prop := forall t, In t (sig_types k) -> from_ctx c t.
Lemma combine_snd : forall {A B} (l : list A) (k : list B) b, In b (map snd (combine l k)) -> In b k.
Proof. intros A B l k b H. apply in_map_iff in H as ([a b'] & <- & H). now apply in_combine_r in H. Qed.
Lemma contract_from : forall c U typ scope id ids tys rt pb k, gen_contract U typ scope id (combine ids tys) rt = Ok (pb, k) ->
  (forall t, In t tys -> from_ctx c t) -> from_ctx c rt -> from_annotations c k.
Proof.
  intros c U typ scope id ids tys rt pb k H Ht Hr.
  assert (K : forall _ : ret, (k_ret k = RetType rt \/ (forall t, k_ret k <> RetType t)) -> k_params k = combine ids tys -> from_annotations c k).
  { intros _ E1 E2 t Hin. unfold sig_types in Hin. rewrite E2 in Hin. apply in_app_or in Hin as [Hin|Hin]; [apply Ht; now apply combine_snd in Hin|].
    destruct E1 as [E1|E1]; [rewrite E1 in Hin; destruct Hin as [<-|[]]; exact Hr|]. destruct (k_ret k); [now destruct (E1 t0)|destruct Hin|destruct Hin]. }
  unfold gen_contract in H. destruct typ as [|cp mk|]; [|destruct mk|]; try (injection H as _ <-; apply K; [exact RetUnit|now left|reflexivity]);
    (apply bind_Ok in H as (cn & _ & H); apply bind_Ok in H as (n & _ & H); injection H as _ <-; apply K; [exact RetUnit|first [now left|right; discriminate]|reflexivity]).
Qed.
Lemma fn_from : forall g scope f impl, fn_generate g scope f = Ok impl ->
  match impl with IFunction l => forall k, In k (flat_map frag_contracts l) -> from_annotations (g_cx g) k
  | IMethod t l => forall k, In k (flat_map frag_contracts t) \/ In k (flat_map frag_contracts l) -> from_annotations (g_cx g) k end.
Proof.
  intros g scope f impl H. unfold fn_generate in H. apply bind_Ok in H as (docs & Hd & H). apply bind_Ok in H as (nm & _ & H). destruct (fn_ident _ nm) as [id|]; [|injection H as <-; intros k []].
  apply bind_Ok in H as (ids & _ & H). apply bind_Ok in H as (preps & _ & H). apply bind_Ok in H as (tys & Ht & H). apply bind_Ok in H as (rt & Hr & H).
  apply bind_Ok in H as ([pb k] & Hk & H). apply bind_Ok in H as (od & _ & H). destruct od as [d|]; [|injection H as <-; intros k0 [[]|[]]].
  apply bind_Ok in H as (pos & _ & H). apply bind_Ok in H as (kw & _ & H).
  assert (F : from_annotations (g_cx g) k).
  { apply (contract_from _ _ _ _ _ _ _ _ _ _ Hk); [|now exists (fn_ret f); left]. intros t Hin. destruct (mapM_In _ _ _ _ Ht Hin) as (p & _ & E). exists (p_ann p). now right. }
  assert (D : flat_map frag_contracts docs = []).
  { pose proof (doc_only _ _ _ Hd) as D. clear - D. induction docs as [|y docs IH]; [reflexivity|]. destruct (D y (or_introl eq_refl)) as [t ->]. cbn. apply IH. intros z Hz. apply D. now right. }
  destruct (is_bound (fn_typ f)); injection H as <-; intros k0; rewrite !flat_map_app, D; (destruct pb; cbn [app flat_map frag_contracts f_contract In]; intuition (subst; assumption)).
Qed.
Lemma accessors_from : forall g scope p impl, prop_generate g scope p = Ok impl ->
  match impl with IFunction l => forall k, In k (flat_map frag_contracts l) -> from_annotations (g_cx g) k
  | IMethod t l => forall k, In k (flat_map frag_contracts t) \/ In k (flat_map frag_contracts l) -> from_annotations (g_cx g) k end.
Proof.
  intros g scope p impl H. unfold prop_generate in H. apply bind_Ok in H as ([gt gi] & Hg & H). apply bind_Ok in H as ([st si] & Hs & H).
  assert (D : forall o docs, gen_doc g o = Ok docs -> flat_map frag_contracts docs = []).
  { intros o docs Hd. pose proof (doc_only _ _ _ Hd) as D. clear - D. induction docs as [|y docs IH]; [reflexivity|]. destruct (D y (or_introl eq_refl)) as [t ->]. cbn. apply IH. intros z Hz. apply D. now right. }
  assert (G : forall k, In k (flat_map frag_contracts gt) \/ In k (flat_map frag_contracts gi) -> from_annotations (g_cx g) k).
  { destruct (getter_shape _ _ _ _ _ Hg) as (n & id & _ & _ & K). destruct id as [id|]; [|destruct K as [-> ->]; intros k [[]|[]]].
    destruct K as (docs & d & ty & Hd & _ & _ & Ep & Et & Er & _ & _ & -> & ->).
    assert (F : from_annotations (g_cx g) (f_contract d)). { intros t Ht. unfold sig_types in Ht. rewrite Ep, Er in Ht. destruct Ht as [<-|[]]. exists (pr_ann p). now left. }
    intros k. rewrite flat_map_app, (D _ _ Hd). unfold declare. destruct (owner_is_class _); cbn; intuition (subst; assumption). }
  assert (S : forall k, In k (flat_map frag_contracts st) \/ In k (flat_map frag_contracts si) -> from_annotations (g_cx g) k).
  { destruct (pr_mutable p); [|injection Hs as <- <-; intros k [[]|[]]].
    destruct (setter_shape _ _ _ _ _ Hs) as (n & id & _ & _ & K). destruct id as [id|]; [|destruct K as [-> ->]; intros k [[]|[]]].
    destruct K as (docs & d & ty & Hd & _ & _ & Et & Ep & Er & _ & _ & -> & ->).
    assert (F : from_annotations (g_cx g) (f_contract d)). { intros t Ht. unfold sig_types in Ht. rewrite Ep, Er in Ht. destruct Ht as [<-|[]]. exists (pr_ann p). now right. }
    intros k. rewrite flat_map_app, (D _ _ Hd). unfold declare. destruct (owner_is_class _); cbn; intuition (subst; assumption). }
  destruct (pr_owner p); injection H as <-; intros k; try (destruct (pr_mutable p)); cbn [flat_map frag_contracts app]; rewrite ?flat_map_app, ?in_app_iff; cbn [flat_map frag_contracts app]; rewrite ?in_app_iff;
    intuition (try (apply G; tauto); try (apply S; tauto)); try contradiction.
Qed.
Lemma members_from : forall (Q : contract -> Prop) is m,
  (forall impl, In impl is -> match impl with IFunction l => forall k, In k (flat_map frag_contracts l) -> Q k
    | IMethod t l => forall k, In k (flat_map frag_contracts t) \/ In k (flat_map frag_contracts l) -> Q k end) ->
  (forall k, In k (flat_map frag_contracts (mb_struct m)) \/ In k (flat_map frag_contracts (mb_defs m)) \/ In k (flat_map frag_contracts (mb_impls m)) -> Q k) ->
  let r := fold_left add_member is m in
  forall k, In k (flat_map frag_contracts (mb_struct r)) \/ In k (flat_map frag_contracts (mb_defs r)) \/ In k (flat_map frag_contracts (mb_impls r)) -> Q k.
Proof.
  intros Q. induction is as [|i is IH]; intros m Hi Hm; cbn zeta; [exact Hm|]. cbn [fold_left]. apply IH; [intros impl H; apply Hi; now right|].
  pose proof (Hi i (or_introl eq_refl)) as K. intros k. destruct i as [l|t l]; cbn [add_member mb_struct mb_defs mb_impls]; rewrite ?flat_map_app, ?in_app_iff.
  - intros [[H|H]|[H|H]]; auto.
  - intros [H|[[H|H]|[H|H]]]; auto.
Qed.
Lemma class_from : forall g c l, class_generate g c = Ok l -> forall k, In k (contracts l) -> from_annotations (g_cx g) k.
Proof.
  intros g c l H k Hk. unfold class_generate in H. apply bind_Ok in H as (docs & Hd & H). apply bind_Ok in H as (nm & _ & H).
  destruct (struct_ident (g_uni g) nm) as [id|]; [|injection H as <-; destruct Hk]. apply bind_Ok in H as (scope & _ & H).
  apply bind_Ok in H as (ms & Hms & H). apply bind_Ok in H as (ps & Hps & H). apply bind_Ok in H as (tid & _ & H).
  set (m := fold_left add_member (ms ++ ps) (mk_members [] [] [])) in *. injection H as <-.
  pose proof (members_from (from_annotations (g_cx g)) (ms ++ ps) (mk_members [] [] [])) as M. cbn zeta in M. fold m in M.
  unfold contracts in Hk. apply in_flat_map in Hk as (y & Hy & Hk).
  assert (K : In k (flat_map frag_contracts (mb_struct m)) \/ In k (flat_map frag_contracts (mb_defs m)) \/ In k (flat_map frag_contracts (mb_impls m))).
  { apply in_app_or in Hy as [Hy|Hy]; [destruct (doc_only _ _ _ Hd _ Hy) as [t ->]; destruct Hk|].
    cbn [app In trait_docs] in Hy. repeat (destruct Hy as [<-|Hy]; [cbn [frag_contracts] in Hk; solve [destruct Hk|tauto]|]). destruct Hy. }
  revert K. apply M; [|intros k0 [[]|[[]|[]]]]. intros impl Hi. apply in_app_or in Hi as [Hi|Hi].
  - destruct (mapM_In _ _ _ _ Hms Hi) as (f & _ & Hf). exact (fn_from _ _ _ _ Hf).
  - destruct (mapM_In _ _ _ _ Hps Hi) as (p & _ & Hp). exact (accessors_from _ _ _ _ Hp).
Qed.
Lemma contracts_app : forall a b, contracts (a ++ b) = contracts a ++ contracts b.
Proof. intros a b. apply flat_map_app. Qed.
Lemma plain_contracts : forall i l k, (i = IFunction l) -> (forall y, In y l -> leads y = true \/ exists d, y = GFn d) -> In k (contracts l) -> In k (flat_map frag_contracts l).
Proof.
  intros i l k _ Hl H. unfold contracts in H. apply in_flat_map in H as (y & Hy & H). apply in_flat_map. exists y. split; [exact Hy|]. destruct (Hl y Hy) as [E|(d & ->)]; [now destruct y|exact H].
Qed.

Lemma class_struct : forall g c l a i, class_generate g c = Ok l -> cl_name c = path_snoc a i -> syn_ident_ok (g_uni g) i = true -> In (GStruct i) l.
Proof.
  intros g c l a i H E Hi. unfold class_generate in H. apply bind_Ok in H as (docs & Hd & H). apply bind_Ok in H as (nm & Hn & H).
  rewrite E in Hn. apply snoc_path_name in Hn as ->. unfold struct_ident, as_rs in H. rewrite Hi in H.
  apply bind_Ok in H as (scope & _ & H). apply bind_Ok in H as (ms & Hms & H). apply bind_Ok in H as (ps & Hps & H). apply bind_Ok in H as (tid & _ & H). injection H as <-.
  apply in_or_app. right. cbn. tauto.
Qed.

(** ** A module *)
Lemma body_from : forall X m P, parts_of X m P -> mod_typed m -> forall k, In k (contracts (pt_body m P)) -> from_annotations (g_cx (pt_ctx X P)) k.
Proof.
  intros X m P HP (T1 & T2 & T3) k Hk. unfold contracts in Hk. apply in_flat_map in Hk as (y & Hy & Hk).
  destruct (body_frag X m P y HP T3 Hy) as [K|[(? & ? & ? & -> & _)|[(? & -> & _)|[(? & ? & -> & _)|[(? & -> & _)|[K|[(d & -> & _ & K)|[(d & -> & _ & K)|(? & ? & -> & _)]]]]]]]]; try (now destruct Hk).
  - destruct y; try discriminate K; destruct Hk.
  - destruct (when_from _ _ _ _ _ (po_classes _ _ _ HP) K) as (_ & c & l & _ & Hl & Hin). apply (class_from _ c l Hl). unfold contracts. apply in_flat_map. now exists y.
  - destruct (when_from _ _ _ _ _ (po_fns _ _ _ HP) K) as (_ & f & l & _ & Hl & Hin). unfold fn_frags in Hl. apply bind_Ok in Hl as (i & Hi & Hl).
    pose proof (fn_from _ _ _ _ Hi) as F. destruct i as [l'|t l']; [|discriminate]. injection Hl as ->. apply F. apply in_flat_map. exists (GFn d). now split.
  - destruct (when_from _ _ _ _ _ (po_props _ _ _ HP) K) as (_ & p & l & _ & Hl & Hin). unfold prop_frags in Hl. apply bind_Ok in Hl as (i & Hi & Hl).
    pose proof (accessors_from _ _ _ _ Hi) as F. destruct i as [l'|t l']; [|discriminate]. injection Hl as ->. apply F. apply in_flat_map. exists (GFn d). now split.
Qed.
Lemma table_types : forall dbg U m ts lt, local_types dbg U m ts = Ok lt -> forall k v, In (k, v) lt -> exists p, In p ts /\ relative_to (m_name m) p false = Ok v.
Proof.
  intros dbg U m ts lt H k v Hin. unfold local_types in H. apply bind_Ok in H as (own & Ho & H). apply bind_Ok in H as (al & Ha & H). injection H as H. subst lt.
  apply in_rev in Hin. apply in_app_or in Hin as [Hin|Hin].
  - destruct (mapM_In _ _ _ _ Ho Hin) as (p & Hp & E). apply bind_Ok in E as (r & Er & E). injection E as -> ->. now exists k.
  - apply in_concat in Hin as (e & He & Hin). destruct (mapM_In _ _ _ _ Ha He) as (im & Hi & Em). unfold alias_entries in Em.
    destruct (mapM_In _ _ _ _ Em Hin) as (p & Hp & E). apply filter_In in Hp as [Hp _]. apply bind_Ok in E as (key & _ & E). apply bind_Ok in E as (r & Er & E). injection E as -> ->. now exists p.
Qed.

(** ** The names of the primitive types are not made up by the generator *)
Definition given_names : list str := u "pyo3" :: u "Some" :: bare_types.
Lemma bare_prefix : forall U s t, In s given_names -> ident_from_py U (u "s_" ++ t) = s -> False.
Proof.
  intros U s t Hs E. unfold ident_from_py, py_to_rs in E. destruct (syn_ident_ok U _); (destruct Hs as [<-|[<-|[<-|[<-|[<-|[<-|[<-|[<-|[]]]]]]]]]; discriminate).
Qed.
Lemma bare_suffix : forall U s t, In s given_names -> ident_from_py U (t ++ u "Methods") = s -> False.
Proof.
  intros U s t Hs E. assert (L : last_opt s = last_opt (u "Methods")).
  { rewrite <- E. unfold ident_from_py, py_to_rs. change (u "Methods") with (u "Method" ++ [ch "s"]). destruct (syn_ident_ok U _); rewrite ?app_assoc, !last_opt_app; reflexivity. }
  destruct Hs as [<-|[<-|[<-|[<-|[<-|[<-|[<-|[<-|[]]]]]]]]]; discriminate.
Qed.

(** ** The output *)
Section output.
  Variable x : penv.
  Let U := pe_uni x.
  Hypothesis HU : uni_ok U.
  Hypothesis Ho : order_ok (pe_ord x).
  Hypothesis Hw : honest U (pe_world x).
  Variables (numpy : bool) (fuel : nat) (l : list request) (c : codegen) (ms : list module) (out : list frag).
  Hypothesis Hl : asked_modules (pe_world x) l.
  Hypothesis Hc : asks x fuel l cg_new = Ok c.
  Hypothesis Hf : final_modules x fuel c = Ok ms.
  Hypothesis Hout : cg_generate x numpy fuel c = Ok out.
  Let X := gen_ctx x numpy ms.

  Lemma scope_mention : forall ns k r, at_path out ns k -> mentioned k r -> exists m m0 P, In m0 ms /\ within m m0 /\ ns = segs (m_name m) /\ parts_of X m P /\ k = pt_body m P /\ mention_ok (g_cx (pt_ctx X P)) r.
  Proof.
    intros ns k r A (ct & t & Hct & Ht & Hr).
    destruct (scope_module x Ho Hw numpy fuel l c ms out Hl Hc Hf Hout ns k A) as [[-> K]|[(ex & ->)|(m & m0 & P & Hm0 & Hm & En & HP & ->)]].
    - exfalso. unfold contracts in Hct. apply in_flat_map in Hct as (y & Hy & Hct). destruct (K y Hy) as [E|(n & b & ->)]; [|destruct Hct]. destruct y; try discriminate E; destruct Hct.
    - destruct Hct.
    - exists m, m0, P. repeat (split; [assumption|]). split; [reflexivity|].
      apply (from_ctx_ok _ t); [|exact Hr]. exact (body_from X m P HP (final_typed x fuel l c ms Ho Hc Hf m0 m Hm0 Hm) ct Hct t Ht).
  Qed.
  Lemma mentions_known : forall ns k, at_path out ns k -> (forall s, mentioned k (MBare s) -> In s bare_types) /\ (forall p, mentioned k (MLib p) -> In p library_items \/ In p missing_paths).
  Proof.
    intros ns k A. split; intros r Hr; destruct (scope_mention ns k _ A Hr) as (m & m0 & P & _ & _ & _ & _ & _ & K); exact K.
  Qed.
  Lemma mentions_types : traverse_submodules (pe_cfg x) = true -> generate_classes (pe_cfg x) = true -> generate_type_vars (pe_cfg x) = true ->
    forall ns k p, at_path out ns k -> mentioned k (MLocal p) -> type_at out ns (segs p).
  Proof.
    intros O1 O2 O3 ns k p A Hr. destruct (scope_mention ns k _ A Hr) as (m & m0 & P & Hm0 & Hm & -> & HP & -> & [(key & Hk) Hs]).
    destruct (table_types _ _ _ _ _ (po_lt _ _ _ HP) key p Hk) as (q & Hq & Hrel).
    apply all_types_In in Hq as (m1 & k1 & Hm1 & Hk1 & Hq). destruct (module_scope x Ho Hw numpy fuel l c ms out Hl Hc Hf Hout k1 m1 O1 Hm1 Hk1) as (P1 & HP1 & A1).
    assert (I : exists it, has k1 it /\ item_path it = Some q /\ ((exists c, it = AClass c) \/ exists t, it = ATypeVar t)).
    { destruct Hq as [Hq|Hq]; [apply in_map_iff in Hq as (cl & <- & Hcl); exists (AClass cl); split; [exact Hcl|split; [reflexivity|left; now exists cl]]|exists (ATypeVar q); split; [exact Hq|split; [reflexivity|right; now exists q]]]. }
    destruct I as (it & Hit & Ep & Hty).
    destruct (final_located x Ho Hw fuel l c ms Hl Hc Hf m1 k1 it Hm1 Hk1 Hit _ Ep) as (j & Ej). destruct (final_titled x Ho Hw fuel l c ms Hl Hc Hf m1 k1 it Hm1 Hk1 Hit _ Ep) as (n & Hn).
    assert (Ejn : j = ident_from_py U n). { apply (called_ends x q n j Hn). rewrite Ej. now exists (segs (m_name k1)). }
    assert (Aq : absolute q).
    { rewrite Ej. split; [now destruct (rt_name _ (final_rooted x Ho (honest_named _ _ Hw) fuel l c ms Hl Hc Hf m1 k1 Hm1 Hk1))|].
      intros y Hy. cbn in Hy. apply in_app_or in Hy as [Hy|[<-|[]]]; [now apply (scope_names x HU Ho Hw numpy fuel l c ms out Hl Hc Hf Hout _ _ A1)|]. rewrite Ejn. apply from_py_not_path_kw. }
    assert (Am : absolute (m_name m)).
    { split; [now destruct (rt_name _ (final_rooted x Ho (honest_named _ _ Hw) fuel l c ms Hl Hc Hf m0 m Hm0 Hm))|]. intros y Hy. now apply (scope_names x HU Ho Hw numpy fuel l c ms out Hl Hc Hf Hout _ _ A). }
    destruct (relative_to_correct _ _ _ _ Am Aq Hrel) as [_ R].
    exists (segs (m_name k1)), j, (pt_body k1 P1). split; [rewrite R, Ej; reflexivity|]. split; [exact A1|].
    assert (Hkw : path_kw j = false) by (rewrite Ejn; apply from_py_not_path_kw).
    assert (Hj : syn_ident_ok U j = true).
    { rewrite Ej in R. destruct (resolve_In _ _ _ R j) as [K|K]; [cbn; apply in_or_app; right; now left|apply (rust_ident_syn U _ HU); now apply (scope_rust x HU Ho Hw numpy fuel l c ms out Hl Hc Hf Hout _ _ A)|].
      unfold syn_path_ok in Hs. destruct (segs p) as [|s0 r0] eqn:Es; [destruct K|]. rewrite forallb_forall in Hs. specialize (Hs j K). unfold syn_segment_ok, as_rs in Hs.
      apply orb_true_iff in Hs as [Hs|Hs]; [exact Hs|]. exfalso. apply mem_str_In in Hs. revert Hkw. clear - Hs. destruct Hs as [<-|[<-|[<-|[<-|[]]]]]; discriminate. }
    destruct Hty as [(cl & ->)|(t & ->)]; cbn [item_path has] in Ep, Hit; injection Ep as <-.
    - left. destruct (when_In _ _ _ _ (po_classes _ _ _ HP1) O2 cl Hit) as (lc & El & Il). apply (body_incl k1 P1 lc); [auto|]. exact (class_struct _ cl lc _ j El Ej Hj).
    - right. destruct (when_In _ _ _ _ (po_vars _ _ _ HP1) O3 t Hit) as (lv & El & Il). destruct (var_shape _ _ _ El) as (nm & Hnm & _ & ->).
      rewrite Ej in Hnm. apply snoc_path_name in Hnm as ->. apply (body_incl k1 P1 [GPub; GType j]); [auto|]. right. now left.
  Qed.
  Lemma use_import : forall ns m m0 P v s, at_path out ns (pt_body m P) -> In m0 ms -> within m m0 -> ns = segs (m_name m) -> parts_of X m P -> In (GUse v) (pt_body m P) -> Spec_Names.bound_name v = Some s ->
    exists j, In j (m_imports m) /\ ends (im_target j) s.
  Proof.
    intros ns m m0 P v s A Hm0 Hm En HP H Hv. destruct (final_typed x fuel l c ms Ho Hc Hf m0 m Hm0 Hm) as (T1 & T2 & T3).
    destruct (body_frag X m P _ HP T3 H) as [K|[(?&?&?&E&_)|[(v'&E&K)|[(?&?&E&K)|[(?&E&K)|[K|[(?&E&_)|[(?&E&_)|(?&?&E&K)]]]]]]]]; try discriminate;
      try (exfalso; destruct (when_from _ _ _ _ _ (po_classes _ _ _ HP) K) as (_ & d & ld & _ & Hld & Hin'); pose proof (class_shape_frag _ _ _ _ Hld Hin'); discriminate).
    - destruct (when_from _ _ _ _ _ (po_imports _ _ _ HP) K) as (_ & i & lv & Hi & Hlv & Hin). apply filter_In in Hi as [Hi Hex]. apply use_shape in Hlv as [->|(v2 & -> & Hg)]; [easy|].
      destruct Hin as [Hin|[Hin|[]]]; [discriminate|]. injection Hin as ->.
      destruct (final_located x Ho Hw fuel l c ms Hl Hc Hf m0 m (AnImport i) Hm0 Hm Hi _ eq_refl) as (t & Et). destruct (final_titled x Ho Hw fuel l c ms Hl Hc Hf m0 m (AnImport i) Hm0 Hm Hi _ eq_refl) as (tn & Htn).
      assert (Etn : t = ident_from_py U tn). { apply (called_ends x (im_target i) tn t Htn). rewrite Et. now exists (segs (m_name m)). }
      assert (Ta : absolute (im_target i)).
      { rewrite Et. split; [now destruct (rt_name _ (final_rooted x Ho (honest_named _ _ Hw) fuel l c ms Hl Hc Hf m0 m Hm0 Hm))|].
        intros y Hy. cbn in Hy. apply in_app_or in Hy as [Hy|[<-|[]]]; [rewrite <- En in Hy; now apply (scope_names x HU Ho Hw numpy fuel l c ms out Hl Hc Hf Hout _ _ A)|]. rewrite Etn. apply from_py_not_path_kw. }
      destruct (import_generate_correct U i v (found_absolute x Ho Hw fuel l c ms Hl Hc Hf _ Hex) Ta Hg) as (_ & _ & _ & _ & Bn & _). rewrite Hv in Bn. symmetry in Bn. exists i. split; [exact Hi|].
      apply last_opt_split in Bn as (r & Er). now exists r.
  Qed.
  Lemma struct_class : forall m m0 P s, In m0 ms -> within m m0 -> parts_of X m P -> (forall t, ident_from_py U (u "s_" ++ t) <> s) -> In (GStruct s) (pt_body m P) -> exists d, In d (m_classes m) /\ ends (cl_name d) s.
  Proof.
    intros m m0 P s Hm0 Hm HP Hs H. destruct (final_typed x fuel l c ms Ho Hc Hf m0 m Hm0 Hm) as (T1 & T2 & T3).
    destruct (body_frag X m P _ HP T3 H) as [K|[(?&?&?&E&_)|[(v'&E&K)|[(?&?&E&K)|[(?&E&K)|[K|[(?&E&_)|[(?&E&_)|(?&?&E&K)]]]]]]]]; try discriminate.
    destruct (when_from _ _ _ _ _ (po_classes _ _ _ HP) K) as (_ & d & ld & Hd & Hld & Hin). exists d. split; [exact Hd|].
    apply ends_name. unfold class_generate in Hld. apply bind_Ok in Hld as (docs & Hdoc & Hld). apply bind_Ok in Hld as (nm & Hn & Hld). rewrite Hn. f_equal.
    destruct (struct_ident _ nm) as [id|] eqn:Eid; [|injection Hld as <-; destruct Hin].
    apply bind_Ok in Hld as (scope & _ & Hld). apply bind_Ok in Hld as (mm & _ & Hld). apply bind_Ok in Hld as (pp & _ & Hld). apply bind_Ok in Hld as (tid & Htid & Hld). injection Hld as <-.
    assert (E : id = s).
    { apply in_app_or in Hin as [Hin|Hin]; [destruct (doc_only _ _ _ Hdoc _ Hin) as [t E]; discriminate|].
      cbn [app In trait_docs] in Hin. repeat (destruct Hin as [Hin|Hin]; [try discriminate; now injection Hin as ->|]). destruct Hin. }
    subst id. unfold struct_ident in Eid. destruct (syn_ident_ok _ _); [congruence|]. destruct (syn_ident_ok _ _) in Eid; [|discriminate]. injection Eid as Eid. now destruct (Hs _ Eid).
  Qed.
  Lemma hidden_in : forall ns m m0 P s, at_path out ns (pt_body m P) -> In m0 ms -> within m m0 -> ns = segs (m_name m) -> parts_of X m P -> In s given_names -> hides (pt_body m P) s -> in_use m s.
  Proof.
    intros ns m m0 P s A Hm0 Hm En HP Hs Hh.
    destruct (final_typed x fuel l c ms Ho Hc Hf m0 m Hm0 Hm) as (T1 & T2 & T3). pose proof (fun y => body_frag X m P y HP T3) as B.
    assert (Cl : forall y, In y (pt_classes P) -> (y = GStruct s \/ exists b, y = GTrait s b) -> in_use m s).
    { intros y Hy Ey. destruct (when_from _ _ _ _ _ (po_classes _ _ _ HP) Hy) as (_ & d & ld & Hd & Hld & Hin). left. right. exists (AClass d), (cl_name d). split; [exact Hd|]. split; [reflexivity|]. split; [|discriminate].
      apply ends_name. unfold class_generate in Hld. apply bind_Ok in Hld as (docs & Hdoc & Hld). apply bind_Ok in Hld as (nm & Hn & Hld). rewrite Hn. f_equal.
      destruct (struct_ident _ nm) as [id|] eqn:Eid; [|injection Hld as <-; destruct Hin].
      apply bind_Ok in Hld as (scope & _ & Hld). apply bind_Ok in Hld as (mm & _ & Hld). apply bind_Ok in Hld as (pp & _ & Hld). apply bind_Ok in Hld as (tid & Htid & Hld). injection Hld as <-.
      assert (K : id = s \/ tid = s).
      { apply in_app_or in Hin as [Hin|Hin]; [destruct (doc_only _ _ _ Hdoc _ Hin) as [t ->]; destruct Ey as [Ey|(b & Ey)]; discriminate|].
        cbn [app In trait_docs] in Hin. repeat (destruct Hin as [<-|Hin]; [destruct Ey as [Ey|(b & Ey)]; try discriminate; injection Ey; auto|]). destruct Hin. }
      destruct K as [<-|<-].
      - unfold struct_ident in Eid. destruct (syn_ident_ok _ _); [congruence|]. destruct (syn_ident_ok _ _) in Eid; [|discriminate]. injection Eid as Eid. exfalso. exact (bare_prefix _ _ _ Hs Eid).
      - exfalso. unfold ident_to_syn in Htid. destruct (syn_ident_ok _ _) in Htid; [|discriminate]. injection Htid as Htid. exact (bare_suffix _ _ _ Hs Htid). }
    destruct Hh as [H|[H|[(b & H)|[(b & H)|(v & H & Hv)]]]];
      destruct (B _ H) as [K|[(?&?&?&E&_)|[(v'&E&K)|[(?&?&E&K)|[(?&E&K)|[K|[(?&E&_)|[(?&E&_)|(?&?&E&K)]]]]]]]]; try discriminate;
      try (exfalso; destruct (when_from _ _ _ _ _ (po_classes _ _ _ HP) K) as (_ & d & ld & _ & Hld & Hin'); pose proof (class_shape_frag _ _ _ _ Hld Hin'); discriminate).
    - apply (Cl _ K). now left.
    - destruct (when_from _ _ _ _ _ (po_vars _ _ _ HP) K) as (_ & t & lv & Ht & Hlv & Hin). destruct (var_shape _ _ _ Hlv) as (nm & Hnm & _ & ->). destruct Hin as [Hin|[Hin|[]]]; [discriminate|]. injection Hin as ->.
      left. right. exists (ATypeVar t), t. split; [exact Ht|]. split; [reflexivity|]. split; [now apply ends_name|discriminate].
    - exfalso. destruct (prelude_parts x HU Ho Hw numpy fuel l c ms Hl Hc Hf m m0 P Hm0 Hm HP) as [E0|(_ & cc & ex & jj & E0 & _ & _ & Ecc & _)]; rewrite E0 in K; [destruct K|].
      destruct K as [K|[K|[]]]; [discriminate|]. injection K as K _. rewrite K in Ecc. clear - Hs Ecc. unfold numbered in Ecc. destruct Hs as [<-|[<-|[<-|[<-|[<-|[<-|[<-|[<-|[]]]]]]]]]; discriminate.
    - injection E as <- <-. destruct (when_from _ _ _ _ _ (po_subs _ _ _ HP) K) as (_ & t & lt & Ht & Hlt & Hin). destruct (generated_mods _ _ _ _ _ Hlt Hin) as (P' & _ & Hn & _ & _).
      left. left. exists t. split; [exact Ht|now apply ends_name].
    - apply (Cl _ K). right. now exists b.
    - right. exact (use_import ns m m0 P v s A Hm0 Hm En HP H Hv).
  Qed.
  Lemma bare_hidden : forall ns k s, at_path out ns k -> mentioned k (MBare s) -> hides k s -> exists m m0, In m0 ms /\ within m m0 /\ ns = segs (m_name m) /\ in_use m s.
  Proof.
    intros ns k s A Hr Hh. destruct (scope_mention ns k _ A Hr) as (m & m0 & P & Hm0 & Hm & En & HP & -> & Hs). cbn [mention_ok] in Hs. exists m, m0. repeat (split; [assumption|]).
    exact (hidden_in ns m m0 P s A Hm0 Hm En HP (or_intror (or_intror Hs)) Hh).
  Qed.
End output.
