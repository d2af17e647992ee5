(** * Lemmas: what the generated functions act on (C65) *)
From Coq Require Import Permutation.
From Verif Require Import Base Model_Ident Model_Path Model_Import Model_Text Model_Config Model_Type Model_IntoRs Model_World Model_Out
  Model_Function Model_Property Model_Class Model_Module Model_Parse Model_Codegen Spec_Path Spec_Names Spec_Call Spec_Items Spec_Tree Spec_Api Spec_Safe Spec_Out Spec_Privacy Spec_Prop Spec_Attr Spec_Doc Spec_Full Spec_Acts
  Proof_Base Proof_Ident Proof_Path Proof_Text Proof_IntoRs Proof_Call Proof_Function Proof_Fresh Proof_Method Proof_Kind Proof_Items Proof_Module
  Proof_Parse Proof_Forest Proof_Err Proof_Api Proof_Honest Proof_Calm Proof_Rooted Proof_Parts Proof_Property Proof_Scope Proof_Deps Proof_Attr Proof_Shown Proof_Use Proof_Doc Proof_Full Proof_Clash.

(** ** Parsing *)
Lemma fn_parse_any_name : forall e o n n' t f, (t = FFunction \/ t = FClosure) -> fn_parse e o n t = Ok f ->
  fn_parse e o n' t = Ok (mk_func n' (fn_typ f) (fn_params f) (fn_ret f) (fn_doc f)).
Proof.
  intros e o n n' t f Ht H. unfold fn_parse in *. apply bind_Ok in H as (doc & Hd & H). rewrite Hd. cbn [obind].
  destruct (w_signature _ o) as [sg|]; [|injection H as <-; reflexivity].
  apply bind_Ok in H as (ps0 & H0 & H). rewrite H0. cbn [obind]. apply bind_Ok in H as (ret & H1 & H). rewrite H1. cbn [obind].
  apply bind_Ok in H as (t1 & H2 & H). destruct Ht as [-> | ->]; cbn [infer_storage] in *; injection H2 as <-; cbn [obind];
    (destruct (infer_self _ _) as [t2 ps2] eqn:E2); (assert (E3 : t2 = FFunction \/ t2 = FClosure) by
      (unfold infer_self in E2; destruct (filter _ ps0) as [|q r]; [injection E2 as <- _; auto|]; destruct (first_is_self _); [destruct (p_kind q)|]; injection E2 as <- _; auto));
    destruct E3 as [-> | ->]; cbn [fix_empty drop_receiver obind] in *; injection H as <-; reflexivity.
Qed.
Lemma method_typ : forall e o n cp k f, fn_parse e o n (FMethod cp k) = Ok f ->
  (exists k', fn_typ f = FMethod cp k') \/ (fn_typ f = FMethod n MStatic /\ fn_params f = []).
Proof.
  intros e o n cp k f H. unfold fn_parse in H. apply bind_Ok in H as (doc & Hd & H).
  destruct (w_signature _ o) as [sg|]; [|injection H as <-; left; now exists k].
  apply bind_Ok in H as (ps0 & _ & H). apply bind_Ok in H as (ret & _ & H). apply bind_Ok in H as (t1 & H1 & H).
  assert (E1 : exists k1, t1 = FMethod cp k1).
  { unfold infer_storage in H1. destruct k; try (injection H1 as <-; eauto).
    apply bind_Ok in H1 as (root & _ & H1). destruct (w_import _ _); [|injection H1 as <-; eauto]. apply bind_Ok in H1 as (nm & _ & H1). injection H1 as <-. eauto. }
  destruct E1 as (k1 & ->). destruct (infer_self _ _) as [t2 ps2] eqn:E2.
  assert (E3 : exists k2, t2 = FMethod cp k2) by (unfold infer_self in E2; destruct k1; try (injection E2 as <- _; eauto); destruct (first_is_self _); injection E2 as <- _; eauto).
  destruct E3 as (k2 & ->). apply bind_Ok in H as (ps3 & H3 & H). injection H as <-. cbn [fn_typ fn_params].
  unfold fix_empty in *. destruct k2; eauto. destruct ps2 as [|q ps2]; eauto. right. split; [reflexivity|]. cbn in H3. now injection H3 as <-.
Qed.
Lemma prop_parse_any_name : forall e o n n' t p, prop_parse e o n t = Ok p ->
  prop_parse e o n' t = Ok (mk_property n' (pr_owner p) (pr_mutable p) (pr_ann p) (pr_setter_ann p) (pr_doc p) (pr_setter_doc p)).
Proof.
  intros e o n n' t p H. destruct t; cbn [prop_parse] in *.
  - apply bind_Ok in H as (ty & Hty & H). injection H as <-. now rewrite Hty.
  - apply bind_Ok in H as ([gt gd] & Hg & H). rewrite Hg. cbn [obind]. apply bind_Ok in H as (s & Hs & H). rewrite Hs. cbn [obind].
    destruct s as [[sa sd]|]; injection H as <-; reflexivity.
Qed.

(** The members of a class, with their full paths *)
Definition class_attrs (x : penv) (o : oid) (name : path) (c : class) : Prop :=
  (forall f, In f (cl_methods c) -> exists i b, attribute_of (pe_uni x) (pe_world x) o i b /\ fn_name f = path_snoc name i /\
     fn_parse (pe_env x) b (path_snoc name i) (FMethod name (method_kind i)) = Ok f) /\
  (forall p, In p (cl_props c) -> exists i b, attribute_of (pe_uni x) (pe_world x) o i b /\ pr_name p = path_snoc name i /\ pr_owner p = OwnerClass /\
     prop_parse (pe_env x) b (path_snoc name i) OwnerClass = Ok p).
Lemma class_attrs_ok : forall x o name c, class_parse (pe_env x) (pe_cfg x) o name = Ok c -> class_attrs x o name c.
Proof.
  intros x o name c H. unfold class_parse in H. apply bind_Ok in H as ([ms ps] & H1 & H). apply bind_Ok in H as (doc & _ & H). injection H as <-.
  set (P := fun st : list func * list property => class_attrs x o name (mk_class name (fst st) (snd st) doc)).
  change (P (ms, ps)). refine (each_attr_inv P _ _ _ _ _ _ _ _ _ H1); [|split; intros ? []].
  intros [ms0 ps0] a [ms1 ps1] s Hin Hr Ha [P1 P2] Hs. apply read_attr_inv in Hr as (En & Eg & _). cbn [fst snd cl_methods cl_props] in *.
  assert (A : attribute_of (pe_uni x) (pe_world x) o (at_name a) (at_obj a)).
  { exists s. split; [now apply unique_names_In in Hin|]. split; assumption. }
  unfold class_step in Hs. apply bind_Ok in Hs as (v & _ & Hs). cbn [fst snd] in *. unfold P, class_attrs. cbn [fst snd cl_methods cl_props].
  destruct v; try (injection Hs as <- <-; split; assumption); apply bind_Ok in Hs as (y & Hy & Hs); injection Hs as <- <-; split; intros z Hz; auto;
    apply in_app_or in Hz as [Hz|[<-|[]]]; auto.
  - pose proof Hy as E. apply fn_parse_typed in E as [E _]. exists (at_name a), (at_obj a). auto.
  - pose proof Hy as E. apply fn_parse_typed in E as [E _]. exists (at_name a), (at_obj a). auto.
  - pose proof Hy as E. apply prop_parse_typed in E as (E & Eo & _). exists (at_name a), (at_obj a). auto.
Qed.

(** ** Where items come from *)
Definition origin_item (x : penv) (it : item) : Prop :=
  let U := pe_uni x in
  let w := pe_world x in
  let e := pe_env x in
  match it with
  | AnExport _ | ATypeVar _ => True
  | AnImport i => forall a, stands U w (im_origin i) a -> stands U w (im_target i) a
  | AClass c => exists a o i d, is_module w o /\ attribute_of U w o i a /\ class_parse e (pe_cfg x) a (path_snoc (path_from_py U (w_name w o)) i) = Ok d /\
      c = mk_class (cl_name c) (cl_methods d) (cl_props d) (cl_doc d) /\ stands U w (cl_name c) a
  | AFunction f => exists a t, (t = FFunction \/ t = FClosure) /\ fn_parse e a (fn_name f) t = Ok f /\ stands U w (fn_name f) a
  | AProperty p => exists a, prop_parse e a (pr_name p) OwnerModule = Ok p /\ stands U w (pr_name p) a
  end.
Lemma parsed_origin : forall x fuel o m k it, named_world (pe_world x) -> is_module (pe_world x) o -> mod_parse x fuel o = Ok m -> within k m -> has k it -> origin_item x it.
Proof.
  intros x fuel o m k it Hw Hmo Hm Hk Hit. refine (parsed_items x (proj2 Hw) (origin_item x) _ _ _ fuel o m Hmo Hm k it Hk Hit).
  - intros i. exact I.
  - intros o' name a it' Ho' Hn (s & Hs & Hra & _) Hr. apply read_attr_inv in Hra as (En & Eg & Em).
    assert (A : attribute_of (pe_uni x) (pe_world x) o' (at_name a) (at_obj a)) by (exists s; auto).
    unfold module_path in Hn. apply chk_path in Hn. subst name.
    pose proof (stands_attr (pe_uni x) (pe_world x) o' (at_name a) (at_obj a) Ho' A) as St.
    pose proof (fun b => stands_import (pe_uni x) (pe_world x) o' (at_name a) (at_obj a) b Ho' A) as Si.
    destruct it' as [i|i|c|p|f|p]; cbn [reads] in Hr; cbn [origin_item]; [exact I|..].
    + destruct Hr as [_ Hi]. apply read_import_cases in Hi; [|exact Em]. destruct Hi as (H1 & H2 & _). rewrite H1, H2. exact Si.
    + destruct Hr as [_ Hc]. pose proof Hc as E. apply class_parse_typed in E as [E _]. exists (at_obj a), o', (at_name a), c. rewrite E.
      split; [exact Ho'|]. split; [exact A|]. split; [exact Hc|]. split; [rewrite <- E; now destruct c|exact St].
    + exact I.
    + assert (Q : exists t, (t = FFunction \/ t = FClosure) /\ fn_parse (pe_env x) (at_obj a) (path_snoc (path_from_py (pe_uni x) (w_name (pe_world x) o')) (at_name a)) t = Ok f) by (destruct Hr as [[_ Hf]|[_ Hf]]; eauto).
      destruct Q as (t & Ht & Hf). pose proof Hf as E. apply fn_parse_typed in E as [E _]. exists (at_obj a), t. rewrite E. auto.
    + destruct Hr as [_ Hp]. pose proof Hp as E. apply prop_parse_typed in E as [E _]. exists (at_obj a). rewrite E. auto.
  - intros o' name c i it0 it' _ _ Hc Ht H0 Hmv. cbn [origin_item] in Hc.
    destruct it0 as [y|y|y|y|y|y], it' as [z|z|z|z|z|z]; cbn [moved] in Hmv; try contradiction; cbn [origin_item] in *; try destruct Hmv as [E Hmv]; try subst z; cbn [im_target im_origin cl_name fn_name pr_name]; auto.
    + intros a Ha. apply Hc. rewrite <- E. now apply H0.
    + destruct H0 as (a & o1 & i1 & d & H1 & H2 & H3 & H4 & H5). exists a, o1, i1, d. split; [exact H1|]. split; [exact H2|]. split; [exact H3|].
      split; [rewrite H4; reflexivity|]. apply Hc. now rewrite <- E.
    + destruct H0 as (a & t & H1 & H2 & H3). exists a, t. split; [exact H1|]. split; [|apply Hc; now rewrite <- E]. now apply (fn_parse_any_name _ _ (fn_name y)).
    + destruct H0 as (a & H1 & H2). exists a. split; [|apply Hc; now rewrite <- E]. now apply (prop_parse_any_name _ _ (pr_name y)).
Qed.
Lemma final_origin : forall x fuel l c ms, order_ok (pe_ord x) -> honest (pe_uni x) (pe_world x) -> asked_modules (pe_world x) l -> asks x fuel l cg_new = Ok c ->
  final_modules x fuel c = Ok ms -> forall m k it, In m ms -> within k m -> has k it -> origin_item x it.
Proof.
  intros x fuel l c ms Ho Hw Hl Hc Hf m k it Hm Hk Hit. refine (final_module_items x Ho (honest_named _ _ Hw) fuel l c ms Hl Hc Hf (origin_item x) _ m k it Hm Hk Hit).
  intros o m0 k0 it0 Hmo Hp Hk0 Hh. apply (parsed_origin x fuel o m0 k0 it0); auto. now apply (honest_named (pe_uni x)).
Qed.

(** ** Lookups *)
Definition knows (w : world) (s : str) : bool := match w_import w s with Some _ => true | None => false end.
Lemma module_finds : forall w p L o, no_super (segs p) -> import_quote (knows w) p = Ok L -> bound_in_parent w (map as_py (segs p)) o -> finds w L o.
Proof.
  intros w p L o Hs H [B1 B2]. apply import_quote_spec in H as (k & Hk & E1 & E2 & Hor & Hlong & _). unfold finds. rewrite E1, E2.
  assert (T : forall j, to_py (path_of_segs (firstn j (segs p))) = join [c_dot] (map as_py (firstn j (segs p)))).
  { intros j. rewrite to_py_no_super; [reflexivity|]. intros s Hin. apply Hs. cbn in Hin. rewrite <- (firstn_skipn j (segs p)). apply in_or_app. now left. }
  rewrite T. destruct (Nat.eq_dec (length (segs p)) 1) as [El|El].
  - assert (k = length (segs p)) as -> by lia. rewrite firstn_all, skipn_all. exists o. split; [exact B1|constructor].
  - destruct (exists_last (l := segs p)) as (q & s & E); [destruct (segs p); [cbn in Hk; lia|easy]|].
    assert (Lq : length (segs p) = S (length q)) by (rewrite E, app_length; cbn; lia).
    destruct (B2 (map as_py q) (as_py s)) as (m & Hm & Hg); [now rewrite E, map_app|destruct q; [cbn in Lq; lia|easy]|].
    assert (k = length q) as ->.
    { destruct Hor as [Hlt|]; [|lia]. destruct (Nat.eq_dec k (length q)); [easy|]. assert (K : length q < length (segs p)) by lia. specialize (Hlong (length q)).
      rewrite T, E, firstn_app, firstn_all, Nat.sub_diag in Hlong. cbn in Hlong. rewrite app_nil_r in Hlong. unfold knows in Hlong. rewrite Hm in Hlong.
      rewrite app_length in Hlong. cbn in Hlong. discriminate Hlong. lia. }
    rewrite E, firstn_app, firstn_all, skipn_app, skipn_all, Nat.sub_diag. cbn [firstn skipn app map]. rewrite app_nil_r.
    exists m. split; [exact Hm|]. econstructor; [exact Hg|constructor].
Qed.
Lemma class_finds : forall w p i L o a, no_super (segs p) -> segs p <> [] -> import_quote (knows w) (path_snoc p i) = Ok L ->
  w_import w (join [c_dot] (map as_py (segs p))) = Some o -> w_getattr w o (as_py i) = Some a -> finds w L a.
Proof.
  intros w p i L o a Hs Hne H Hi Hg. apply import_quote_spec in H as (k & Hk & E1 & E2 & Hor & Hlong & _). unfold finds. rewrite E1, E2.
  cbn [path_snoc segs] in *. rewrite app_length in *. cbn [length] in *.
  assert (T : to_py (path_of_segs (firstn (length (segs p)) (segs p ++ [i]))) = join [c_dot] (map as_py (segs p))).
  { rewrite firstn_app, firstn_all, Nat.sub_diag. cbn [firstn]. rewrite app_nil_r. rewrite to_py_no_super; [reflexivity|]. exact Hs. }
  assert (k = length (segs p)) as ->.
  { destruct (segs p) as [|z q] eqn:Ep; [easy|]. rewrite <- Ep in *. assert (Hl : 1 <= length (segs p)) by (rewrite Ep; cbn; lia).
    destruct (Nat.eq_dec k (length (segs p))); [easy|]. specialize (Hlong (length (segs p))). rewrite T in Hlong. unfold knows in Hlong. rewrite Hi in Hlong. discriminate Hlong. lia. }
  rewrite T, skipn_app, skipn_all, Nat.sub_diag. cbn [skipn app map]. exists o. split; [exact Hi|]. econstructor; [exact Hg|constructor].
Qed.

(** ** Functions *)
Lemma fn_def_shape : forall g scope f impl d i p, uni_ok (g_uni g) -> fn_generate g scope f = Ok impl -> In (GFn d) (frags_of impl) -> fn_name f = path_snoc p i ->
  (fn_params f = [] -> k_params (f_contract d) = []) /\ k_self (f_contract d) = is_bound (fn_typ f) /\
  match fn_typ f with
  | FMethod _ MConstructor => (exists a, f_body d = BCall a) /\ (exists s, k_name (f_contract d) = u "new" ++ s) /\ k_ret (f_contract d) = RetSelf
  | FMethod _ MCallable => (exists a, f_body d = BCall a) /\ exists s, k_name (f_contract d) = u "call" ++ s
  | _ => (exists a, f_body d = BCallMethod (as_py i) a) /\ spelled_as (g_uni g) (u "f_") i (k_name (f_contract d))
  end.
Proof.
  intros g scope f impl d i p HU H Hin En.
  destruct (fn_generate_inv _ _ _ _ _ H Hin) as (name & id & preps & tys & rt & pb & dd & pos & kw & Hname & Hid & _ & _ & _ & _ & Hk & _ & _ & _ & _ & _ & _ & Hb).
  rewrite En in Hname. apply snoc_path_name in Hname as ->.
  assert (Sp : spelled_as (g_uni g) (u "f_") i id).
  { intros n -> Hn. now apply fn_spelled. }
  unfold gen_contract in Hk. destruct (fn_typ f) as [|cp k|].
  - injection Hk as _ E. rewrite <- E. cbn [k_params k_self k_name is_bound]. split; [intros Ep; now rewrite Ep|]. split; [reflexivity|]. split; [eauto|exact Sp].
  - destruct k; try (injection Hk as _ E; rewrite <- E; cbn [k_params k_self k_name is_bound]; split; [intros Ep; now rewrite Ep|]; split; [reflexivity|]; split; [eauto|exact Sp]);
      apply bind_Ok in Hk as (cn & Hc & Hk); apply bind_Ok in Hk as (n & Hn & Hk); injection Hk as _ E; rewrite <- E; cbn [k_params k_self k_name k_ret is_bound];
      (split; [intros Ep; now rewrite Ep|]); (split; [reflexivity|]); (split; [eauto|]); apply to_syn_ident in Hn as [-> _].
    + destruct (fresh_named _ _ _ _ HU (or_intror eq_refl) Hc) as [s ->]. split; [now exists s|reflexivity].
    + destruct (fresh_named _ _ _ _ HU (or_introl eq_refl) Hc) as [s ->]. now exists s.
  - injection Hk as _ E. rewrite <- E. cbn [k_params k_self k_name is_bound]. split; [intros Ep; now rewrite Ep|]. split; [reflexivity|]. split; [eauto|exact Sp].
Qed.
Lemma fn_passes : forall x g scope b n t f impl d, uni_ok (pe_uni x) -> fn_parse (pe_env x) b n t = Ok f -> has_receiver (fn_typ f) = false ->
  fn_generate g scope f = Ok impl -> In (GFn d) (frags_of impl) -> passes x b d.
Proof.
  intros x g scope b n t f impl d HU Hp Hr Hg Hin V sg s l H1 H2 H3 H4 H5 H6 H7 H8 H9.
  exact (function_binds (pe_env x) b n t sg s f g scope impl d l HU H1 H2 H3 H4 H5 H6 H7 H8 Hp Hr Hg Hin H9).
Qed.
Lemma fn_passes_bound : forall x g scope b n t f impl d, uni_ok (pe_uni x) -> fn_parse (pe_env x) b n t = Ok f -> has_receiver (fn_typ f) = true ->
  fn_generate g scope f = Ok impl -> In (GFn d) (frags_of impl) -> passes_bound x b d.
Proof.
  intros x g scope b n t f impl d HU Hp Hr Hg Hin V sg r s v l H1 H2 H3 H4 H5 H6 H7 H8 H9.
  exact (method_binds (pe_env x) b n t sg r s f g scope impl d v l HU H1 H2 H3 H4 H5 H6 H7 H8 Hp Hr Hg Hin H9).
Qed.

(** ** Accessors *)
Lemma prefixed_shape : forall U scope pre n id, prefixed_ident U scope pre n = Ok (Some id) -> id = ident_from_py U (u pre ++ as_py n).
Proof.
  intros U scope pre n id H. unfold prefixed_ident in H. destruct (name_taken _ _); [discriminate|]. destruct (ident_to_syn _ _) as [z| | |] eqn:Ez; try discriminate.
  injection H as <-. now apply to_syn_ident in Ez as [-> _].
Qed.
Lemma prop_def_shape : forall g scope p i d q j, prop_generate g scope p = Ok i -> In (GFn d) (frags_of i) -> pr_name p = path_snoc q j ->
  prop_disp g p = Ok (f_disp d) /\ k_self (f_contract d) = owner_is_class (pr_owner p) /\ is_call d = false /\ uses_attr (g_uni g) d j.
Proof.
  intros g scope p i d q j H Hin En. unfold prop_generate in H. apply bind_Ok in H as ([gt gi] & Hg & H). apply bind_Ok in H as ([st si] & Hs & H).
  assert (G : In (GFn d) gi -> prop_disp g p = Ok (f_disp d) /\ k_self (f_contract d) = owner_is_class (pr_owner p) /\ is_call d = false /\ uses_attr (g_uni g) d j).
  { intros K. apply getter_shape in Hg as (nm & id & Hn & Hid & Hg). destruct id as [id|]; [|now destruct Hg as [_ ->]].
    destruct Hg as (docs & d' & ty & Hd & Hk & Hb & _ & _ & _ & Hself & Hdisp & _ & ->). apply in_app_or in K as [K|[K|[]]]; [destruct (doc_only _ _ _ Hd _ K); discriminate|].
    injection K as ->. rewrite En in Hn. apply snoc_path_name in Hn as ->. split; [exact Hdisp|]. split; [exact Hself|]. unfold is_call, uses_attr. rewrite Hb. split; [reflexivity|].
    split; [reflexivity|]. rewrite Hk. unfold getter_ident in Hid. destruct (_ && _); [injection Hid as <-; now left|]. right. now apply prefixed_shape in Hid. }
  assert (S : pr_mutable p = true -> In (GFn d) si -> prop_disp g p = Ok (f_disp d) /\ k_self (f_contract d) = owner_is_class (pr_owner p) /\ is_call d = false /\ uses_attr (g_uni g) d j).
  { intros Em K. rewrite Em in Hs. apply setter_shape in Hs as (nm & id & Hn & Hid & Hs). destruct id as [id|]; [|now destruct Hs as [_ ->]].
    destruct Hs as (docs & d' & ty & Hd & Hk & Hb & _ & Hpar & _ & Hself & Hdisp & _ & ->). apply in_app_or in K as [K|[K|[]]]; [destruct (doc_only _ _ _ Hd _ K); discriminate|].
    injection K as ->. rewrite En in Hn. apply snoc_path_name in Hn as ->. split; [exact Hdisp|]. split; [exact Hself|]. unfold is_call, uses_attr. rewrite Hb. split; [reflexivity|].
    split; [reflexivity|]. split; [rewrite Hk; now apply prefixed_shape in Hid|]. now rewrite Hpar. }
  destruct (pr_mutable p).
  - destruct (pr_owner p); injection H as <-; cbn [frags_of] in Hin.
    + destruct Hin as [Hin|Hin]; [discriminate|]. apply in_app_or in Hin as [Hin|[Hin|Hin]]; auto. discriminate.
    + apply in_app_or in Hin as [Hin|Hin]; auto.
  - injection Hs as <- <-. destruct (pr_owner p); injection H as <-; cbn [frags_of] in Hin.
    + destruct Hin as [Hin|Hin]; [discriminate|]. apply in_app_or in Hin as [Hin|[]]; auto.
    + apply in_app_or in Hin as [Hin|[]]; auto.
Qed.

(** ** Modules *)
Lemma path_snoc_inj : forall p q i j, path_snoc p i = path_snoc q j -> p = q /\ i = j.
Proof. intros [a l] [b k] i j H. unfold path_snoc in H. cbn in H. injection H as -> H. apply app_inj_tail in H as [-> ->]. now split. Qed.
Lemma snoc_parent : forall p i, segs p <> [] -> path_parent (path_snoc p i) = Some p.
Proof.
  intros [a l] i H. unfold path_parent. cbn [path_snoc segs leading_colon] in *. destruct l as [|y l]; [easy|]. cbn [app].
  destruct (l ++ [i]) as [|z r] eqn:E; [now destruct l|]. rewrite <- E. change (y :: l ++ [i]) with ((y :: l) ++ [i]). now rewrite removelast_last.
Qed.
Lemma stands_in : forall U w p i a, stands U w (path_snoc p i) a ->
  exists o b, is_module w o /\ path_from_py U (w_name w o) = p /\ attribute_of U w o i b /\ comes_from U w i b a.
Proof.
  intros U w p i a H. remember (path_snoc p i) as q eqn:E. destruct H as [o j a Ho Ha|o j b a Ho Ha Hs]; apply path_snoc_inj in E as [E ->].
  - exists o, a. repeat split; auto. now left.
  - exists o, b. repeat split; auto. now right.
Qed.

(** The claims hold of everything that is parsed and written. *)
Record kept (D : duties) (x : penv) (numpy : bool) : Prop := mk_kept {
  ke_fn : forall g scope b n t f impl d, cx_numpy (g_cx g) = numpy -> fn_parse (pe_env x) b n t = Ok f -> has_receiver (fn_typ f) = false ->
    fn_generate g scope f = Ok impl -> In (GFn d) (frags_of impl) -> du_fn D b d;
  ke_bound : forall g scope b n t f impl d, cx_numpy (g_cx g) = numpy -> fn_parse (pe_env x) b n t = Ok f -> has_receiver (fn_typ f) = true ->
    fn_generate g scope f = Ok impl -> In (GFn d) (frags_of impl) -> du_bound D b d;
  ke_var : forall g scope b n p impl d, cx_numpy (g_cx g) = numpy -> prop_parse (pe_env x) b n OwnerModule = Ok p ->
    prop_generate g scope p = Ok impl -> In (GFn d) (frags_of impl) -> du_var D b d;
  ke_prop : forall g scope b n p impl d, cx_numpy (g_cx g) = numpy -> prop_parse (pe_env x) b n OwnerClass = Ok p ->
    prop_generate g scope p = Ok impl -> In (GFn d) (frags_of impl) -> du_prop D b d }.
Lemma kept_passing : forall x numpy, uni_ok (pe_uni x) -> kept (passing x) x numpy.
Proof.
  intros x numpy HU. constructor; cbn [passing du_fn du_bound du_var du_prop]; intros; [| |exact I|exact I].
  - now apply (fn_passes x g scope b n t f impl d).
  - now apply (fn_passes_bound x g scope b n t f impl d).
Qed.

(** ** Classes *)
Lemma member_from : forall (Q : bool -> frag -> Prop) is m y, In y (mb_struct (fold_left add_member is m)) \/ In y (mb_impls (fold_left add_member is m)) ->
  (In y (mb_struct m) -> Q true y) -> (In y (mb_impls m) -> Q false y) ->
  (forall l, In (IFunction l) is -> In y l -> Q true y) -> (forall t l, In (IMethod t l) is -> In y l -> Q false y) ->
  (In y (mb_struct (fold_left add_member is m)) -> Q true y) /\ (In y (mb_impls (fold_left add_member is m)) -> Q false y).
Proof.
  intros Q. induction is as [|i is IH]; intros m y Hy H1 H2 H3 H4; [now split|]. cbn [fold_left] in *.
  apply IH; auto; try (intros l Hl; apply H3; now right); try (intros t l Hl; apply (H4 t); now right); destruct i as [l|t l]; cbn [add_member mb_struct mb_impls] in *; auto;
    intros K; apply in_app_or in K as [K|K]; auto; [apply (H3 l)|apply (H4 t l)]; auto; now left.
Qed.
Section class.
  Variables (D : duties) (x : penv) (numpy : bool) (g : gctx).
  Hypothesis HD : kept D x numpy.
  Let U := pe_uni x.
  Let w := pe_world x.
  Hypothesis HU : uni_ok U.
  Hypothesis Hw : honest U w.
  Hypothesis EU : g_uni g = U.
  Hypothesis EN : cx_numpy (g_cx g) = numpy.
  Hypothesis Ei : g_imp g = knows w.

  Lemma method_named : forall j k, method_kind j = k -> (k = MConstructor -> as_py j = u "__init__") /\ (k = MCallable -> as_py j = u "__call__").
  Proof.
    intros j k <-. unfold method_kind. destruct (str_eqb (as_py j) (u "__init__")) eqn:E; [apply str_eqb_eq in E; split; [auto|discriminate]|].
    destruct (str_eqb (as_py j) (u "__call__")) eqn:E1; [apply str_eqb_eq in E1; split; [discriminate|auto]|split; discriminate].
  Qed.
  Lemma at_class : forall o i a L, is_module w o -> attribute_of U w o i a -> import_quote (g_imp g) (path_snoc (path_from_py U (w_name w o)) i) = Ok L ->
    let cls := segs (path_snoc (path_from_py U (w_name w o)) i) in
    (no_super cls -> spells L (map as_py cls)) /\ (w_import w (w_name w o) = Some o -> finds w L a).
  Proof.
    intros o i a L Ho (s & _ & _ & Ha) HL. cbn zeta. split; [intros Ns; now apply (import_quote_denotes (g_imp g))|].
    intros Hi. rewrite Ei in HL. destruct (hn_name _ _ Hw o Ho) as (l & Hne & Hl & El).
    assert (Es : segs (path_from_py U (w_name w o)) = map (ident_from_py U) l) by (rewrite El, named_segs; [reflexivity|]; intros t Ht; apply (Hl t Ht)).
    assert (Em : map as_py (segs (path_from_py U (w_name w o))) = l).
    { rewrite Es, map_map. rewrite <- (map_id l) at 2. apply map_ext_in. intros t Ht. apply as_py_from_py. apply (Hl t Ht). }
    apply (class_finds w (path_from_py U (w_name w o)) i L o a); [|rewrite Es; now destruct l|exact HL|now rewrite Em, <- El|exact Ha].
    intros t Ht. rewrite Es in Ht. apply in_map_iff in Ht as (v & <- & Hv). destruct (Hl v Hv) as [Hc Hs]. rewrite as_py_from_py by apply Hc. exact Hs.
  Qed.
  Lemma method_acts : forall scope o i a f impl j b d, is_module w o -> attribute_of U w o i a -> attribute_of U w a j b ->
    let name := path_snoc (path_from_py U (w_name w o)) i in
    fn_name f = path_snoc name j -> fn_parse (pe_env x) b (path_snoc name j) (FMethod name (method_kind j)) = Ok f ->
    fn_generate g scope f = Ok impl -> In (GFn d) (frags_of impl) ->
    match impl with IFunction _ => class_acts D x a d | IMethod _ _ => object_acts D x a d end.
  Proof.
    intros scope o i a f impl j b d Ho Ha Hb name En Hp Hg Hin.
    assert (HU' : uni_ok (g_uni g)) by now rewrite EU.
    destruct (fn_def_shape _ _ _ _ _ _ _ HU' Hg Hin En) as (Hpar & Hself & Hsh). rewrite EU in Hsh.
    assert (Et : exists cp k, fn_typ f = FMethod cp k /\ (cp = name \/ (cp = path_snoc name j /\ k = MStatic /\ fn_params f = []))).
    { destruct (method_typ _ _ _ _ _ _ Hp) as [(k & E)|[E1 E2]]; [exists name, k; auto|]. exists (path_snoc name j), MStatic. auto. }
    destruct Et as (cp & k & Et & Hcp).
    assert (Hi : match impl with IFunction _ => is_bound (fn_typ f) = false | IMethod _ _ => is_bound (fn_typ f) = true end).
    { clear - Hg Hin. unfold fn_generate in Hg. apply bind_Ok in Hg as (docs & _ & H). apply bind_Ok in H as (nm & _ & H). destruct (fn_ident _ nm); [|injection H as <-; easy].
      apply bind_Ok in H as (ids & _ & H). apply bind_Ok in H as (preps & _ & H). apply bind_Ok in H as (tys & _ & H). apply bind_Ok in H as (rt & _ & H).
      apply bind_Ok in H as ([pb kk] & _ & H). apply bind_Ok in H as (od & _ & H). destruct od; [|injection H as <-; easy].
      apply bind_Ok in H as (pos & _ & H). apply bind_Ok in H as (kw & _ & H). destruct (is_bound (fn_typ f)); injection H as <-; reflexivity. }
    assert (Ks : k = MConstructor -> as_py j = u "__init__").
    { intros ->. refine (proj1 (method_named j _ eq_refl) _). now apply (fn_parse_kind _ _ _ _ _ _ _ _ Hp Et (or_introl eq_refl)). }
    assert (Kc : k = MCallable -> as_py j = u "__call__").
    { intros ->. refine (proj2 (method_named j _ eq_refl) _). now apply (fn_parse_kind _ _ _ _ _ _ _ _ Hp Et (or_intror eq_refl)). }
    rewrite Et in Hself, Hsh, Hi. destruct impl as [l|t l].
    - (* on the class *)
      destruct k; try discriminate Hi.
      + destruct (class_dispatch _ _ _ _ _ _ _ Et (or_introl eq_refl) Hg Hin) as (L & n & Hd & HL & _).
        exists o, i, j, b, L. fold U w. split; [exact Ho|]. split; [exact Ha|]. split; [exact Hb|]. split; [exact Hd|]. split; [exact Hself|]. destruct Hsh as [(ar & Hbody) Hsp].
        unfold uses_attr, is_call. rewrite Hbody. split; [split; [reflexivity|exact Hsp]|]. split; [reflexivity|]. split; [apply (ke_fn _ _ _ HD g scope b _ _ f (IFunction l) d EN Hp); [now rewrite Et|exact Hg|exact Hin]|].
        destruct Hcp as [->|(_ & E & _)]; [|discriminate]. left. now apply at_class.
      + destruct (class_dispatch _ _ _ _ _ _ _ Et (or_intror (or_introl eq_refl)) Hg Hin) as (L & n & Hd & HL & _).
        exists o, i, j, b, L. fold U w. split; [exact Ho|]. split; [exact Ha|]. split; [exact Hb|]. split; [exact Hd|]. split; [exact Hself|]. destruct Hsh as [(ar & Hbody) Hsp].
        unfold uses_attr, is_call. rewrite Hbody. split; [split; [reflexivity|exact Hsp]|]. split; [reflexivity|]. split; [apply (ke_fn _ _ _ HD g scope b _ _ f (IFunction l) d EN Hp); [now rewrite Et|exact Hg|exact Hin]|].
        destruct Hcp as [->|(-> & _ & Epar)]; [left; now apply at_class|]. right. split; [now apply Hpar|]. intros Ns. exact (import_quote_denotes (g_imp g) (path_snoc name j) L Ns HL).
      + destruct (class_dispatch _ _ _ _ _ _ _ Et (or_intror (or_intror eq_refl)) Hg Hin) as (L & n & Hd & HL & _).
        exists o, i, j, b, L. fold U w. split; [exact Ho|]. split; [exact Ha|]. split; [exact Hb|]. split; [exact Hd|]. split; [exact Hself|]. destruct Hsh as [(ar & Hbody) [Hnm Hret]].
        rewrite Hbody. split; [now apply Ks|]. split; [exact Hnm|]. split; [exact Hret|]. split; [apply (ke_bound _ _ _ HD g scope b _ _ f (IFunction l) d EN Hp); [now rewrite Et|exact Hg|exact Hin]|].
        destruct Hcp as [->|(_ & E & _)]; [|discriminate]. now apply at_class.
      + exfalso. destruct (fn_generate_inv _ _ _ _ _ Hg Hin) as (name' & id & preps & tys & rt & pb & dd & pos & kw & _ & _ & _ & _ & _ & _ & _ & Hd & _). unfold gen_disp in Hd. now rewrite Et in Hd.
    - (* on the object *)
      destruct k; try discriminate Hi.
      + destruct (self_dispatch _ _ _ _ _ _ _ Et (or_introl eq_refl) Hg Hin) as (Hd & _ & _). exists j, b. fold U w. split; [exact Hb|]. split; [exact Hd|]. split; [exact Hself|].
        destruct Hsh as [(ar & Hbody) Hsp]. unfold uses_attr, is_call. rewrite Hbody. split; [split; [reflexivity|exact Hsp]|]. split; [intros _|discriminate].
        apply (ke_bound _ _ _ HD g scope b _ _ f (IMethod t l) d EN Hp); [now rewrite Et|exact Hg|exact Hin].
      + destruct (self_dispatch _ _ _ _ _ _ _ Et (or_intror eq_refl) Hg Hin) as (Hd & _ & _). exists j, b. fold U w. split; [exact Hb|]. split; [exact Hd|]. split; [exact Hself|].
        destruct Hsh as [(ar & Hbody) Hnm]. rewrite Hbody. split; [now apply Kc|]. split; [exact Hnm|].
        apply (ke_bound _ _ _ HD g scope b _ _ f (IMethod t l) d EN Hp); [now rewrite Et|exact Hg|exact Hin].
  Qed.
  Lemma accessor_acts : forall scope a p impl q j b d, attribute_of U w a j b -> pr_name p = path_snoc q j -> pr_owner p = OwnerClass -> prop_parse (pe_env x) b (path_snoc q j) OwnerClass = Ok p ->
    prop_generate g scope p = Ok impl -> In (GFn d) (frags_of impl) -> (exists t l, impl = IMethod t l) /\ object_acts D x a d.
  Proof.
    intros scope a p impl q j b d Hb En Eo Hpp Hg Hin. destruct (prop_def_shape _ _ _ _ _ _ _ Hg Hin En) as (Hdisp & Hself & Hcall & Hu).
    unfold prop_disp in Hdisp. rewrite Eo in Hdisp, Hself. injection Hdisp as Hdisp. split.
    - unfold prop_generate in Hg. apply bind_Ok in Hg as ([gt gi] & _ & H). apply bind_Ok in H as ([st si] & _ & H). rewrite Eo in H. injection H as <-. eauto.
    - exists j, b. split; [exact Hb|]. split; [now symmetry|]. split; [exact Hself|]. rewrite EU in Hu. unfold uses_attr in Hu. unfold uses_attr, is_call in *. destruct (f_body d); try contradiction; (split; [exact Hu|]); (split; [discriminate|]); intros _; exact (ke_prop _ _ _ HD g scope b _ p impl d EN Hpp Hg Hin).
  Qed.
  Lemma class_frag_acts : forall c name l k y, class_generate g c = Ok l -> origin_item x (AClass c) -> located name (AClass c) -> incl l k -> In y l -> acts D x (segs name) k y.
  Proof.
    intros c name l k y H (a & o & i & d & Ho & Ha & Hp & Ed & Hs) Hlo Hincl Hy. destruct (Hlo _ eq_refl) as (i0 & E0).
    destruct (class_attrs_ok _ _ _ _ Hp) as [M1 M2].
    assert (Em : cl_methods c = cl_methods d) by now rewrite Ed. assert (Epr : cl_props c = cl_props d) by now rewrite Ed. rewrite <- Em in M1. rewrite <- Epr in M2. fold U w in M1, M2, Hs.
    unfold class_generate in H. apply bind_Ok in H as (docs & Hdoc & H). apply bind_Ok in H as (nm & Hnm & H).
    destruct (struct_ident (g_uni g) nm) as [id|] eqn:Eid; [|injection H as <-; destruct Hy]. apply bind_Ok in H as (scope & _ & H).
    apply bind_Ok in H as (ms & Hms & H). apply bind_Ok in H as (ps & Hps & H). apply bind_Ok in H as (tid & _ & H).
    set (m := fold_left add_member (ms ++ ps) (mk_members [] [] [])) in *.
    assert (M : forall e, (In (GFn e) (mb_struct m) -> class_acts D x a e) /\ (In (GFn e) (mb_impls m) -> object_acts D x a e)).
    { intros e. pose proof (member_from (fun b z => forall e, z = GFn e -> if b : bool then class_acts D x a e else object_acts D x a e) (ms ++ ps) (mk_members [] [] []) (GFn e)) as K.
      assert (K1 : forall impl, In impl (ms ++ ps) -> In (GFn e) (frags_of impl) -> match impl with IFunction _ => class_acts D x a e | IMethod _ _ => object_acts D x a e end).
      { intros impl Hi Hin. apply in_app_or in Hi as [Hi|Hi].
        - destruct (mapM_In _ _ _ _ Hms Hi) as (f & Hf & Hg). destruct (M1 f Hf) as (j & b & A1 & A2 & A3). exact (method_acts scope o i a f impl j b e Ho Ha A1 A2 A3 Hg Hin).
        - destruct (mapM_In _ _ _ _ Hps Hi) as (p & Hpp & Hg). destruct (M2 p Hpp) as (j & b & A1 & A2 & A3 & A4).
          destruct (accessor_acts _ a p impl _ j b e A1 A2 A3 A4 Hg Hin) as [(t & l' & ->) A]. exact A. }
      split; intros He.
      - apply (proj1 (K (or_introl He) ltac:(easy) ltac:(easy) ltac:(intros l' Hl' Hz e' E; injection E as <-; exact (K1 (IFunction l') Hl' Hz)) ltac:(intros t l' Hl' Hz e' E; injection E as <-; exact (K1 (IMethod t l') Hl' Hz)))); auto.
      - apply (proj2 (K (or_intror He) ltac:(easy) ltac:(easy) ltac:(intros l' Hl' Hz e' E; injection E as <-; exact (K1 (IFunction l') Hl' Hz)) ltac:(intros t l' Hl' Hz e' E; injection E as <-; exact (K1 (IMethod t l') Hl' Hz)))); auto. }
    rewrite E0 in Hnm. apply snoc_path_name in Hnm as ->.
    assert (Sp : spelled_as U (u "s_") i0 id).
    { intros n -> Hn'. rewrite EU in Eid. destruct (struct_spelled U n HU Hn') as (id' & E1 & E2). rewrite E1 in Eid. now injection Eid as <-. }
    assert (Hmac : In (GMacros id (to_py (path_snoc name i0))) k).
    { rewrite <- E0. apply Hincl. injection H as <-. apply in_or_app. right. cbn. tauto. }
    rewrite E0 in Hs.
    assert (C : forall Q : oid -> Prop, Q a -> exists p i a0, segs p = segs name /\ stands (pe_uni x) (pe_world x) (path_snoc p i) a0 /\ In (GMacros id (to_py (path_snoc p i))) k /\ spelled_as (pe_uni x) (u "s_") i id /\ Q a0).
    { intros Q HQ. exists name, i0, a. auto. }
    injection H as <-. apply in_app_or in Hy as [Hy|Hy]; [destruct (doc_only _ _ _ Hdoc _ Hy) as [t ->]; exact I|].
    cbn [app In trait_docs] in Hy. repeat (destruct Hy as [<-|Hy]; [first [exact I|exact (C (fun _ => True) I)|exact (C (fun a => forall d, In (GFn d) (mb_struct m) -> class_acts D x a d) (fun e => proj1 (M e)))|
      exact (C (fun a => forall d, In (GFn d) (mb_impls m) -> object_acts D x a d) (fun e => proj2 (M e)))]|]). destruct Hy.
  Qed.
End class.

(** ** The functions of a module *)
Section module.
  Variables (D : duties) (x : penv) (numpy : bool) (X : mctx) (m : module) (P : parts).
  Hypothesis HD : kept D x numpy.
  Let U := pe_uni x.
  Let w := pe_world x.
  Hypothesis HU : uni_ok U.
  Hypothesis Hw : honest U w.
  Hypothesis EU : mx_uni X = U.
  Hypothesis EN : mx_numpy X = numpy.
  Hypothesis Ei : mx_imp X = knows w.
  Hypothesis HP : parts_of X m P.
  Hypothesis Hn : module_named U (m_name m).
  Hypothesis Hit : forall it, has m it -> origin_item x it /\ located (m_name m) it.
  Hypothesis Hty : forall f, In f (m_functions m) -> fn_typ f = FFunction \/ fn_typ f = FClosure.
  Hypothesis Hpo : forall p, In p (m_properties m) -> pr_owner p = OwnerModule.

  Lemma named_no_super : forall p, module_named U p -> no_super (segs p) /\ segs p <> [].
  Proof.
    intros p (l & H1 & H2 & H3 & ->). rewrite (named_segs U l) by auto. cbn [segs]. split; [|now destruct l].
    intros s Hs. apply in_map_iff in Hs as (t & <- & Ht). rewrite as_py_from_py by now apply H2. congruence.
  Qed.
  Lemma at_module : forall d L, f_disp d = DImport L -> import_quote (mx_imp X) (m_name m) = Ok L ->
    spells L (map as_py (segs (m_name m))) /\ forall o, bound_in_parent w (map as_py (segs (m_name m))) o -> finds w L o.
  Proof.
    intros d L _ H. destruct (named_no_super _ Hn) as [Ns _]. split; [now apply (import_quote_denotes (mx_imp X))|].
    intros o. apply module_finds; [exact Ns|]. now rewrite <- Ei.
  Qed.
  Lemma fn_acts : forall d, In (GFn d) (pt_fns P) -> module_acts D x (segs (m_name m)) d.
  Proof.
    intros d Hd. destruct (when_from _ _ _ _ _ (po_fns _ _ _ HP) Hd) as (_ & f & l & Hf & Hl & Hin). unfold fn_frags in Hl. apply bind_Ok in Hl as (i & Hi & Hl).
    assert (Hd' : In (GFn d) (frags_of i)) by (destruct i; [injection Hl as ->; exact Hin|discriminate]).
    destruct (Hit (AFunction f) Hf) as [(a & t & Ht & Hp & Hs) Lo]. destruct (Lo _ eq_refl) as (j & Ej).
    fold U w in Hs. rewrite Ej in Hs. destruct (stands_in _ _ _ _ _ Hs) as (o & b & H1 & H2 & H3 & H4).
    destruct (function_dispatch _ _ _ _ _ (Hty f Hf) Hi Hd') as (q & L & n & ar & Hq & Hdisp & HL & _ & Hb).
    rewrite Ej, snoc_parent in Hq by apply (named_no_super _ Hn). injection Hq as <-.
    destruct (at_module d L Hdisp HL) as [S1 S2].
    assert (HU' : uni_ok (g_uni (pt_ctx X P))) by (unfold g_uni, pt_ctx; cbn; now rewrite EU).
    destruct (fn_def_shape _ _ _ _ _ _ _ HU' Hi Hd' Ej) as (_ & Hself & Hshape).
    exists o, j, b, a, L. split; [exact H1|]. split; [fold U w; now rewrite H2|]. split; [exact H3|]. split; [exact H4|]. split; [exact Hdisp|]. split; [exact S1|].
    split; [apply S2|].
    assert (Hr : has_receiver (fn_typ f) = false) by (destruct (Hty f Hf) as [-> | ->]; reflexivity).
    split; [rewrite Hself; destruct (Hty f Hf) as [-> | ->]; reflexivity|].
    assert (Hsh : (exists a, f_body d = BCallMethod (as_py j) a) /\ spelled_as U (u "f_") j (k_name (f_contract d))).
    { unfold g_uni, pt_ctx in Hshape. cbn in Hshape. rewrite EU in Hshape. destruct (Hty f Hf) as [E|E]; rewrite E in Hshape; exact Hshape. }
    destruct Hsh as [(ar' & Hb') Hsp]. unfold uses_attr, is_call. rewrite Hb'. split; [split; [reflexivity|exact Hsp]|].
    split; [intros _|discriminate]. exact (ke_fn _ _ _ HD (pt_ctx X P) _ a _ t f i d EN Hp Hr Hi Hd').
  Qed.
  Lemma prop_acts : forall d, In (GFn d) (pt_props P) -> module_acts D x (segs (m_name m)) d.
  Proof.
    intros d Hd. destruct (when_from _ _ _ _ _ (po_props _ _ _ HP) Hd) as (_ & p & l & Hp & Hl & Hin). unfold prop_frags in Hl. apply bind_Ok in Hl as (i & Hi & Hl).
    assert (Hd' : In (GFn d) (frags_of i)) by (destruct i; [injection Hl as ->; exact Hin|discriminate]).
    destruct (Hit (AProperty p) Hp) as [(a & Hpp & Hs) Lo]. destruct (Lo _ eq_refl) as (j & Ej).
    fold U w in Hs. rewrite Ej in Hs. destruct (stands_in _ _ _ _ _ Hs) as (o & b & H1 & H2 & H3 & H4).
    destruct (prop_def_shape _ _ _ _ _ _ _ Hi Hd' Ej) as (Hdisp & Hself & Hcall & Hu). unfold prop_disp in Hdisp. rewrite (Hpo p Hp) in Hdisp, Hself.
    rewrite Ej, snoc_parent in Hdisp by apply (named_no_super _ Hn). cbn [unwrap obind] in Hdisp. apply bind_Ok in Hdisp as (L & HL & Hdisp). injection Hdisp as Hdisp. symmetry in Hdisp.
    destruct (at_module d L Hdisp HL) as [S1 S2].
    exists o, j, b, a, L. split; [exact H1|]. split; [fold U w; now rewrite H2|]. split; [exact H3|]. split; [exact H4|]. split; [exact Hdisp|]. split; [exact S1|].
    split; [apply S2|]. split; [exact Hself|]. split; [|rewrite Hcall; split; [discriminate|]; intros _; exact (ke_var _ _ _ HD (pt_ctx X P) _ a _ p i d EN Hpp Hi Hd')].
    unfold g_uni, pt_ctx in Hu. cbn in Hu. now rewrite EU in Hu.
  Qed.
  Lemma body_acts : forall y, In y (pt_body m P) -> acts D x (segs (m_name m)) (pt_body m P) y.
  Proof.
    intros y Hy. destruct (body_frag X m P y HP Hty Hy) as [K|[(? & ? & ? & -> & _)|[(? & -> & _)|[(? & ? & -> & _)|[(? & -> & _)|[K|[(d & -> & _ & K)|[(d & -> & _ & K)|(? & ? & -> & _)]]]]]]]]; try exact I.
    - now destruct y.
    - destruct (when_from _ _ _ _ _ (po_classes _ _ _ HP) K) as (Hon & c & l & Hc & Hl & Hin).
      destruct (Hit (AClass c) Hc) as [Or Lo]. refine (class_frag_acts D x numpy (pt_ctx X P) HD HU Hw EU EN Ei c (m_name m) l (pt_body m P) y Hl Or Lo _ Hin).
      destruct (when_In _ _ _ _ (po_classes _ _ _ HP) Hon c Hc) as (l' & El & Il). rewrite Hl in El. injection El as <-. apply body_incl. auto.
    - now apply fn_acts.
    - now apply prop_acts.
  Qed.
End module.

Section output.
  Variables (D : duties) (x : penv) (numpy : bool) (fuel : nat) (l : list request) (c : codegen) (out : list frag).
  Hypothesis HD : kept D x numpy.
  Hypothesis HU : uni_ok (pe_uni x).
  Hypothesis Ho : order_ok (pe_ord x).
  Hypothesis Hw : honest (pe_uni x) (pe_world x).
  Hypothesis Hl : asked_modules (pe_world x) l.
  Hypothesis Hc : asks x fuel l cg_new = Ok c.
  Hypothesis Hout : cg_generate x numpy fuel c = Ok out.
  Lemma output_acts : forall ns k y, at_path out ns k -> In y k -> acts D x ns k y.
  Proof.
    intros ns k y Hk Hy. destruct (final_modules x fuel c) as [ms| | |] eqn:Hf; [|unfold cg_generate in Hout; rewrite Hf in Hout; discriminate..].
    destruct (scope_at x numpy fuel l c out Ho Hw Hl Hc Hout ms ns k Hf Hk) as [[-> ->]|[(ex & ->)|(m & k' & P & Hm & Hk' & <- & HP & ->)]].
    - unfold cg_generate in Hout. rewrite Hf in Hout. cbn [obind] in Hout. apply bind_Ok in Hout as (ls & Hls & H). injection H as <-.
      apply in_concat in Hy as (lm & Hlm & Hy). destruct (mapM_In _ _ _ _ Hls Hlm) as (m & Hm & E). destruct (mod_lead_or_mod _ _ _ _ E Hy) as [K|(n & b & ->)]; [|exact I]. now destruct y.
    - destruct Hy as [<-|[<-|[]]]; exact I.
    - destruct (final_typed x fuel l c ms Ho Hc Hf m k' Hm Hk') as (T1 & T2 & T3).
      apply (body_acts D x numpy (gen_ctx x numpy ms) k' P HD HU Hw eq_refl eq_refl eq_refl HP); auto.
      + exact (final_named x Ho Hw fuel l c ms Hl Hc Hf m k' Hm Hk').
      + intros it Hit. split; [exact (final_origin x fuel l c ms Ho Hw Hl Hc Hf m k' it Hm Hk' Hit)|]. exact (final_located x Ho Hw fuel l c ms Hl Hc Hf m k' it Hm Hk' Hit).
      + intros p Hp. now apply T2.
  Qed.
End output.
