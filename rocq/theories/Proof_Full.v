(** * Lemmas: each parsed item is generated (C47, C49) *)
From Coq Require Import Permutation.
From Verif Require Import Base Model_Ident Model_Path Model_Import Model_Text Model_Config Model_Type Model_IntoRs Model_World Model_Out
  Model_Function Model_Property Model_Class Model_Module Model_Parse Model_Codegen Spec_Path Spec_Names Spec_Call Spec_Items Spec_Tree Spec_Api Spec_Safe Spec_Out Spec_Privacy Spec_Attr Spec_Full
  Proof_Base Proof_Ident Proof_Path Proof_Text Proof_IntoRs Proof_Call Proof_Function Proof_Fresh Proof_Method Proof_Kind Proof_Items Proof_Module
  Proof_Parse Proof_Forest Proof_Err Proof_Api Proof_Honest Proof_Calm Proof_Rooted Proof_Parts Proof_Property Proof_Scope Proof_Deps Proof_Attr Proof_Shown.

(** ** Names *)
Lemma unspellable_sanitize : forall U n, uni_ok U -> rust_unspellable n -> sanitize U n = n.
Proof.
  intros U n (_ & _ & Ha & _) H. unfold sanitize. unfold rust_unspellable in H. cbn [In map] in H.
  repeat (destruct H as [<-|H]; [cbn [u map]; unfold u; cbn; rewrite ?Ha by reflexivity; reflexivity|]). easy.
Qed.
Lemma fn_spelled : forall U n id, uni_ok U -> py_identifier U n -> fn_ident U (ident_from_py U n) = Some id -> spelled U (u "f_") n id.
Proof.
  intros U n id HU Hn H. destruct (function_name U n HU Hn) as (_ & H2 & _). rewrite (fn_ident_spelling U n HU Hn) in H.
  destruct (mem_str n forbidden_function_names); [discriminate|]. destruct (mem_str n never_raw) eqn:E; injection H as <-.
  - right. assert (R : rust_unspellable n). { apply mem_str_In in E. revert E. unfold rust_unspellable. cbn. tauto. } split; [exact R|]. now rewrite unspellable_sanitize.
  - left. split; [|reflexivity]. intros R. apply mem_str_notIn in E. apply E. revert R. unfold rust_unspellable. cbn. tauto.
Qed.
Lemma fn_ident_some : forall U n, uni_ok U -> py_identifier U n -> ~ In n reserved -> fn_ident U (ident_from_py U n) <> None.
Proof.
  intros U n HU Hn Hr. rewrite (fn_ident_spelling U n HU Hn). change reserved with forbidden_function_names in Hr. apply mem_str_notIn in Hr. rewrite Hr. now destruct (mem_str n never_raw).
Qed.
Lemma struct_spelled : forall U n, uni_ok U -> py_identifier U n -> exists id, struct_ident U (ident_from_py U n) = Some id /\ spelled U (u "s_") n id.
Proof.
  intros U n HU Hn. unfold struct_ident, as_rs. destruct (syn_ident_ok U (ident_from_py U n)) eqn:E.
  - eexists. split; [reflexivity|]. left. split; [|reflexivity]. now apply (from_py_valid_iff U n HU Hn).
  - assert (R : rust_unspellable n).
    { destruct (mem_str n never_raw) eqn:Er; [apply mem_str_In in Er; revert Er; unfold rust_unspellable; cbn; tauto|].
      exfalso. assert (K : syn_ident_ok U (ident_from_py U n) = true); [|congruence]. apply from_py_valid_iff; try easy.
      intros R. apply mem_str_notIn in Er. apply Er. revert R. unfold rust_unspellable. cbn. tauto. }
    rewrite as_py_from_py by now apply (py_identifier_no_raw U). rewrite unspellable_sanitize by easy.
    assert (Hp : py_identifier U (u "s_" ++ n)).
    { destruct Hn as (c & t & -> & Hc & Ht). destruct HU as (Hst & Hcn & _ & Hsc). exists (ch "s"), (95%N :: c :: t). split; [easy|].
      split; [right; now rewrite Hst|]. intros x [<-|[<-|Hx]]; [now rewrite Hcn| |now apply Ht]. destruct Hc as [->|Hc]; [now rewrite Hcn|now apply Hsc]. }
    assert (Ei : ident_from_py U (u "s_" ++ n) = u "s_" ++ n).
    { apply from_py_plain; [easy|easy|]. intros K. apply mem_str_In in K. cbn in K. discriminate K. }
    rewrite Ei. rewrite (proj2 (syn_ident_ok_plain U _ HU Hp)); [|intros K; apply syn_keywords_iff, mem_str_In in K; cbn in K; discriminate K].
    eexists. split; [reflexivity|]. now right.
Qed.
Lemma called_name : forall U p n, called U p n -> path_name p = Ok (ident_from_py U n) /\ as_py (ident_from_py U n) = n.
Proof. intros U p n (Hn & q & Hq). split; [apply path_name_ends; now exists q|]. now apply as_py_from_py. Qed.

(** The names of functions and methods are not reserved: such attributes are never looked at. *)
Definition unreserved (U : uni) (it : item) : Prop :=
  match it with
  | AFunction f => forall n, called U (fn_name f) n -> ~ In n reserved
  | AClass c => forall f n, In f (cl_methods c) -> called U (fn_name f) n -> ~ In n reserved
  | _ => True
  end.
Lemma snoc_called : forall U p i n, called U (path_snoc p i) n -> as_py i = n.
Proof. intros U p i n (Hn & q & E). cbn in E. apply app_inj_tail in E as [_ ->]. now apply as_py_from_py. Qed.
Lemma shown_unreserved : forall x it, shown_all x it -> unreserved (pe_uni x) it.
Proof.
  intros x it H. destruct it as [i|i|c|p|f|p]; try exact I; destruct H as [H1 H2]; cbn [unreserved].
  - intros f n Hf Hn Hr. destruct (proj1 H2 f Hf) as (p & i & b & t & E & _ & K). rewrite E in Hn. apply snoc_called in Hn. subst n. destruct K as [K|K].
    + apply K. now left.
    + destruct K as [K|K]; rewrite K in Hr; revert Hr; cbn; intuition discriminate.
  - intros n Hn Hr. destruct H1 as (p & i & _ & _ & E & Hi & _). cbn in E. injection E as E. rewrite E in Hn. apply snoc_called in Hn. subst n. apply Hi. now left.
Qed.

(** ** Functions *)
Lemma fresh_named : forall U base scope c, uni_ok U -> base = "call"%string \/ base = "new"%string -> fresh U base scope = Ok c -> exists s, c = u base ++ s.
Proof.
  intros U base scope c HU Hb H. apply fresh_spec in H as (j & -> & _). exists (suffix_of j).
  refine (proj1 (candidate_plain U base j HU _ _ _)).
  - destruct HU as (Hst & Hcn & _). destruct Hb as [-> | ->]; (eexists _, _; split; [reflexivity|]; split; [right; now rewrite Hst|]);
      intros y Hy; cbn in Hy; repeat (destruct Hy as [<-|Hy]; [now rewrite Hcn|]); easy.
  - destruct Hb as [-> | ->]; reflexivity.
  - destruct Hb as [-> | ->]; reflexivity.
Qed.
Definition made (U : uni) (f : func) (i : fn_impl) (n : str) : Prop :=
  match fn_typ f with
  | FMethod _ MInstance => exists t l, i = IMethod t l /\ calls U l n
  | FMethod _ MCallable => exists t l, i = IMethod t l /\ calls_itself l (u "call")
  | FMethod _ MConstructor => exists l, i = IFunction l /\ calls_itself l (u "new")
  | _ => exists l, i = IFunction l /\ calls U l n
  end.
Lemma fn_made : forall g scope f i n, uni_ok (g_uni g) -> fn_generate g scope f = Ok i -> called (g_uni g) (fn_name f) n -> py_identifier (g_uni g) n ->
  ~ In n reserved -> ~ no_kind f -> made (g_uni g) f i n.
Proof.
  intros g scope f i n HU H Hc Hn Hr Hk. unfold fn_generate in H. apply bind_Ok in H as (docs & Hdoc & H). apply bind_Ok in H as (nm & Hnm & H).
  destruct (called_name _ _ _ Hc) as [E1 E2]. rewrite E1 in Hnm. injection Hnm as <-.
  destruct (fn_ident (g_uni g) (ident_from_py (g_uni g) n)) as [id|] eqn:Eid; [|now apply fn_ident_some in Eid].
  pose proof (fn_spelled _ _ _ HU Hn Eid) as Hid. apply bind_Ok in H as (ids & _ & H). apply bind_Ok in H as (preps & _ & H). apply bind_Ok in H as (tys & _ & H).
  apply bind_Ok in H as (rt & _ & H). apply bind_Ok in H as ([pb k] & Hco & H). apply bind_Ok in H as (od & Hd & H). rewrite E2 in H.
  destruct od as [d|].
  2:{ exfalso. apply Hk. unfold gen_disp in Hd. unfold no_kind. destruct (fn_typ f) as [|cp []|]; try (now exists cp);
        repeat (apply bind_Ok in Hd as (? & _ & Hd)); discriminate. }
  apply bind_Ok in H as (pos & _ & H). apply bind_Ok in H as (kw & _ & H). injection H as <-. unfold made.
  assert (G : forall y pre, In (GFn y) (docs ++ pre ++ [GFn y])) by (intros; rewrite !in_app_iff; cbn; auto).
  unfold gen_contract in Hco. destruct (fn_typ f) as [|cp mk|] eqn:Et; [| |].
  - injection Hco as <- <-. eexists. split; [reflexivity|]. eexists _, _. split; [apply G|]. split; [reflexivity|exact Hid].
  - destruct mk; cbn [is_bound];
      try (injection Hco as <- <-; first [eexists; split; [reflexivity|]|eexists _, _; split; [reflexivity|]]; eexists _, _; split; [apply G|]; split; [reflexivity|exact Hid]).
    + apply bind_Ok in Hco as (cn & Hf & Hco). apply bind_Ok in Hco as (nn & Hs & Hco). injection Hco as <- <-. apply to_syn_ident in Hs as [-> _].
      destruct (fresh_named _ _ _ _ HU (or_intror eq_refl) Hf) as [s ->]. eexists. split; [reflexivity|]. eexists _, _, s. split; [apply G|]. split; reflexivity.
    + apply bind_Ok in Hco as (cn & Hf & Hco). apply bind_Ok in Hco as (nn & Hs & Hco). injection Hco as <- <-. apply to_syn_ident in Hs as [-> _].
      destruct (fresh_named _ _ _ _ HU (or_introl eq_refl) Hf) as [s ->]. eexists _, _. split; [reflexivity|]. eexists _, _, s. split; [apply G|]. split; reflexivity.
  - injection Hco as <- <-. eexists. split; [reflexivity|]. eexists _, _. split; [apply G|]. split; [reflexivity|exact Hid].
Qed.

(** ** Accessors *)
Lemma getter_made : forall g scope p t l F n, uni_ok (g_uni g) -> gen_getter g scope p = Ok (t, l) -> called (g_uni g) (pr_name p) n -> scope = map (ident_from_py (g_uni g)) F ->
  (forall f, In f F -> starts_with r_hash f = false) -> accessors_named (g_uni g) F n -> gets (g_uni g) l n.
Proof.
  intros g scope p t l F n HU H Hc -> HF Ha. destruct (called_name _ _ _ Hc) as [E1 E2]. destruct (getter_shape g _ p t l H) as (nm & id & Hn & Hid & K).
  rewrite E1 in Hn. injection Hn as <-. destruct (accessors_some _ F n HU (proj1 Hc) HF Ha) as [(id' & [G|G]) _]; [|now destruct (G id)].
  rewrite G in Hid. injection Hid as <-. destruct K as (docs & d & ty & _ & Kn & Kb & _ & _ & _ & _ & _ & _ & ->). exists d.
  split; [rewrite in_app_iff; cbn; auto|]. rewrite E2 in Kb. split; [exact Kb|]. rewrite Kn. unfold getter_ident in G.
  destruct (_ && _) in G; [injection G as <-; now left|]. unfold prefixed_ident in G. rewrite E2 in G. destruct (name_taken _ _) in G; [discriminate|].
  destruct (ident_to_syn _ _) as [z| | |] eqn:Ez in G; try discriminate. injection G as <-. apply to_syn_ident in Ez as [-> _]. now right.
Qed.
Lemma setter_made : forall g scope p t l F n, uni_ok (g_uni g) -> gen_setter g scope p = Ok (t, l) -> called (g_uni g) (pr_name p) n -> scope = map (ident_from_py (g_uni g)) F ->
  (forall f, In f F -> starts_with r_hash f = false) -> accessors_named (g_uni g) F n -> sets (g_uni g) l n.
Proof.
  intros g scope p t l F n HU H Hc -> HF Ha. destruct (called_name _ _ _ Hc) as [E1 E2]. destruct (setter_shape g _ p t l H) as (nm & id & Hn & Hid & K).
  rewrite E1 in Hn. injection Hn as <-. destruct (accessors_some _ F n HU (proj1 Hc) HF Ha) as [_ (id' & [G|G])]; [|now destruct (G id)].
  rewrite G in Hid. injection Hid as <-. destruct K as (docs & d & ty & _ & Kn & Kb & _ & _ & _ & _ & _ & _ & ->). exists d, p_value.
  split; [rewrite in_app_iff; cbn; auto|]. rewrite E2 in Kb. split; [exact Kb|]. rewrite Kn. unfold prefixed_ident in G. rewrite E2 in G.
  destruct (name_taken _ _) in G; [discriminate|]. destruct (ident_to_syn _ _) as [z| | |] eqn:Ez in G; try discriminate. injection G as <-. now apply to_syn_ident in Ez as [-> _].
Qed.
Lemma gets_incl : forall U l k n, incl l k -> gets U l n -> gets U k n.
Proof. intros U l k n I (d & H & K). exists d. split; [now apply I|exact K]. Qed.
Lemma sets_incl : forall U l k n, incl l k -> sets U l n -> sets U k n.
Proof. intros U l k n I (d & v & H & K). exists d, v. split; [now apply I|exact K]. Qed.
Lemma calls_incl : forall U l k n, incl l k -> calls U l n -> calls U k n.
Proof. intros U l k n I (d & a & H & K). exists d, a. split; [now apply I|exact K]. Qed.
Lemma itself_incl : forall l k n, incl l k -> calls_itself l n -> calls_itself k n.
Proof. intros l k n I (d & a & s & H & K). exists d, a, s. split; [now apply I|exact K]. Qed.
Lemma named_incl : forall U F F' n, incl F F' -> accessors_named U F' n -> accessors_named U F n.
Proof. intros U F F' n I [[(H1 & H2 & H3 & H4)|[H1 H2]] H5]; (split; [|auto]); [left|right]; repeat split; auto. Qed.
Lemma names_plain : forall U fs F, names_of U fs F -> forall f, In f F -> starts_with r_hash f = false.
Proof. intros U fs F H f Hf. induction H as [|a b fs F Ha H IH]; [easy|]. destruct Hf as [<-|Hf]; [exact (proj1 Ha)|auto]. Qed.

Lemma prop_made : forall g scope p i F n, uni_ok (g_uni g) -> prop_generate g scope p = Ok i -> called (g_uni g) (pr_name p) n -> scope = map (ident_from_py (g_uni g)) F ->
  (forall f, In f F -> starts_with r_hash f = false) -> accessors_named (g_uni g) F n ->
  exists l, match pr_owner p with OwnerModule => i = IFunction l | OwnerClass => exists t, i = IMethod t l end /\
    gets (g_uni g) l n /\ (pr_mutable p = true -> sets (g_uni g) l n).
Proof.
  intros g scope p i F n HU H Hc HS HF Ha. unfold prop_generate in H. apply bind_Ok in H as ([gt gi] & Hg & H). apply bind_Ok in H as ([st si] & Hs & H). injection H as <-.
  pose proof (getter_made g scope p gt gi F n HU Hg Hc HS HF Ha) as G.
  assert (S : pr_mutable p = true -> sets (g_uni g) si n). { intros Em. rewrite Em in Hs. now apply (setter_made g scope p st si F n). }
  destruct (pr_owner p); eexists; (split; [first [reflexivity|eexists; reflexivity]|split; [revert G; apply gets_incl|intros Em; specialize (S Em); revert S; apply sets_incl]]).
  - intros y Hy. right. apply in_or_app. now left.
  - rewrite Em. intros y Hy. right. apply in_or_app. right. now right.
  - intros y Hy. apply in_or_app. now left.
  - intros y Hy. apply in_or_app. now right.
Qed.

(** ** Classes *)
Lemma member_in : forall l m i, In i l \/ match i with IFunction k => incl k (mb_struct m) | IMethod _ k => incl k (mb_impls m) end ->
  match i with IFunction k => incl k (mb_struct (fold_left add_member l m)) | IMethod _ k => incl k (mb_impls (fold_left add_member l m)) end.
Proof.
  induction l as [|j l IH]; intros m i H; [now destruct H|]. cbn [fold_left]. apply IH. destruct H as [[<-|H]|H]; [right|now left|right].
  - destruct j as [k|t k]; cbn; intros y Hy; apply in_or_app; now right.
  - destruct i as [k|t k], j as [k'|t' k']; cbn; intros y Hy; try (apply in_or_app; left); now apply H.
Qed.
Lemma class_made : forall g c l n, uni_ok (g_uni g) -> class_generate g c = Ok l -> called (g_uni g) (cl_name c) n -> py_identifier (g_uni g) n ->
  (forall p, In p (cl_props c) -> pr_owner p = OwnerClass) -> unreserved (g_uni g) (AClass c) ->
  exists id tid own defs bound, spelled (g_uni g) (u "s_") n id /\ In (GStruct id) l /\ In (GMacros id (to_py (cl_name c))) l /\ In (GImpl id own) l /\
    tid = ident_from_py (g_uni g) (id ++ u "Methods") /\ In (GTrait tid defs) l /\ In (GImplFor tid id bound) l /\ members_yield (g_uni g) c own bound.
Proof.
  intros g c l n HU H Hc Hn Hown Hres. unfold class_generate in H. cbv zeta in H. apply bind_Ok in H as (docs & _ & H). apply bind_Ok in H as (nm & Hnm & H).
  destruct (called_name _ _ _ Hc) as [E1 E2]. rewrite E1 in Hnm. injection Hnm as <-. destruct (struct_spelled _ _ HU Hn) as (id & Eid & Sid). rewrite Eid in H.
  apply bind_Ok in H as (scope & Hsc & H). apply bind_Ok in H as (ms & Hms & H). apply bind_Ok in H as (ps & Hps & H). apply bind_Ok in H as (tid & Ht & H). injection H as <-.
  apply to_syn_ident in Ht as [-> _].
  exists id, (ident_from_py (g_uni g) (id ++ u "Methods")), (mb_struct (fold_left add_member (ms ++ ps) (mk_members [] [] []))),
    (mb_defs (fold_left add_member (ms ++ ps) (mk_members [] [] []))), (mb_impls (fold_left add_member (ms ++ ps) (mk_members [] [] []))).
  split; [exact Sid|]. split; [rewrite in_app_iff; cbn; tauto|]. split; [rewrite in_app_iff; cbn; tauto|]. split; [rewrite in_app_iff; cbn; tauto|]. split; [reflexivity|].
  split; [rewrite in_app_iff; cbn; tauto|]. split; [rewrite in_app_iff; cbn; tauto|]. split.
  - intros f n' Hf Hc' Hn' Hk. pose proof (Hres f n' Hf Hc') as Hr. destruct (mapM_In_l _ _ _ _ Hms Hf) as (i & Hi & Hg).
    pose proof (member_in (ms ++ ps) (mk_members [] [] []) i (or_introl (in_or_app _ _ _ (or_introl Hi)))) as I.
    pose proof (fn_made g scope f i n' HU Hg Hc' Hn' Hr Hk) as M. unfold made in M. unfold method_yields.
    destruct (fn_typ f) as [|cp []|]; try destruct M as (l & -> & M); try destruct M as (t & l & -> & M); revert M; first [apply calls_incl|apply itself_incl]; exact I.
  - intros F p n' HF Hp Hc' Ha. destruct (mapM_In_l _ _ _ _ Hps Hp) as (i & Hi & Hg).
    pose proof (member_in (ms ++ ps) (mk_members [] [] []) i (or_introl (in_or_app _ _ _ (or_intror Hi)))) as I.
    set (X := (if has_kind MConstructor (cl_methods c) then [u "new"] else []) ++ (if has_kind MCallable (cl_methods c) then [u "call"] else [])).
    assert (EX : scope ++ extra_scope (g_uni g) (cl_methods c) = map (ident_from_py (g_uni g)) (F ++ X)).
    { rewrite map_app, (mapM_names _ _ _ _ HF Hsc). f_equal. unfold extra_scope, X. rewrite map_app. now destruct (has_kind MConstructor _), (has_kind MCallable _). }
    assert (IX : incl X [u "new"; u "call"]). { unfold X. destruct (has_kind MConstructor _), (has_kind MCallable _); intros y Hy; cbn in *; tauto. }
    destruct (prop_made g _ p i (F ++ X) n' HU Hg Hc' EX) as (l & El & Hl).
    + intros f Hf. apply in_app_or in Hf as [Hf|Hf]; [now apply (names_plain _ _ _ HF)|]. apply IX in Hf. destruct Hf as [<-|[<-|[]]]; reflexivity.
    + revert Ha. apply named_incl. intros y Hy. apply in_app_or in Hy as [Hy|Hy]; apply in_or_app; auto.
    + rewrite (Hown p Hp) in El. destruct El as (t & ->). destruct Hl as [L1 L2]. split; [revert L1; now apply gets_incl|]. intros Em. specialize (L2 Em). revert L2. now apply sets_incl.
Qed.

(** ** Modules *)
Lemma body_incl : forall m P l, incl l (pt_vars P) \/ incl l (pt_classes P) \/ incl l (pt_fns P) \/ incl l (pt_props P) -> incl l (pt_body m P).
Proof. intros m P l H y Hy. unfold pt_body. rewrite !in_app_iff. destruct H as [H|[H|[H|H]]]; specialize (H y Hy); auto 10. Qed.
Lemma parts_yield : forall X m P it, uni_ok (mx_uni X) -> parts_of X m P -> mod_typed m -> has m it -> unreserved (mx_uni X) it -> is_on (mx_cfg X) it -> yields (mx_uni X) m (pt_body m P) it.
Proof.
  intros X m P it HU HP (T1 & T2 & T3) Hit Hres Hon. destruct it as [i|i|c|q|f|p]; cbn [has is_on yields] in Hit, Hon |- *; [exact I|exact I| | | |].
  - intros n Hc Hn. destruct (when_In _ _ _ _ (po_classes _ _ _ HP) Hon c Hit) as (l & El & Il).
    assert (I1 : incl l (pt_body m P)) by (apply body_incl; auto).
    destruct (class_made (pt_ctx X P) c l n HU El Hc Hn (T1 c Hit) Hres) as (id & tid & own & defs & bound & H1 & H2 & H3 & H4 & H5 & H6 & H7 & H8).
    exists id, tid, own, defs, bound. repeat (split; [now first [exact H1|apply I1|exact H5]|]). exact H8.
  - intros n Hc. destruct (when_In _ _ _ _ (po_vars _ _ _ HP) Hon q Hit) as (l & El & Il).
    destruct (var_shape _ _ _ El) as (nm & Hnm & _ & ->). destruct (called_name _ _ _ Hc) as [E1 _]. rewrite E1 in Hnm. injection Hnm as <-.
    apply (body_incl m P [GPub; GType (ident_from_py (mx_uni X) n)]); [auto|]. right. now left.
  - intros n Hc Hn. pose proof (Hres n Hc) as Hr. destruct (when_In _ _ _ _ (po_fns _ _ _ HP) Hon f Hit) as (l & El & Il). unfold fn_frags in El. apply bind_Ok in El as (i & Ei & El).
    assert (Hk : ~ no_kind f). { intros (cp & E). destruct (T3 f Hit); congruence. }
    pose proof (fn_made (pt_ctx X P) _ f i n HU Ei Hc Hn Hr Hk) as M. unfold made in M.
    assert (K : exists l0, i = IFunction l0 /\ calls (mx_uni X) l0 n). { destruct (T3 f Hit) as [E|E]; rewrite E in M; exact M. }
    destruct K as (l0 & -> & K). injection El as ->. revert K. apply calls_incl. apply body_incl. auto.
  - intros F n HF Hc Ha. destruct (when_In _ _ _ _ (po_props _ _ _ HP) Hon p Hit) as (l & El & Il). unfold prop_frags in El. apply bind_Ok in El as (i & Ei & El).
    destruct (prop_made (pt_ctx X P) _ p i F n HU Ei Hc) as (l0 & E0 & L1 & L2); [|now apply (names_plain (mx_uni X) (m_functions m))|exact Ha|].
    + exact (mapM_names _ _ _ _ HF (po_scope _ _ _ HP)).
    + rewrite (proj1 (T2 p Hit)) in E0. subst i. injection El as ->. assert (I1 : incl l (pt_body m P)) by (apply body_incl; auto).
      split; [revert L1; now apply gets_incl|]. intros Em. specialize (L2 Em). revert L2. now apply sets_incl.
Qed.

(** ** The output *)
Lemma linked_length : forall ch n d, linked (n :: ch) -> length (segs (last (n :: ch) d)) = length (segs n) + length ch.
Proof.
  induction ch as [|a ch IH]; intros n d L; [cbn; lia|]. destruct L as [(i & E) L]. change (last (n :: a :: ch) d) with (last (a :: ch) d).
  rewrite (IH a d L), E, app_length. cbn. lia.
Qed.
Lemma named_once : forall (l : list module) a b, NoDup (map m_name l) -> In a l -> In b l -> m_name a = m_name b -> a = b.
Proof.
  induction l as [|y l IH]; intros a b N Ha Hb E; [easy|]. cbn in N. inversion N as [|? ? N1 N2]; subst. destruct Ha as [->|Ha], Hb as [->|Hb]; [reflexivity| | |now apply IH].
  - exfalso. apply N1. rewrite E. now apply in_map.
  - exfalso. apply N1. rewrite <- E. now apply in_map.
Qed.
Lemma reach_once : forall l ch m, reach l ch m -> siblings_differ l -> forall m', reach l ch m' -> m' = m.
Proof.
  intros l ch m H. induction H as [l m Hm|l m ch k Hm H IH]; intros [S1 S2] m' H'.
  - inversion H' as [l1 m1 Hm1 E1|l1 m1 c1 k1 Hm1 Hr E1]; subst; [now apply (named_once l)|inversion Hr].
  - inversion H' as [l1 m1 Hm1 E1|l1 m1 c1 k1 Hm1 Hr E1]; subst; [inversion H|]. assert (m1 = m) as -> by now apply (named_once l).
    apply IH; [|exact Hr]. split; [apply (S2 m m Hm (within_here m))|]. intros s q Hs Hq. apply (S2 m q Hm). now apply (within_sub q m s).
Qed.

Section output.
  Variable x : penv.
  Let U := pe_uni x.
  Hypothesis HU : uni_ok U.
  Hypothesis Ho : order_ok (pe_ord x).
  Hypothesis Hw : honest U (pe_world x).
  Variables (numpy : bool) (fuel : nat) (l : list request) (c : codegen) (ms : list module) (out : list frag).
  Hypothesis Hl : asked_modules (pe_world x) l.
  Hypothesis Hc : asks x fuel l cg_new = Ok c.
  Hypothesis Hf : final_modules x fuel c = Ok ms.
  Hypothesis Hout : cg_generate x numpy fuel c = Ok out.

  Lemma chain_length : forall ch m, reach ms ch m -> length (segs (m_name m)) = length ch.
  Proof.
    intros ch m Hr. destruct (final_linked x Ho Hw fuel l c ms Hl Hc Hf ch (ex_intro _ m Hr)) as [L (n & r & -> & H1)].
    destruct (reach_last _ _ _ Hr) as (d & E). pose proof (linked_length r n n L) as H2. rewrite E, last_last in H2. rewrite H2, H1, E, <- E. reflexivity.
  Qed.
  Lemma final_yields : forall ch m, reach ms ch m -> traverse_submodules (pe_cfg x) = true \/ length (segs (m_name m)) = 1 ->
    exists k, at_path out (segs (m_name m)) k /\ forall it, has m it -> is_on (pe_cfg x) it -> yields U m k it.
  Proof.
    intros ch m Hr Ht. rewrite (chain_length ch m Hr) in Ht. destruct (output_reached x numpy fuel c out ms Hf Hout ch m Ht Hr) as (ns & P & M & HP & A).
    destruct (final_linked x Ho Hw fuel l c ms Hl Hc Hf ch (ex_intro _ m Hr)) as [L (n & r & E & H1)].
    assert (Ens : ns = segs (m_name m)).
    { destruct (reach_last _ _ _ Hr) as (d & Ed). rewrite Ed in M, L. apply (mirrors_linked d ns (m_name m) L M). intros n' r' E'. rewrite <- Ed, E in E'. injection E' as <- <-. exact H1. }
    subst ns. exists (pt_body m P). split; [exact A|]. intros it Hit Hon. destruct (reach_within _ _ _ Hr) as (m1 & Hm1 & Hk).
    apply (parts_yield (gen_ctx x numpy ms) m P it HU HP); [|exact Hit| |exact Hon]; [|apply shown_unreserved; exact (final_shown x Ho (honest_named _ _ Hw) fuel l c Hl Hc ms m1 m it Hf Hm1 Hk Hit)]. now apply (final_typed x fuel l c ms Ho Hc Hf m1 m).
  Qed.
  (** the same of the modules that were asked for *)
  Lemma requested_yields : forall m0 ch k0, In m0 (cg_modules c) -> reach [m0] ch k0 -> traverse_submodules (pe_cfg x) = true \/ length (segs (m_name k0)) = 1 ->
    exists m k, (exists ch', reach ms ch' m) /\ m_name m = m_name k0 /\ (forall it, has k0 it -> has m it) /\
      at_path out (segs (m_name k0)) k /\ forall it, has m it -> is_on (pe_cfg x) it -> yields U m k it.
  Proof.
    intros m0 ch k0 Hm0 Hr Ht.
    assert (K : forall q, has_opt k0 q -> exists m, reach ms (parents (m_name m0) ++ ch) m /\ m_name m = m_name k0 /\ has_opt m q).
    { intros q Hq. destruct (final_requested x Ho fuel c ms Hf m0 Hm0 ch q (ex_intro _ k0 (conj Hr Hq))) as (m & Hm & Hmq).
      exists m. split; [exact Hm|]. split; [|exact Hmq].
      destruct (reach_last _ _ _ Hm) as (d1 & E1). destruct (reach_last _ _ _ Hr) as (d2 & E2). rewrite E2, app_assoc in E1. now apply app_inj_tail in E1 as [_ <-]. }
    destruct (K None I) as (m & Hm & Em & _). destruct (final_yields _ m Hm) as (k & A & Y); [now rewrite Em|]. rewrite Em in A. exists m, k.
    split; [eexists; exact Hm|]. split; [exact Em|]. split; [|now split].
    intros it Hit. destruct (K (Some it) Hit) as (m' & Hm' & _ & Hi'). now rewrite <- (reach_once _ _ _ Hm (final_siblings x Ho Hw fuel l c ms Hl Hc Hf) m' Hm').
  Qed.
End output.
