(** * Lemmas: all names in generated code can be written (C67) *)
From Verif Require Import Base Spec_Lex Model_Ident Model_Path Model_Import Model_Text Model_Config Model_Type Model_IntoRs Model_World Model_Out Model_Function Model_Property Model_Class Model_Module
  Model_Parse Model_Codegen Model_Token Model_Print Spec_Path Spec_Items Spec_Print
  Proof_Base Proof_Ident Proof_Path Proof_IntoRs Proof_Items Proof_Function Proof_Module Proof_Parts Proof_Api Proof_Lex Proof_Print.

Notation idents U l := (forall w, In w l -> rust_ident U w).
Notation segments U l := (forall w, In w l -> path_segment U w).
Lemma segments_app : forall U a b, segments U a -> segments U b -> segments U (a ++ b).
Proof. intros U a b Ha Hb w Hw. apply in_app_or in Hw as [Hw | Hw]; auto. Qed.
Lemma segments_flat : forall U {A} (f : A -> list str) l, (forall a, In a l -> segments U (f a)) -> segments U (flat_map f l).
Proof. intros U A f l H w Hw. apply in_flat_map in Hw as (a & Ha & Hw). now apply (H a). Qed.

Lemma and_all : forall {A} (P : A -> Prop) l, fold_right and True (map P l) -> forall a, In a l -> P a.
Proof. intros A P l. induction l as [|x l IH]; intros H a Ha; [easy|]. destruct H as [H1 H2], Ha as [<- | Ha]; [easy|now apply IH]. Qed.
Lemma type_segments : forall U t, rust_type U t -> segments U (ty_names t).
Proof.
  intros U. assert (HL : forall l, (forall t, In t l -> rust_type U t -> segments U (ty_names t)) -> fold_right and True (map (rust_type U) l) -> segments U (flat_map ty_names l)).
  { intros l Hl H. apply segments_flat. intros t Ht. apply Hl; [easy|]. now apply (and_all _ l H). }
  fix IH 1. intros t. destruct t as [s|t|t|t|l|p l|t|p|p l]; cbn [rust_type ty_names]; intros H; try (now apply IH).
  - intros w [<- | []]. now left.
  - apply HL; [|exact H]. clear H. induction l as [|a l IHl]; intros t Ht; [destruct Ht|]. destruct Ht as [<- | Ht]; [apply IH|now apply IHl].
  - destruct H as [[_ H1] H2]. apply segments_app; [exact H1|]. apply HL; [|exact H2]. clear H2. induction l as [|a l IHl]; intros t Ht; [destruct Ht|]. destruct Ht as [<- | Ht]; [apply IH|now apply IHl].
  - apply H.
  - destruct H as [[_ H1] H2]. apply segments_app; [exact H1|]. apply HL; [|exact H2]. clear H2. induction l as [|a l IHl]; intros t Ht; [destruct Ht|]. destruct Ht as [<- | Ht]; [apply IH|now apply IHl].
Qed.
Lemma contract_segments : forall U k, contract_ok U k -> segments U (contract_names k).
Proof.
  intros U k (H1 & H2 & H3) w [<- | Hw]; [now left|]. revert w Hw. apply segments_app.
  - apply segments_flat. intros (n & t) Hn. destruct (H2 n t Hn) as [Hi Ht]. intros w [<- | Hw]; [now left|]. now apply (type_segments U t).
  - destruct (k_ret k); [now apply type_segments|easy|easy].
Qed.
Lemma docs_names : forall g d l, gen_doc g d = Ok l -> flat_map frag_names l = [].
Proof.
  intros g d l H. assert (K : forall x, In x l -> exists t, x = GDoc t) by (intros; now apply (doc_only g d l)).
  clear H. induction l as [|x l IH]; [easy|]. destruct (K x (or_introl eq_refl)) as [t ->]. cbn. apply IH. intros; apply K; now right.
Qed.

Definition impl_names (i : fn_impl) : list str := match i with IFunction l => flat_map frag_names l | IMethod t l => flat_map frag_names t ++ flat_map frag_names l end.

Section generation.
  Variable g : gctx.
  Hypothesis HU : uni_ok (g_uni g).
  Hypothesis HT : relative_table (g_cx g).
  Let U := g_uni g.

  Lemma params_idents : forall ps ids, mapM (param_ident U) ps = Ok ids -> idents U ids.
  Proof. intros ps ids H w Hw. destruct (mapM_In _ _ _ _ H Hw) as (p & _ & Hp). unfold param_ident in Hp. now apply to_syn_ident in Hp. Qed.
  Lemma param_opt_ident : forall p v, param_ident_opt U p = Some v -> rust_ident U v.
  Proof.
    intros p v H. unfold param_ident_opt in H. destruct (param_ident U p) as [i| | |] eqn:E; try discriminate. injection H as <-.
    unfold param_ident in E. now apply to_syn_ident in E.
  Qed.
  Lemma args_idents : forall ps pos kw, gen_pos U ps = Ok pos -> gen_kw U ps = Ok kw -> idents U (args_names (gen_args pos kw)).
  Proof.
    intros ps pos kw Hp Hk. assert (Kp : idents U (pos_names (snd pos))).
    { unfold gen_pos in Hp. apply bind_Ok in Hp as (ids & Hids & Hp). injection Hp as <-. pose proof (params_idents _ _ Hids) as Ki.
      destruct (find _ ps) as [p|]; [destruct (param_ident_opt U p) as [v|] eqn:Ev; [apply param_opt_ident in Ev|]|];
        destruct ids as [|i ids]; cbn [snd pos_names]; try easy; try (now intros w [<- | []]); (intros w [<- | Hw]; [easy|now apply Ki]). }
    assert (Kk : idents U (kw_names (snd kw))).
    { unfold gen_kw in Hk. apply bind_Ok in Hk as (ids & Hids & Hk). injection Hk as <-. pose proof (params_idents _ _ Hids) as Ki.
      assert (Kc : forall (a : list str), idents U (map snd (combine a ids))).
      { intros a w Hw. apply in_map_iff in Hw as ((x & y) & <- & Hw). apply in_combine_r in Hw. now apply Ki. }
      set (l := combine _ ids). assert (Kl : idents U (map snd l)) by apply Kc. clearbody l.
      destruct (find _ ps) as [p|]; [destruct (param_ident_opt U p) as [v|] eqn:Ev; [apply param_opt_ident in Ev|]|];
        destruct l as [|i l]; cbn [snd kw_names]; try easy; try (now intros w [<- | []]); (intros w [<- | Hw]; [easy|now apply Kl]). }
    unfold gen_args. destruct (fst kw); [cbn [args_names]; intros w Hw; apply in_app_or in Hw as [Hw | Hw]; auto|]. now destruct (fst pos).
  Qed.
  Lemma fn_segments : forall scope f i, fn_generate g scope f = Ok i -> segments U (impl_names i).
  Proof.
    intros scope f i H. unfold fn_generate in H.
    apply bind_Ok in H as (docs & Hdoc & H). apply bind_Ok in H as (name & Hname & H). fold U in H.
    destruct (fn_ident U name) as [id|] eqn:Eid; [|injection H as <-; easy].
    apply bind_Ok in H as (ids & Hids & H). apply bind_Ok in H as (preps & _ & H). apply bind_Ok in H as (tys & Htys & H).
    apply bind_Ok in H as (rt & Hrt & H). apply bind_Ok in H as ([public k] & Hk & H). apply bind_Ok in H as (od & Hd & H).
    destruct od as [d|]; [|injection H as <-; easy].
    apply bind_Ok in H as (pos & Hpos & H). apply bind_Ok in H as (kw & Hkw & H). assert (Ka : segments U (args_names (gen_args pos kw))) by (intros w Hw; left; now apply (args_idents _ _ _ Hpos Hkw)).
    set (b := match fn_typ f with FMethod _ (MConstructor | MCallable) => _ | _ => _ end) in H.
    assert (Kb : segments U (body_names b)) by (subst b; destruct (fn_typ f) as [|? []|]; exact Ka). clearbody b.
    assert (Ki : segments U ids) by (intros w Hw; left; now apply (params_idents _ _ Hids)).
    assert (Kp : forall n t, In (n, t) (combine ids tys) -> rust_ident U n /\ rust_type U t).
    { intros n t Hin. refine (combine_params U ids tys n t _ _ Hin).
      - intros j Hj. destruct (mapM_In _ _ _ _ Hids Hj) as (p & _ & Hp). unfold param_ident in Hp. now apply to_syn_ident in Hp.
      - intros s Hs. destruct (mapM_In _ _ _ _ Htys Hs) as (p & _ & Hp). now apply (borrowed_ok g HU HT) in Hp. }
    assert (Kc : contract_ok U k).
    { pose proof (fn_ident_rust _ _ _ Eid) as Kn. pose proof (owned_ok g HU HT _ _ Hrt) as Kr.
      unfold gen_contract in Hk. destruct (fn_typ f) as [|cp m|]; [| destruct m |];
        try (injection Hk as <- <-; exact (conj Kn (conj Kp Kr)));
        (apply bind_Ok in Hk as (c & _ & Hk); apply bind_Ok in Hk as (n & Hn & Hk); injection Hk as <- <-; apply to_syn_ident in Hn as [_ Hn];
          first [exact (conj Hn (conj Kp Kr)) | exact (conj Hn (conj Kp I))]). }
    pose proof (contract_segments U k Kc) as Kk. clear Kc. rename Kk into Kc.
    assert (Kf : segments U (fn_names (mk_fn k (is_bound (fn_typ f)) (combine ids preps) d b))).
    { unfold fn_names. cbn [f_contract f_prep f_body]. apply segments_app; [exact Kc|]. apply segments_app; [|exact Kb].
      intros w Hw. apply in_map_iff in Hw as ((x & y) & <- & Hw). apply in_combine_l in Hw. now apply Ki. }
    assert (Kl : segments U (flat_map frag_names (docs ++ (if public then [GPub] else []) ++ [GFn (mk_fn k (is_bound (fn_typ f)) (combine ids preps) d b)]))).
    { rewrite !flat_map_app, (docs_names _ _ _ Hdoc). destruct public; cbn [flat_map frag_names app]; rewrite app_nil_r; exact Kf. }
    destruct (is_bound (fn_typ f)); injection H as <-; cbn [impl_names]; [|exact Kl]. apply segments_app; [|exact Kl]. cbn [flat_map frag_names]. rewrite app_nil_r. exact Kc.
  Qed.

  Lemma accessor_names : forall o k docs d b l p, (exists x, gen_doc g x = Ok docs) -> segments U (contract_names k) -> segments U (map fst p ++ body_names b) ->
    segments U (flat_map frag_names (declare o k)) /\ segments U (flat_map frag_names (docs ++ [GFn (mk_fn k l p d b)])).
  Proof.
    intros o k docs d b l p (x & Hdoc) Hk Hb. split.
    - destruct o; cbn; [easy|]. rewrite app_nil_r. exact Hk.
    - rewrite flat_map_app, (docs_names _ _ _ Hdoc). cbn [flat_map frag_names app]. rewrite app_nil_r. unfold fn_names. cbn [f_contract f_prep f_body]. now apply segments_app.
  Qed.
  Lemma prop_segments : forall scope p i, prop_generate g scope p = Ok i -> segments U (impl_names i).
  Proof.
    intros scope p i H. unfold prop_generate in H. apply bind_Ok in H as ([gt gi] & Hg & H). apply bind_Ok in H as ([st si] & Hs & H).
    assert (G : segments U (flat_map frag_names gt) /\ segments U (flat_map frag_names gi)).
    { unfold gen_getter in Hg. fold U in Hg. apply bind_Ok in Hg as (docs & Hdoc & Hg). apply bind_Ok in Hg as (name & _ & Hg). apply bind_Ok in Hg as (o & Ho & Hg).
      destruct o as [id|]; [|now injection Hg as <- <-]. apply bind_Ok in Hg as (t & Ht & Hg). apply bind_Ok in Hg as (d & Hd & Hg). injection Hg as <- <-.
      apply accessor_names; [now exists (pr_doc p)| |easy]. apply contract_segments. split; [cbn; now apply (getter_rust g scope name)|].
      split; [easy|]. cbn. now apply (owned_ok g HU HT (pr_ann p)). }
    assert (S : segments U (flat_map frag_names st) /\ segments U (flat_map frag_names si)).
    { destruct (pr_mutable p); [|now injection Hs as <- <-]. unfold gen_setter in Hs. fold U in Hs.
      apply bind_Ok in Hs as (docs & Hdoc & Hs). apply bind_Ok in Hs as (name & _ & Hs). apply bind_Ok in Hs as (o & Ho & Hs).
      destruct o as [id|]; [|now injection Hs as <- <-]. apply bind_Ok in Hs as (pr & _ & Hs). apply bind_Ok in Hs as (t & Ht & Hs). apply bind_Ok in Hs as (d & Hd & Hs). injection Hs as <- <-.
      assert (Hv : rust_ident U p_value) by (apply ascii_ident; [exact HU|now vm_compute]).
      apply accessor_names; [now exists (pr_setter_doc p)| |].
      - apply contract_segments. split; [cbn; now apply (prefixed_rust g scope "set_" name)|]. split; [|exact I].
        intros n t' [E|[]]. injection E as <- <-. split; [exact Hv|now apply (borrowed_ok g HU HT (pr_ann p))].
      - intros w [<- | [<- | []]]; now left. }
    destruct G as [G1 G2], S as [S1 S2]. destruct (pr_owner p); injection H as <-; cbn [impl_names].
    - cbn [flat_map frag_names app]. rewrite flat_map_app. apply segments_app; [exact G2|]. destruct (pr_mutable p); easy.
    - rewrite !flat_map_app. repeat apply segments_app; easy.
  Qed.

  Lemma members_segments : forall is m, (forall i, In i is -> segments U (impl_names i)) ->
    segments U (flat_map frag_names (mb_struct m ++ mb_defs m ++ mb_impls m)) ->
    let r := fold_left add_member is m in segments U (flat_map frag_names (mb_struct r ++ mb_defs r ++ mb_impls r)).
  Proof.
    induction is as [|i is IH]; intros m Hi Hm; [exact Hm|]. cbn [fold_left]. apply IH; [intros i0 Hi0; exact (Hi i0 (or_intror Hi0))|].
    pose proof (Hi i (or_introl eq_refl)) as Ki. destruct m as [a b c]. cbn in *. rewrite !flat_map_app in *.
    assert (Ha : segments U (flat_map frag_names a)) by (intros w Hw; apply Hm; apply in_or_app; now left).
    assert (Hb : segments U (flat_map frag_names b)) by (intros w Hw; apply Hm; apply in_or_app; right; apply in_or_app; now left).
    assert (Hc : segments U (flat_map frag_names c)) by (intros w Hw; apply Hm; apply in_or_app; right; apply in_or_app; now right).
    destruct i as [l|t l]; cbn in *; rewrite ?flat_map_app; repeat apply segments_app; try easy; intros w Hw; apply Ki; apply in_or_app; [now left|now right].
  Qed.
  Lemma struct_ident_rust : forall n id, struct_ident U n = Some id -> rust_ident U id.
  Proof.
    intros n id H. unfold struct_ident in H. repeat match type of H with context [if ?b then _ else _] => destruct b eqn:? end; try discriminate; injection H as <-;
      now apply syn_rust_ident.
  Qed.
  Lemma class_segments : forall c l, class_generate g c = Ok l -> segments U (flat_map frag_names l).
  Proof.
    intros c l H. unfold class_generate in H. apply bind_Ok in H as (docs & Hdoc & H). apply bind_Ok in H as (name & _ & H). fold U in H.
    destruct (struct_ident U name) as [id|] eqn:Eid; [|now injection H as <-]. apply struct_ident_rust in Eid.
    apply bind_Ok in H as (scope & _ & H). apply bind_Ok in H as (ms & Hms & H). apply bind_Ok in H as (ps & Hps & H).
    set (m := fold_left add_member (ms ++ ps) (mk_members [] [] [])) in *. apply bind_Ok in H as (tid & Ht & H). injection H as <-. apply to_syn_ident in Ht as [_ Ht].
    assert (Hm : segments U (flat_map frag_names (mb_struct m ++ mb_defs m ++ mb_impls m))).
    { apply members_segments; [|easy]. intros i Hi. apply in_app_or in Hi as [Hi | Hi].
      - destruct (mapM_In _ _ _ _ Hms Hi) as (f & _ & Hf). now apply (fn_segments scope f).
      - destruct (mapM_In _ _ _ _ Hps Hi) as (p & _ & Hp). exact (prop_segments _ _ _ Hp). }
    clearbody m. rewrite !flat_map_app in Hm. rewrite !flat_map_app, (docs_names _ _ _ Hdoc).
    assert (Ha : segments U (flat_map frag_names (mb_struct m))) by (intros w Hw; apply Hm; apply in_or_app; now left).
    assert (Hb : segments U (flat_map frag_names (mb_defs m))) by (intros w Hw; apply Hm; apply in_or_app; right; apply in_or_app; now left).
    assert (Hc : segments U (flat_map frag_names (mb_impls m))) by (intros w Hw; apply Hm; apply in_or_app; right; apply in_or_app; now right).
    cbn [flat_map frag_names trait_docs app]. rewrite !app_nil_r.
    intros w Hw. repeat first [destruct Hw as [<- | Hw]; [now left|] | apply in_app_or in Hw as [Hw | Hw]; [first [now apply Ha | now apply Hb | now apply Hc]|]].
    now apply Hc.
  Qed.
End generation.

Lemma use_segments : forall U i l, use_frag_of U i = Ok l -> segments U (flat_map frag_names l).
Proof.
  intros U i l H. apply bind_Ok in H as ([v|] & Hv & H); injection H as <-; [|easy]. cbn. rewrite app_nil_r.
  unfold import_generate in Hv. destruct (negb _); [discriminate|]. destruct (path_eqb _ _); [discriminate|].
  apply bind_Ok in Hv as (rel & _ & Hv). unfold path_to_syn in Hv. destruct (syn_path_ok U rel) eqn:E; [|discriminate]. apply syn_path_rust in E as [_ E].
  apply bind_Ok in Hv as (on & _ & Hv). apply bind_Ok in Hv as (tn & _ & Hv). destruct (ident_eqb on tn).
  - injection Hv as <-. cbn. rewrite app_nil_r. exact E.
  - apply bind_Ok in Hv as (a & Ha & Hv). injection Hv as <-. cbn. apply to_syn_ident in Ha as [_ Ha]. apply segments_app; [exact E|].
    intros w [<- | []]. now left.
Qed.
Lemma prelude_segments : forall U m l, drop_err (gen_prelude U m) = Ok l -> segments U (flat_map frag_names l).
Proof.
  intros U m l H. apply prelude_shape in H as [-> | (id & ex & -> & H)]; [easy|]. unfold gen_prelude in H. destruct (m_prelude m); [discriminate|].
  apply bind_Ok in H as (kept & _ & H). apply bind_Ok in H as (ex' & Hex & H). destruct ex' as [|e ex']; [discriminate|].
  apply bind_Ok in H as (c & _ & H). apply bind_Ok in H as (id' & Hid & H). injection H as <- <-. cbn [flat_map frag_names app]. rewrite !app_nil_r.
  intros w [<- | Hw]; [apply to_syn_ident in Hid; now left|]. destruct (mapM_In _ _ _ _ Hex Hw) as (k & _ & Hk). apply to_syn_ident in Hk. now left.
Qed.
Lemma when_segments : forall U {A} b (f : A -> outcome (list frag)) l r, (forall a k, In a l -> f a = Ok k -> segments U (flat_map frag_names k)) -> when b (concatM f l) = Ok r -> segments U (flat_map frag_names r).
Proof.
  intros U A b f l r Hf H w Hw. apply in_flat_map in Hw as (y & Hy & Hw). destruct (when_from _ _ _ _ _ H Hy) as (_ & a & k & Ha & Hk & Hyk).
  apply (Hf a k Ha Hk). apply in_flat_map. now exists y.
Qed.
Lemma module_segments : forall x, uni_ok (mx_uni x) -> forall m l, mod_generate x m = Ok l -> segments (mx_uni x) (flat_map frag_names l).
Proof.
  intros x HU m. induction m as [m IH] using module_nested_ind. intros l H. apply mod_generate_inv in H as (P & id & HP & _ & Hid & ->).
  pose proof (parts_table _ _ _ HP) as HT. rewrite !flat_map_app, (docs_names _ _ _ (po_docs _ _ _ HP)).
  apply segments_app; [unfold pt_top; now destruct (in_dec _ _ _)|]. cbn [flat_map frag_names app]. rewrite app_nil_r. intros w [<- | Hw]; [now left|]. revert w Hw.
  unfold pt_body. rewrite !flat_map_app. repeat apply segments_app.
  - unfold gen_embed. now destruct (m_source m).
  - apply (when_segments _ _ _ _ _ (fun a k _ => use_segments _ a k) (po_imports _ _ _ HP)).
  - pose proof (po_prelude _ _ _ HP) as Hp. destruct (generate_preludes _); [exact (prelude_segments _ _ _ Hp)|injection Hp as <-; easy].
  - refine (when_segments _ _ _ _ _ _ (po_vars _ _ _ HP)). intros a k _ Hk. unfold type_var_generate in Hk. apply bind_Ok in Hk as (n & _ & Hk).
    apply bind_Ok in Hk as (id' & Hn & Hk). injection Hk as <-. apply to_syn_ident in Hn as [_ Hn]. intros w [<- | []]. now left.
  - exact (when_segments _ _ _ _ _ (fun a k _ => class_segments (pt_ctx x P) HU HT a k) (po_classes _ _ _ HP)).
  - refine (when_segments _ _ _ _ _ _ (po_fns _ _ _ HP)). intros f k _ Hk. apply bind_Ok in Hk as (i & Hi & Hk). pose proof (fn_segments (pt_ctx x P) HU HT _ _ _ Hi) as K.
    destruct i; [|discriminate]. injection Hk as <-. exact K.
  - refine (when_segments _ _ _ _ _ _ (po_props _ _ _ HP)). intros f k _ Hk. apply bind_Ok in Hk as (i & Hi & Hk). pose proof (prop_segments (pt_ctx x P) HU HT _ _ _ Hi) as K.
    destruct i; [|discriminate]. injection Hk as <-. exact K.
  - refine (when_segments _ _ _ _ _ _ (po_subs _ _ _ HP)). intros s k Hs. now apply IH.
Qed.
Theorem output_segments : forall x numpy fuel c out, uni_ok (pe_uni x) -> cg_generate x numpy fuel c = Ok out -> segments (pe_uni x) (flat_map frag_names out).
Proof.
  intros x numpy fuel c out HU H. unfold cg_generate in H. apply bind_Ok in H as (ms & _ & H). apply bind_Ok in H as (ls & Hls & H). injection H as <-.
  intros w Hw. apply in_flat_map in Hw as (y & Hy & Hw). apply in_concat in Hy as (k & Hk & Hy). destruct (mapM_In _ _ _ _ Hls Hk) as (m & _ & Hm).
  apply (module_segments (gen_ctx x numpy ms) HU m k Hm). apply in_flat_map. now exists y.
Qed.
Theorem output_lexes : forall x numpy fuel c out odd, uni_ok (pe_uni x) -> (forall a, odd a = true -> scalar a = true) -> cg_generate x numpy fuel c = Ok out ->
  lex (pe_uni x) (text odd out) = Some (tokens out).
Proof.
  intros x numpy fuel c out odd HU Ho H. apply lex_text; [exact HU|exact Ho|]. apply tokens_proper; [exact HU|].
  intros w Hw. apply segment_word; [exact HU|]. now apply (output_segments x numpy fuel c out HU H).
Qed.
