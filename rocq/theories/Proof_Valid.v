(** * Lemmas: what the output is made of is grammatical (C69) *)
From Verif Require Import Base Spec_Lex Model_Ident Model_Path Model_Import Model_Text Model_Config Model_Type Model_IntoRs Model_World Model_Out Model_Function Model_Property Model_Class Model_Module
  Model_Parse Model_Codegen Model_Token Model_Print Spec_Path Spec_Names Spec_Items Spec_Tree Spec_Api Spec_Safe Spec_Print Spec_Grammar
  Proof_Base Proof_Ident Proof_Path Proof_IntoRs Proof_Items Proof_Function Proof_Module Proof_Parts Proof_Api Proof_Lex Proof_Print Proof_Written Proof_Use Proof_Shown Proof_Clash Proof_Grammar.

Notation fine U l := (forall y, In y l -> frag_fine U y).
Lemma fine_app : forall U a b, fine U a -> fine U b -> fine U (a ++ b).
Proof. intros U a b Ha Hb w Hw. apply in_app_or in Hw as [Hw | Hw]; auto. Qed.
Lemma fine_and : forall U l, fine U l -> fold_right and True (map (frag_fine U) l).
Proof. intros U l. induction l as [|x l IH]; intros H; [exact I|]. split; [apply H; now left|apply IH; intros; apply H; now right]. Qed.
Lemma docs_fine : forall U g d l, gen_doc g d = Ok l -> fine U l.
Proof. intros U g d l H y Hy. destruct (doc_only g d l H _ Hy) as [t ->]. exact I. Qed.

Definition impl_fine (U : uni) (i : fn_impl) : Prop := match i with IFunction l => fine U l | IMethod t l => fine U t /\ fine U l end.
Section generation.
  Variable g : gctx.
  Hypothesis HU : uni_ok (g_uni g).
  Let U := g_uni g.

  Lemma fn_is_fine : forall scope f i, fn_generate g scope f = Ok i -> impl_fine U i.
  Proof.
    intros scope f i H. unfold fn_generate in H.
    apply bind_Ok in H as (docs & Hdoc & H). apply bind_Ok in H as (name & Hname & H). fold U in H.
    destruct (fn_ident U name) as [id|] eqn:Eid; [|injection H as <-; easy].
    apply bind_Ok in H as (ids & Hids & H). apply bind_Ok in H as (preps & _ & H). apply bind_Ok in H as (tys & Htys & H).
    apply bind_Ok in H as (rt & Hrt & H). apply bind_Ok in H as ([public k] & Hk & H). apply bind_Ok in H as (od & Hd & H).
    destruct od as [d|]; [|injection H as <-; easy].
    apply bind_Ok in H as (pos & Hpos & H). apply bind_Ok in H as (kw & Hkw & H). pose proof (args_idents g _ _ _ Hpos Hkw) as Ka. fold U in Ka.
    set (b := match fn_typ f with FMethod _ (MConstructor | MCallable) => _ | _ => _ end) in H.
    assert (Kb : idents U (body_names b)) by (subst b; destruct (fn_typ f) as [|? []|]; exact Ka). clearbody b.
    assert (Ki : idents U ids) by exact (params_idents g _ _ Hids).
    assert (Kc : ends_well k).
    { unfold gen_contract in Hk. destruct (fn_typ f) as [|cp m|]; [| destruct m |];
        try (injection Hk as <- <-; intros E; discriminate E);
        (apply bind_Ok in Hk as (c & _ & Hk); apply bind_Ok in Hk as (n & Hn & Hk); injection Hk as <- <-; intros E; discriminate E). }
    assert (Kf : fn_fine U (mk_fn k (is_bound (fn_typ f)) (combine ids preps) d b)).
    { split; [exact Kc|]. cbn [f_prep f_body]. split; [|exact Kb].
      intros w Hw. apply in_map_iff in Hw as ((x & y) & <- & Hw). apply in_combine_l in Hw. now apply Ki. }
    assert (Kl : fine U (docs ++ (if public then [GPub] else []) ++ [GFn (mk_fn k (is_bound (fn_typ f)) (combine ids preps) d b)])).
    { apply fine_app; [exact (docs_fine _ _ _ _ Hdoc)|]. apply fine_app; [destruct public; [|easy]; now intros y [<- | []]|]. now intros y [<- | []]. }
    destruct (is_bound (fn_typ f)); injection H as <-; cbn [impl_fine]; [|exact Kl]. split; [|exact Kl]. now intros y [<- | []].
  Qed.

  Lemma accessor_fine : forall o k docs d b l p, (exists x, gen_doc g x = Ok docs) -> ends_well k -> idents U (map fst p ++ body_names b) ->
    fine U (declare o k) /\ fine U (docs ++ [GFn (mk_fn k l p d b)]).
  Proof.
    intros o k docs d b l p (x & Hdoc) Hk Hb. split.
    - destruct o; [easy|]. now intros y [<- | []].
    - apply fine_app; [exact (docs_fine _ _ _ _ Hdoc)|]. intros y [<- | []]. split; [exact Hk|]. split; intros w Hw; apply Hb; apply in_or_app; [now left|now right].
  Qed.
  Lemma prop_fine : forall scope p i, prop_generate g scope p = Ok i -> impl_fine U i.
  Proof.
    intros scope p i H. unfold prop_generate in H. apply bind_Ok in H as ([gt gi] & Hg & H). apply bind_Ok in H as ([st si] & Hs & H).
    assert (G : fine U gt /\ fine U gi).
    { unfold gen_getter in Hg. fold U in Hg. apply bind_Ok in Hg as (docs & Hdoc & Hg). apply bind_Ok in Hg as (name & _ & Hg). apply bind_Ok in Hg as (o & Ho & Hg).
      destruct o as [id|]; [|now injection Hg as <- <-]. apply bind_Ok in Hg as (t & Ht & Hg). apply bind_Ok in Hg as (d & Hd & Hg). injection Hg as <- <-.
      apply accessor_fine; [now exists (pr_doc p)|intros E; discriminate E|easy]. }
    assert (S : fine U st /\ fine U si).
    { destruct (pr_mutable p); [|now injection Hs as <- <-]. unfold gen_setter in Hs. fold U in Hs.
      apply bind_Ok in Hs as (docs & Hdoc & Hs). apply bind_Ok in Hs as (name & _ & Hs). apply bind_Ok in Hs as (o & Ho & Hs).
      destruct o as [id|]; [|now injection Hs as <- <-]. apply bind_Ok in Hs as (pr & _ & Hs). apply bind_Ok in Hs as (t & Ht & Hs). apply bind_Ok in Hs as (d & Hd & Hs). injection Hs as <- <-.
      assert (Hv : rust_ident U p_value) by (apply ascii_ident; [exact HU|now vm_compute]).
      apply accessor_fine; [now exists (pr_setter_doc p)|intros _ E; discriminate E|]. intros w [<- | [<- | []]]; exact Hv. }
    destruct G as [G1 G2], S as [S1 S2]. destruct (pr_owner p); injection H as <-; cbn [impl_fine].
    - intros y [<- | Hy]; [exact I|]. revert y Hy. apply fine_app; [exact G2|]. destruct (pr_mutable p); [|easy]. intros y [<- | Hy]; [exact I|now apply S2].
    - split; apply fine_app; easy.
  Qed.

  Lemma members_fine : forall is m, (forall i, In i is -> impl_fine U i) ->
    fine U (mb_struct m) /\ fine U (mb_defs m) /\ fine U (mb_impls m) ->
    let r := fold_left add_member is m in fine U (mb_struct r) /\ fine U (mb_defs r) /\ fine U (mb_impls r).
  Proof.
    induction is as [|i is IH]; intros m Hi Hm; [exact Hm|]. cbn [fold_left]. apply IH; [intros i0 Hi0; exact (Hi i0 (or_intror Hi0))|].
    pose proof (Hi i (or_introl eq_refl)) as Ki. destruct m as [a b c], Hm as (Ha & Hb & Hc). cbn [mb_struct mb_defs mb_impls] in *.
    destruct i as [l|t l]; cbn [add_member mb_struct mb_defs mb_impls impl_fine] in *; [split; [now apply fine_app|now split]|].
    split; [exact Ha|]. split; apply fine_app; easy.
  Qed.
  Lemma class_fine : forall c l, class_generate g c = Ok l -> fine U l.
  Proof.
    intros c l H. unfold class_generate in H. apply bind_Ok in H as (docs & Hdoc & H). apply bind_Ok in H as (name & _ & H). fold U in H.
    destruct (struct_ident U name) as [id|] eqn:Eid; [|now injection H as <-].
    apply bind_Ok in H as (scope & _ & H). apply bind_Ok in H as (ms & Hms & H). apply bind_Ok in H as (ps & Hps & H).
    set (m := fold_left add_member (ms ++ ps) (mk_members [] [] [])) in *. apply bind_Ok in H as (tid & Ht & H). injection H as <-.
    assert (Hm : fine U (mb_struct m) /\ fine U (mb_defs m) /\ fine U (mb_impls m)).
    { apply members_fine; [|now split]. intros i Hi. apply in_app_or in Hi as [Hi | Hi].
      - destruct (mapM_In _ _ _ _ Hms Hi) as (f & _ & Hf). now apply (fn_is_fine scope f).
      - destruct (mapM_In _ _ _ _ Hps Hi) as (p & _ & Hp). exact (prop_fine _ _ _ Hp). }
    clearbody m. destruct Hm as (Ha & Hb & Hc). apply fine_and in Ha, Hb, Hc.
    apply fine_app; [exact (docs_fine _ _ _ _ Hdoc)|]. intros y Hy. cbn [app In trait_docs] in Hy.
    repeat (destruct Hy as [<- | Hy]; [first [exact I | assumption]|]). contradiction.
  Qed.
End generation.

Lemma resolve_useable : forall cur rel r, resolve cur rel = Some r -> ~ In (u "Self") rel.
Proof.
  assert (K : forall rel cur r, resolve_supers cur rel = Some r -> ~ In (u "Self") rel).
  { induction rel as [|s rel IH]; intros cur r H Hi; [easy|]. cbn [resolve_supers] in H. destruct (str_eqb s (u "super")) eqn:E.
    - apply str_eqb_eq in E. subst s. destruct cur; [discriminate|]. destruct Hi as [Hi|Hi]; [discriminate|]. exact (IH _ _ H Hi).
    - unfold resolve_names in H. destruct (existsb path_kw (s :: rel)) eqn:Ek; [discriminate|].
      assert (existsb path_kw (s :: rel) = true) by (apply existsb_exists; exists (u "Self"); now split). congruence. }
  intros cur rel r H Hi. destruct rel as [|s rel]; [easy|]. cbn [resolve] in H. destruct (str_eqb s (u "self")) eqn:E; [|exact (K _ _ _ H Hi)].
  apply str_eqb_eq in E. subst s. destruct Hi as [Hi|Hi]; [discriminate|]. exact (K _ _ _ H Hi).
Qed.
Lemma when_fine : forall U {A} b (f : A -> outcome (list frag)) l r, (forall a k, In a l -> f a = Ok k -> fine U k) -> when b (concatM f l) = Ok r -> fine U r.
Proof. intros U A b f l r Hf H y Hy. destruct (when_from _ _ _ _ _ H Hy) as (_ & a & k & Ha & Hk & Hyk). exact (Hf a k Ha Hk y Hyk). Qed.
Lemma prelude_fine : forall U m l, drop_err (gen_prelude U m) = Ok l -> fine U l.
Proof. intros U m l H. apply prelude_shape in H as [-> | (id & ex & -> & H)]; [easy|]. intros y [<- | [<- | []]]; [exact I|]. cbn. auto. Qed.
Lemma module_fine : forall x, uni_ok (mx_uni x) -> forall m l,
  (forall k i v, within k m -> In i (m_imports k) -> existsb (path_exists (im_origin i)) (mx_top x) = true -> import_generate (mx_uni x) i = Ok (Some v) -> ~ In (u "Self") (use_path v)) ->
  mod_generate x m = Ok l -> fine (mx_uni x) l.
Proof.
  intros x HU m. induction m as [m IH] using module_nested_ind. intros l HI H. apply mod_generate_inv in H as (P & id & HP & _ & Hid & ->).
  apply fine_app; [unfold pt_top; destruct (in_dec _ _ _); [intros y [<- | []]; exact I|easy]|].
  apply fine_app; [exact (docs_fine _ _ _ _ (po_docs _ _ _ HP))|]. intros y [<- | [<- | []]]; [exact I|]. apply fine_and.
  unfold pt_body. repeat apply fine_app.
  - unfold gen_embed. destruct (m_source m); [|easy]. intros y Hy. repeat (destruct Hy as [<- | Hy]; [exact I|]). easy.
  - refine (when_fine _ _ _ _ _ _ (po_imports _ _ _ HP)). intros i k Hi Hk. apply filter_In in Hi as [Hi Hex]. apply use_shape in Hk as [-> | (v & -> & Hg)]; [easy|].
    intros y [<- | [<- | []]]; [exact I|]. cbn. apply (HI m i v); auto. constructor.
  - pose proof (po_prelude _ _ _ HP) as Hp. destruct (generate_preludes _); [exact (prelude_fine _ _ _ Hp)|injection Hp as <-; easy].
  - refine (when_fine _ _ _ _ _ _ (po_vars _ _ _ HP)). intros a k _ Hk. apply var_shape in Hk as (n & _ & _ & ->). intros y [<- | [<- | []]]; exact I.
  - exact (when_fine _ _ _ _ _ (fun a k _ => class_fine (pt_ctx x P) HU a k) (po_classes _ _ _ HP)).
  - refine (when_fine _ _ _ _ _ _ (po_fns _ _ _ HP)). intros f k _ Hk. apply bind_Ok in Hk as (i & Hi & Hk). pose proof (fn_is_fine (pt_ctx x P) _ _ _ Hi) as K.
    destruct i; [|discriminate]. injection Hk as <-. exact K.
  - refine (when_fine _ _ _ _ _ _ (po_props _ _ _ HP)). intros f k _ Hk. apply bind_Ok in Hk as (i & Hi & Hk). pose proof (prop_fine (pt_ctx x P) HU _ _ _ Hi) as K.
    destruct i; [|discriminate]. injection Hk as <-. exact K.
  - refine (when_fine _ _ _ _ _ _ (po_subs _ _ _ HP)). intros s k Hs Hk. apply (IH s Hs k); [|exact Hk]. intros k0 i v Hk0. apply HI. now apply (within_sub k0 m s).
Qed.

Section output.
  Variable x : penv.
  Hypothesis HU : uni_ok (pe_uni x).
  Hypothesis Ho : order_ok (pe_ord x).
  Hypothesis Hw : honest (pe_uni x) (pe_world x).
  Variables (numpy : bool) (fuel : nat) (l : list request) (c : codegen) (out : list frag).
  Hypothesis Hl : asked_modules (pe_world x) l.
  Hypothesis Hc : asks x fuel l cg_new = Ok c.
  Hypothesis Hout : cg_generate x numpy fuel c = Ok out.
  Let U := pe_uni x.
  Theorem output_fine : fine U out.
  Proof.
    pose proof Hout as H. unfold cg_generate in H. apply bind_Ok in H as (ms & Hf & H). apply bind_Ok in H as (ls & Hls & H). injection H as <-.
    intros y Hy. apply in_concat in Hy as (k & Hk & Hy). destruct (mapM_In _ _ _ _ Hls Hk) as (m & Hm & Hg).
    refine (module_fine (gen_ctx x numpy ms) HU m k _ Hg y Hy). intros m' i v Hm' Hi Hex Hv. cbn [mx_uni gen_ctx mx_top] in *.
    assert (Ta : absolute (im_target i)).
    { destruct (final_located x Ho Hw fuel l c ms Hl Hc Hf m m' (AnImport i) Hm Hm' Hi _ eq_refl) as (j & Ej).
      destruct (final_titled x Ho Hw fuel l c ms Hl Hc Hf m m' (AnImport i) Hm Hm' Hi _ eq_refl) as (n & Hn & q & Eq).
      destruct (last_named _ (m_name m') (final_named x Ho Hw fuel l c ms Hl Hc Hf m m' Hm Hm')) as (Lc & Lk & _).
      rewrite Ej in Eq. cbn [segs path_snoc] in Eq. apply app_inj_tail in Eq as [_ ->]. rewrite Ej. split; [exact Lc|].
      intros z Hz. cbn [segs path_snoc] in Hz. apply in_app_or in Hz as [Hz|[<-|[]]]; [now apply Lk|]. apply from_py_not_path_kw. }
    destruct (import_generate_correct _ i v (found_absolute x Ho Hw fuel l c ms Hl Hc Hf _ Hex) Ta Hv) as (_ & _ & R & _). exact (resolve_useable _ _ _ R).
  Qed.
  Theorem output_file : well_formed U InModule out -> is_a U "File" (tokens out).
  Proof. intros H. apply well_formed_file; [exact HU| |exact H]. apply fine_and, output_fine. Qed.
End output.
