(** * Lemmas: switching off a kind of item documentation (C46) *)
From Coq Require Import Permutation.
From Verif Require Import Base Model_Ident Model_Path Model_Import Model_Text Model_Config Model_Type Model_IntoRs Model_World Model_Out
  Model_Function Model_Property Model_Class Model_Module Model_Parse Model_Codegen Spec_Path Spec_Names Spec_Call Spec_Items Spec_Tree Spec_Api Spec_Safe Spec_Out Spec_Switch
  Proof_Base Proof_Ident Proof_Path Proof_Text Proof_IntoRs Proof_Call Proof_Function Proof_Fresh Proof_Method Proof_Kind Proof_Items Proof_Module
  Proof_Parse Proof_Forest Proof_Err Proof_Api Proof_Honest Proof_Calm Proof_Rooted Proof_Parts Proof_Property Proof_Scope Proof_Switch.

Lemma undoc_mod : forall n b, undoc_in (GMod n b) = GMod n (undoc b). Proof. reflexivity. Qed.
Lemma undoc_impl_for : forall t n b, undoc_in (GImplFor t n b) = GImplFor t n (undoc b). Proof. reflexivity. Qed.
Lemma undoc_impl : forall n b, undoc_in (GImpl n b) = GImpl n (undoc b). Proof. reflexivity. Qed.
(** Documentation with no item after it *)
Fixpoint dangling (l : list frag) : bool := match l with [] => false | y :: r => is_doc y && forallb leads r || dangling r end.
Lemma next_app : forall a b, forallb leads a = false -> next_remarked (a ++ b) = next_remarked a.
Proof. induction a as [|y a IH]; intros b H; [discriminate|]. cbn in *. destruct (leads y); [now apply IH|reflexivity]. Qed.
Lemma undoc_app : forall a b, dangling a = false -> undoc (a ++ b) = undoc a ++ undoc b.
Proof.
  induction a as [|y a IH]; intros b H; [reflexivity|]. cbn [dangling] in H. apply orb_false_iff in H as [H1 H2]. cbn [app undoc]. destruct (is_doc y) eqn:E; cbn [andb] in *.
  - rewrite next_app by exact H1. rewrite (IH b H2). now destruct (negb _).
  - now rewrite (IH b H2).
Qed.
Lemma dangling_app : forall a b, dangling a = false -> dangling b = false -> dangling (a ++ b) = false.
Proof.
  induction a as [|y a IH]; intros b H Hb; [exact Hb|]. cbn [dangling app] in *. apply orb_false_iff in H as [H1 H2]. rewrite (IH b H2 Hb), orb_false_r.
  destruct (is_doc y); [|reflexivity]. cbn [andb] in *. rewrite forallb_app, H1. reflexivity.
Qed.
Lemma dangling_concat : forall ls, (forall l, In l ls -> dangling l = false) -> dangling (concat ls) = false.
Proof. induction ls as [|l ls IH]; intros H; [reflexivity|]. cbn. apply dangling_app; [apply H; now left|apply IH; intros k Hk; apply H; now right]. Qed.
Lemma undoc_concat : forall ls, (forall l, In l ls -> dangling l = false) -> undoc (concat ls) = concat (map undoc ls).
Proof. induction ls as [|l ls IH]; intros H; [reflexivity|]. cbn [concat map]. rewrite undoc_app by (apply H; now left). f_equal. apply IH. intros k Hk. apply H. now right. Qed.
Lemma closed_dangling : forall l, closed l -> dangling l = false.
Proof.
  intros l [->|(a & y & -> & Hy)]; [reflexivity|]. induction a as [|z a IH].
  - cbn. rewrite orb_false_r. destruct y; try discriminate; reflexivity.
  - cbn [app dangling]. rewrite IH, orb_false_r. rewrite forallb_app. cbn. rewrite Hy. rewrite !andb_false_r. reflexivity.
Qed.
Lemma undoc_docs : forall docs l, (forall y, In y docs -> exists t, y = GDoc t) -> next_remarked l = false -> undoc (docs ++ l) = undoc l.
Proof.
  intros docs l. induction docs as [|y docs IH]; intros H Hl; [reflexivity|]. cbn [app undoc]. destruct (H y (or_introl eq_refl)) as [t ->].
  assert (N : next_remarked (docs ++ l) = false).
  { assert (Hd : forall z, In z docs -> leads z = true) by (intros z Hz; now destruct (H z (or_intror Hz)) as [t' ->]). clear -Hd Hl. induction docs as [|z d IH]; [exact Hl|]. cbn. rewrite (Hd z) by now left. apply IH. intros w Hw. apply Hd. now right. }
  rewrite N. cbn [is_doc andb negb]. apply IH; [|exact Hl]. intros z Hz. apply H. now right.
Qed.
(** Without documentation and blocks there is nothing to take out. *)
Definition plain (y : frag) : Prop := is_doc y = false /\ undoc_in y = y.
Lemma undoc_plain : forall l, (forall y, In y l -> plain y) -> undoc l = l.
Proof. induction l as [|y l IH]; intros H; [reflexivity|]. cbn [undoc]. destruct (H y (or_introl eq_refl)) as [-> ->]. cbn [andb]. rewrite IH; [reflexivity|]. intros z Hz. apply H. now right. Qed.
Lemma plain_dangling : forall l, (forall y, In y l -> plain y) -> dangling l = false.
Proof. induction l as [|y l IH]; intros H; [reflexivity|]. cbn [dangling]. destruct (H y (or_introl eq_refl)) as [-> _]. cbn. apply IH. intros z Hz. apply H. now right. Qed.

(** ** Functions and properties *)
Definition g_undoc (g : gctx) : gctx := mk_gctx (docs_off (g_cfg g)) (g_imp g) (g_cx g).
Definition impl_undoc (i : fn_impl) : fn_impl := match i with IFunction l => IFunction (undoc l) | IMethod t l => IMethod t (undoc l) end.
Definition impl_settled (i : fn_impl) : Prop := match i with IFunction l => dangling l = false | IMethod t l => (forall y, In y t -> plain y) /\ dangling l = false end.
Lemma fn_undoc : forall g scope f i, fn_generate g scope f = Ok i -> fn_generate (g_undoc g) scope f = Ok (impl_undoc i) /\ impl_settled i.
Proof.
  intros g scope f i H. unfold fn_generate in *. change (g_uni (g_undoc g)) with (g_uni g). change (g_cx (g_undoc g)) with (g_cx g). change (gen_disp (g_undoc g) f) with (gen_disp g f).
  change (gen_doc (g_undoc g) (fn_doc f)) with (@Ok (list frag) []). apply bind_Ok in H as (docs & Hd & H). pose proof (doc_only _ _ _ Hd) as D. clear Hd. cbn [obind].
  apply bind_Ok in H as (n & Hn & H). rewrite Hn. cbn [obind]. destruct (fn_ident _ _) as [id|]; [|injection H as <-; now split].
  apply bind_Ok in H as (ids & Hi & H). rewrite Hi. cbn [obind]. apply bind_Ok in H as (preps & Hp & H). rewrite Hp. cbn [obind]. apply bind_Ok in H as (tys & Ht & H). rewrite Ht. cbn [obind].
  apply bind_Ok in H as (rt & Hr & H). rewrite Hr. cbn [obind]. apply bind_Ok in H as ((pb & k) & Hk & H). rewrite Hk. cbn [obind]. apply bind_Ok in H as (d & Hd & H). rewrite Hd. cbn [obind].
  destruct d as [d|]; [|injection H as <-; now split]. apply bind_Ok in H as (pos & Hpos & H). rewrite Hpos. cbn [obind]. apply bind_Ok in H as (kw & Hkw & H). rewrite Hkw. cbn [obind]. injection H as <-.
  set (fd := GFn _). assert (U : undoc (docs ++ (if pb then [GPub] else []) ++ [fd]) = (if pb then [GPub] else []) ++ [fd]) by (rewrite undoc_docs; [now destruct pb|exact D|now destruct pb]).
  assert (S : dangling (docs ++ (if pb then [GPub] else []) ++ [fd]) = false) by (apply closed_dangling; rewrite app_assoc; now apply closed_last).
  destruct (is_bound (fn_typ f)); cbn [impl_undoc impl_settled app]; rewrite U; split; auto. split; [|exact S]. intros y [<-|[]]. now split.
Qed.
Lemma getter_undoc : forall g scope p t l, gen_getter g scope p = Ok (t, l) -> gen_getter (g_undoc g) scope p = Ok (t, undoc l) /\ (forall y, In y t -> plain y) /\ dangling l = false.
Proof.
  intros g scope p t l H. unfold gen_getter in *. change (g_uni (g_undoc g)) with (g_uni g). change (g_cx (g_undoc g)) with (g_cx g). change (prop_disp (g_undoc g) p) with (prop_disp g p).
  change (gen_doc (g_undoc g) (pr_doc p)) with (@Ok (list frag) []). apply bind_Ok in H as (docs & Hd & H). pose proof (doc_only _ _ _ Hd) as D. clear Hd. cbn [obind].
  apply bind_Ok in H as (n & Hn & H). rewrite Hn. cbn [obind]. apply bind_Ok in H as (id & Hi & H). rewrite Hi. cbn [obind]. destruct id as [id|]; [|injection H as <- <-; now repeat split].
  apply bind_Ok in H as (ty & Ht & H). rewrite Ht. cbn [obind]. apply bind_Ok in H as (d & Hd & H). rewrite Hd. cbn [obind]. injection H as <- <-. split; [|split].
  - rewrite undoc_docs; [reflexivity|exact D|reflexivity].
  - unfold declare. destruct (owner_is_class _); [|easy]. intros y [<-|[]]. now split.
  - apply closed_dangling. now apply closed_last.
Qed.
Lemma setter_undoc : forall g scope p t l, gen_setter g scope p = Ok (t, l) -> gen_setter (g_undoc g) scope p = Ok (t, undoc l) /\ (forall y, In y t -> plain y) /\ dangling l = false.
Proof.
  intros g scope p t l H. unfold gen_setter in *. change (g_uni (g_undoc g)) with (g_uni g). change (g_cx (g_undoc g)) with (g_cx g). change (prop_disp (g_undoc g) p) with (prop_disp g p).
  change (gen_doc (g_undoc g) (pr_setter_doc p)) with (@Ok (list frag) []). apply bind_Ok in H as (docs & Hd & H). pose proof (doc_only _ _ _ Hd) as D. clear Hd. cbn [obind].
  apply bind_Ok in H as (n & Hn & H). rewrite Hn. cbn [obind]. apply bind_Ok in H as (id & Hi & H). rewrite Hi. cbn [obind]. destruct id as [id|]; [|injection H as <- <-; now repeat split].
  apply bind_Ok in H as (pr & Hpr & H). rewrite Hpr. cbn [obind]. apply bind_Ok in H as (ty & Ht & H). rewrite Ht. cbn [obind]. apply bind_Ok in H as (d & Hd & H). rewrite Hd. cbn [obind]. injection H as <- <-. split; [|split].
  - rewrite undoc_docs; [reflexivity|exact D|reflexivity].
  - unfold declare. destruct (owner_is_class _); [|easy]. intros y [<-|[]]. now split.
  - apply closed_dangling. now apply closed_last.
Qed.
Lemma prop_undoc : forall g scope p i, prop_generate g scope p = Ok i -> prop_generate (g_undoc g) scope p = Ok (impl_undoc i) /\ impl_settled i.
Proof.
  intros g scope p i H. unfold prop_generate in *. apply bind_Ok in H as ((gt & gi) & Hg & H). destruct (getter_undoc _ _ _ _ _ Hg) as (E1 & E2 & E3). rewrite E1. cbn [obind].
  apply bind_Ok in H as ((st & si) & Hs & H).
  assert (S : (if pr_mutable p then gen_setter (g_undoc g) scope p else Ok ([], [])) = Ok (st, undoc si) /\ (forall y, In y st -> plain y) /\ dangling si = false).
  { destruct (pr_mutable p); [now apply setter_undoc|]. injection Hs as <- <-. now repeat split. }
  destruct S as (S1 & S2 & S3). rewrite S1. cbn [obind]. injection H as <-. destruct (pr_owner p).
  - assert (D : dangling (if pr_mutable p then GPub :: si else []) = false) by (destruct (pr_mutable p); [exact S3|reflexivity]). cbn [impl_undoc impl_settled]. split.
    + do 2 f_equal. cbn [undoc is_doc andb undoc_in]. f_equal. rewrite undoc_app by exact E3. f_equal. now destruct (pr_mutable p).
    + cbn [dangling is_doc andb orb]. now apply dangling_app.
  - cbn [impl_undoc impl_settled]. split; [now rewrite undoc_app by exact E3|]. split; [|now apply dangling_app]. intros y Hy. apply in_app_or in Hy as [Hy|Hy]; auto.
Qed.
Lemma members_undoc : forall is m, (forall i, In i is -> impl_settled i) -> dangling (mb_struct m) = false -> dangling (mb_impls m) = false ->
  fold_left add_member (map impl_undoc is) (mk_members (undoc (mb_struct m)) (mb_defs m) (undoc (mb_impls m))) =
  let r := fold_left add_member is m in mk_members (undoc (mb_struct r)) (mb_defs r) (undoc (mb_impls r)).
Proof.
  induction is as [|i is IH]; intros m H H1 H2; [reflexivity|]. cbn [map fold_left]. pose proof (H i (or_introl eq_refl)) as Hi. assert (Hr : forall j, In j is -> impl_settled j) by (intros j Hj; apply H; now right).
  assert (E : add_member (mk_members (undoc (mb_struct m)) (mb_defs m) (undoc (mb_impls m))) (impl_undoc i) =
              mk_members (undoc (mb_struct (add_member m i))) (mb_defs (add_member m i)) (undoc (mb_impls (add_member m i)))).
  { destruct i as [l|t l]; cbn [add_member impl_undoc mb_struct mb_defs mb_impls]; now rewrite undoc_app. }
  rewrite E. apply IH; [exact Hr| |]; destruct i as [l|t l]; cbn [add_member mb_struct mb_impls]; try assumption; cbn in Hi; [|destruct Hi as [_ Hi]]; now apply dangling_app.
Qed.
Lemma mapM_undoc : forall {A B} (f f' : A -> outcome B) (k : B -> B) (S : B -> Prop) l r, (forall a y, f a = Ok y -> f' a = Ok (k y) /\ S y) -> mapM f l = Ok r ->
  mapM f' l = Ok (map k r) /\ forall y, In y r -> S y.
Proof.
  intros A B f f' k S l. induction l as [|a l IH]; intros r H Hr; [injection Hr as <-; now split|]. cbn [mapM] in *. apply bind_Ok in Hr as (y & Hy & Hr). apply bind_Ok in Hr as (ys & Hys & Hr). injection Hr as <-.
  destruct (H a y Hy) as [-> Sy]. cbn [obind]. destruct (IH ys H Hys) as [-> Ss]. split; [reflexivity|]. intros z [<-|Hz]; auto.
Qed.
Lemma class_undoc : forall g c l, class_generate g c = Ok l -> class_generate (g_undoc g) c = Ok (undoc l).
Proof.
  intros g c l H. unfold class_generate in *. change (g_uni (g_undoc g)) with (g_uni g). change (gen_doc (g_undoc g) (cl_doc c)) with (@Ok (list frag) []).
  apply bind_Ok in H as (docs & Hd & H). pose proof (doc_only _ _ _ Hd) as D. clear Hd. cbn [obind]. apply bind_Ok in H as (n & Hn & H). rewrite Hn. cbn [obind].
  destruct (struct_ident _ _) as [id|]; [|now injection H as <-]. apply bind_Ok in H as (scope & Hs & H). rewrite Hs. cbn [obind]. apply bind_Ok in H as (ms & Hms & H). apply bind_Ok in H as (ps & Hps & H).
  apply bind_Ok in H as (tid & Ht & H). injection H as <-. destruct (mapM_undoc _ _ impl_undoc impl_settled _ _ (fn_undoc g scope) Hms) as [-> S1]. cbn [obind].
  destruct (mapM_undoc _ _ impl_undoc impl_settled _ _ (prop_undoc g _) Hps) as [-> S2]. cbn [obind]. rewrite Ht. cbn [obind].
  pose proof (members_undoc (ms ++ ps) (mk_members [] [] []) (fun i Hi => match in_app_or _ _ _ Hi with or_introl h => S1 i h | or_intror h => S2 i h end) eq_refl eq_refl) as M.
  rewrite map_app in M. cbn [undoc mb_struct mb_defs mb_impls] in M. rewrite M. cbv zeta. cbn [mb_struct mb_defs mb_impls]. rewrite undoc_docs; [reflexivity|exact D|reflexivity].
Qed.

(** ** Modules *)
Definition mx_undoc (x : mctx) : mctx := mk_mctx (docs_off (mx_cfg x)) (mx_imp x) (mx_dbg x) (mx_numpy x) (mx_uni x) (mx_top x) (mx_types x).
Lemma when_undoc : forall {A} b (f f' : A -> outcome (list frag)) l r, (forall a y, In a l -> f a = Ok y -> f' a = Ok (undoc y) /\ dangling y = false) -> when b (concatM f l) = Ok r ->
  when b (concatM f' l) = Ok (undoc r) /\ dangling r = false.
Proof.
  intros A b f f' l r H Hr. destruct b; [|injection Hr as <-; now split]. cbn [when] in *. unfold concatM in *. apply bind_Ok in Hr as (ys & Hys & Hr). injection Hr as <-.
  assert (K : mapM f' l = Ok (map undoc ys) /\ forall y, In y ys -> dangling y = false).
  { revert ys Hys. induction l as [|a l IH]; intros ys Hys; [injection Hys as <-; now split|]. cbn [mapM] in *. apply bind_Ok in Hys as (y & Hy & Hys). apply bind_Ok in Hys as (r & Hr & Hys). injection Hys as <-.
    destruct (H a y (or_introl eq_refl) Hy) as [-> S]. cbn [obind]. destruct (IH (fun a' y' Ha' => H a' y' (or_intror Ha')) r Hr) as [-> S']. split; [reflexivity|]. intros z [<-|Hz]; auto. }
  destruct K as [-> S]. cbn. split; [now rewrite undoc_concat|now apply dangling_concat].
Qed.
Lemma embed_undoc : forall m, undoc (gen_embed m) = gen_embed m.
Proof. intros m. unfold gen_embed. destruct (m_source m); reflexivity. Qed.
Lemma module_undoc : forall x m l, mod_generate x m = Ok l -> mod_generate (mx_undoc x) m = Ok (undoc l).
Proof.
  intros x m. induction m as [m IH] using module_nested_ind. intros l H. rewrite mod_generate_eq in H |- *. cbv zeta in *. cbn [mx_undoc mx_cfg mx_imp mx_dbg mx_numpy mx_uni mx_top mx_types].
  set (top := if in_dec module_dec m (mx_top x) then [GAttr AttrAllow] else []) in *. assert (Ht : forall y, In y top -> plain y) by (subst top; destruct (in_dec _ _ _); [intros y [<-|[]]; now split|easy]). clearbody top.
  apply bind_Ok in H as (scope & Hs & H). rewrite Hs. cbn [obind]. apply bind_Ok in H as (lt & Hlt & H). rewrite Hlt. cbn [obind].
  set (g := mk_gctx (mx_cfg x) (mx_imp x) (mk_ctx (mx_dbg x) (mx_numpy x) (mx_uni x) lt)) in *.
  change (mk_gctx (docs_off (mx_cfg x)) (mx_imp x) (mk_ctx (mx_dbg x) (mx_numpy x) (mx_uni x) lt)) with (g_undoc g). change (gen_doc (g_undoc g) (m_doc m)) with (@Ok (list frag) []). cbn [obind].
  apply bind_Ok in H as (docs & Hd & H). pose proof (doc_only _ _ _ Hd) as D. clear Hd.
  apply bind_Ok in H as (imports & Hi & H). change (generate_imports (docs_off (mx_cfg x))) with (generate_imports (mx_cfg x)). rewrite Hi. cbn [obind].
  apply bind_Ok in H as (prelude & Hp & H). change (generate_preludes (docs_off (mx_cfg x))) with (generate_preludes (mx_cfg x)). rewrite Hp. cbn [obind].
  apply bind_Ok in H as (vars & Hv & H). change (generate_type_vars (docs_off (mx_cfg x))) with (generate_type_vars (mx_cfg x)). rewrite Hv. cbn [obind].
  apply bind_Ok in H as (classes & Hc & H). change (generate_classes (docs_off (mx_cfg x))) with (generate_classes (mx_cfg x)).
  destruct (when_undoc _ _ (class_generate (g_undoc g)) _ _ (fun c y _ Hy => conj (class_undoc g c y Hy) (closed_dangling y (class_closed g c y Hy))) Hc) as [-> Sc]. cbn [obind].
  apply bind_Ok in H as (fns & Hfn & H). change (generate_functions (docs_off (mx_cfg x))) with (generate_functions (mx_cfg x)).
  assert (OF : forall (i : fn_impl) y, impl_settled i -> only_function i = Ok y -> only_function (impl_undoc i) = Ok (undoc y) /\ dangling y = false).
  { intros [k|t k] y Si Hy; [|discriminate]. injection Hy as <-. now split. }
  assert (Ff : forall f y, In f (m_functions m) -> (let! i := fn_generate g scope f in only_function i) = Ok y -> (let! i := fn_generate (g_undoc g) scope f in only_function i) = Ok (undoc y) /\ dangling y = false).
  { intros f y _ Hy. apply bind_Ok in Hy as (i & Hi' & Hy). destruct (fn_undoc g scope f i Hi') as [-> Si]. now apply OF. }
  destruct (when_undoc _ _ _ _ _ Ff Hfn) as [-> Sf]. cbn [obind]. clear Ff.
  apply bind_Ok in H as (props & Hpr & H). change (generate_properties (docs_off (mx_cfg x))) with (generate_properties (mx_cfg x)).
  assert (Fp : forall f y, In f (m_properties m) -> (let! i := prop_generate g scope f in only_function i) = Ok y -> (let! i := prop_generate (g_undoc g) scope f in only_function i) = Ok (undoc y) /\ dangling y = false).
  { intros f y _ Hy. apply bind_Ok in Hy as (i & Hi' & Hy). destruct (prop_undoc g scope f i Hi') as [-> Si]. now apply OF. }
  destruct (when_undoc _ _ _ _ _ Fp Hpr) as [-> Sp]. cbn [obind]. clear Fp.
  apply bind_Ok in H as (subs & Hsb & H). change (traverse_submodules (docs_off (mx_cfg x))) with (traverse_submodules (mx_cfg x)).
  destruct (when_undoc _ _ (mod_generate (mx_undoc x)) _ _ (fun s y Hin Hy => conj (IH s Hin y Hy) (closed_dangling y (mod_closed x s y Hy))) Hsb) as [E Ss]. change (mk_mctx (docs_off (mx_cfg x)) _ _ _ _ _ _) with (mx_undoc x). rewrite E. cbn [obind].
  apply bind_Ok in H as (n & Hn & H). rewrite Hn. cbn [obind]. apply bind_Ok in H as (id & Hid & H). rewrite Hid. cbn [obind]. injection H as <-.
  assert (P1 : forall y, In y imports -> plain y).
  { intros y. refine (when_all _ _ _ _ plain Hi _ y). intros i k _ Hk z Hz. apply (use_shape (mx_uni x) i) in Hk as [->|(v & -> & _)]; [easy|]. destruct Hz as [<-|[<-|[]]]; now split. }
  assert (P2 : forall y, In y prelude -> plain y).
  { intros y Hy. destruct (generate_preludes _); [|now injection Hp as <-]. apply prelude_shape in Hp as [->|(pid & ex & -> & _)]; [easy|]. destruct Hy as [<-|[<-|[]]]; now split. }
  assert (P3 : forall y, In y vars -> plain y).
  { intros y. refine (when_all _ _ _ _ plain Hv _ y). intros i k _ Hk z Hz. apply var_shape in Hk as (v & _ & _ & ->). destruct Hz as [<-|[<-|[]]]; now split. }
  f_equal. rewrite undoc_app by (now apply plain_dangling). rewrite (undoc_plain top Ht). f_equal. rewrite undoc_docs; [|exact D|reflexivity]. match goal with |- _ = undoc [GPub; GMod id ?B] => change (undoc [GPub; GMod id B]) with [GPub; GMod id (undoc B)] end. cbn [app]. do 3 f_equal.
  rewrite undoc_app by (apply closed_dangling, embed_closed). rewrite embed_undoc. f_equal. rewrite undoc_app by (now apply plain_dangling). rewrite (undoc_plain _ P1). f_equal.
  rewrite undoc_app by (now apply plain_dangling). rewrite (undoc_plain _ P2). f_equal. rewrite undoc_app by (now apply plain_dangling). rewrite (undoc_plain _ P3). f_equal.
  rewrite undoc_app by exact Sc. f_equal. rewrite undoc_app by exact Sf. f_equal. now rewrite undoc_app by exact Sp.
Qed.

Definition pe_undoc (x : penv) : penv := mk_penv (pe_env x) (docs_off (pe_cfg x)) (pe_ord x).
Lemma barec_false : forall c, barec false c = c.
Proof. intros [ms src]. unfold barec. cbn. f_equal. rewrite <- (map_id ms) at 2. apply map_ext. apply bare_false. Qed.
Lemma map_bare_false : forall ms, map (bare false) ms = ms.
Proof. intros ms. rewrite <- (map_id ms) at 2. apply map_ext. apply bare_false. Qed.
Lemma undoc_output : forall x numpy fuel l c out, order_ok (pe_ord x) -> asks x fuel l cg_new = Ok c -> cg_generate x numpy fuel c = Ok out ->
  asks (pe_undoc x) fuel l cg_new = Ok c /\ cg_generate (pe_undoc x) numpy fuel c = Ok (undoc out).
Proof.
  intros x numpy fuel l c out Ho Hc Hout. split.
  { pose proof (follow_asks x (pe_undoc x) false eq_refl eq_refl (fun _ _ => eq_refl) eq_refl eq_refl eq_refl fuel l cg_new) as F. rewrite Hc in F. unfold follows in F. rewrite !barec_false in F. exact F. }
  unfold cg_generate in *. apply bind_Ok in Hout as (ms & Hf & H).
  pose proof (follow_final x (pe_undoc x) false eq_refl eq_refl (fun _ _ => eq_refl) eq_refl eq_refl eq_refl Ho fuel c ms Hf) as F. rewrite barec_false, map_bare_false in F. rewrite F. cbn [obind].
  change (gen_ctx (pe_undoc x) numpy ms) with (mx_undoc (gen_ctx x numpy ms)).
  exact (proj1 (when_undoc true _ (mod_generate (mx_undoc (gen_ctx x numpy ms))) _ _ (fun s y _ Hy => conj (module_undoc _ s y Hy) (closed_dangling y (mod_closed _ s y Hy))) H)).
Qed.

(** ** Nothing of the kind is left *)
Lemma from_nth : forall K l front f, (forall y, In y front -> leads y = true) -> In f (without_from K front l) -> leads f = false -> exists y, In y l /\ leads y = false /\ kind_of y <> K /\ f = without_in K y.
Proof.
  intros K. induction l as [|y l IH]; intros front f Hf Hin Hl; cbn [without_from] in Hin; [apply Hf in Hin; congruence|]. destruct (leads y) eqn:E.
  - destruct (IH (front ++ [y]) f) as (z & Hz & R); [|exact Hin|exact Hl|exists z; split; [now right|exact R]]. intros z Hz. apply in_app_or in Hz as [Hz|[<-|[]]]; auto.
  - apply in_app_or in Hin as [Hin|Hin].
    + destruct (kind_eqb (kind_of y) K) eqn:Ek; [easy|]. apply in_app_or in Hin as [Hin|[<-|[]]]; [apply Hf in Hin; congruence|]. exists y. split; [now left|]. split; [exact E|]. split; [|reflexivity].
      intros Ek'. rewrite Ek' in Ek. now destruct K.
    + destruct (IH [] f) as (z & Hz & R); [easy|exact Hin|exact Hl|exists z; split; [now right|exact R]].
Qed.
Lemma without_kind : forall K y, kind_of y <> K -> kind_of (without_in K y) <> K.
Proof.
  intros K y H. destruct y; cbn [without_in]; try exact H. change (kind_of (GMod n (without K l)) <> K). cbn [kind_of] in *. destruct (is_prelude l) eqn:E.
  - destruct l as [|[] [|[] [|? ?]]]; try discriminate. destruct K; try exact H; cbn; discriminate.
  - destruct (is_prelude (without K l)) eqn:E'; [|exact H]. intros <-. destruct (without KPrelude l) as [|[] [|[] [|? ?]]] eqn:W; try discriminate.
    destruct (from_nth KPrelude l [] (GUseSuper l0)) as (y & _ & _ & Hy & Ey); [easy| |reflexivity|].
    + fold (without KPrelude l). rewrite W. right. now left.
    + destruct y; try discriminate. apply Hy. reflexivity.
Qed.
Lemma without_gone : forall K l ns k f, at_path (without K l) ns k -> In f k -> leads f = false -> kind_of f <> K.
Proof.
  intros K l ns k f H. remember (without K l) as l' eqn:E. revert l E. induction H as [l'|l' n b ns k Hin H IH]; intros l -> Hf Hl.
  - destruct (from_nth K l [] f) as (y & _ & _ & Hy & ->); [easy|exact Hf|exact Hl|]. now apply without_kind.
  - destruct (from_nth K l [] (GMod n b)) as (y & _ & _ & _ & Ey); [easy|exact Hin|reflexivity|]. destruct y; try discriminate. injection Ey as -> ->.
    exact (IH l0 eq_refl Hf Hl).
Qed.
(** ** Without submodules *)
Lemma no_modules : forall x m l, traverse_submodules (mx_cfg x) = false -> mod_typed m -> mod_generate x m = Ok l ->
  forall n b n' b', In (GMod n b) l -> In (GMod n' b') b -> is_prelude b' = true.
Proof.
  intros x m l Ht (_ & _ & Hty) H n b n' b' Hb Hb'. destruct (generated_mods x m l n b H Hb) as (P & HP & _ & _ & ->).
  destruct (body_frag x m P _ HP (fun f Hf => Hty f Hf) Hb') as [E|[(?&?&?&E&_)|[(?&E&_)|[(pn & pb & E & Hp)|[(?&E&_)|[E|[(?&E&_)|[(?&E&_)|(?&?&_&E)]]]]]]]]; try discriminate.
  - injection E as <- <-. pose proof (po_prelude _ _ _ HP) as Hpre. destruct (generate_preludes _); [|injection Hpre as E; now rewrite <- E in Hp]. cbn in Hpre.
    apply prelude_shape in Hpre as [E|(pid & ex & E & _)]; rewrite E in Hp; [easy|]. destruct Hp as [Hp|[Hp|[]]]; [discriminate|]. now injection Hp as _ <-.
  - exfalso. destruct (when_from _ _ _ _ _ (po_classes _ _ _ HP) E) as (_ & c & k & _ & Hk & Hin). now apply class_no_mod with (n := n') (b := b') in Hk.
  - exfalso. pose proof (po_subs _ _ _ HP) as Hs. rewrite Ht in Hs. injection Hs as Es. now rewrite <- Es in E.
Qed.
Lemma no_modules_output : forall x numpy fuel l c out, order_ok (pe_ord x) -> traverse_submodules (pe_cfg x) = false -> asks x fuel l cg_new = Ok c -> cg_generate x numpy fuel c = Ok out ->
  forall n b n' b', In (GMod n b) out -> In (GMod n' b') b -> is_prelude b' = true.
Proof.
  intros x numpy fuel l c out Ho Ht Hc Hout n b n' b' Hb Hb'. unfold cg_generate in Hout. apply bind_Ok in Hout as (ms & Hf & H). destruct (when_from true _ _ _ _ H Hb) as (_ & m & k & Hm & Hk & Hin).
  apply (no_modules (gen_ctx x numpy ms) m k Ht) with (n := n) (b := b) (n' := n'); auto. apply (final_typed x fuel l c ms Ho Hc Hf m m Hm). constructor.
Qed.
(** ** The items that are left *)
Lemma split_leads : forall a front l, (forall y, In y a -> leads y = true) -> split_items front (a ++ l) = split_items (front ++ a) l.
Proof.
  induction a as [|y a IH]; intros front l H; [now rewrite app_nil_r|]. cbn [app split_items]. rewrite (H y (or_introl eq_refl)), IH by (intros z Hz; apply H; now right).
  now rewrite <- app_assoc.
Qed.
Lemma split_without : forall K l front, (forall y, In y front -> leads y = true) ->
  split_items [] (without_from K front l) = map (fun i => (fst i, without_in K (snd i))) (filter (fun i => negb (kind_eqb (kind_of (snd i)) K)) (split_items front l)).
Proof.
  intros K. induction l as [|y l IH]; intros front H; cbn [without_from].
  - rewrite <- (app_nil_r front) at 1. now rewrite split_leads.
  - cbn [split_items]. destruct (leads y) eqn:E; [apply IH; intros z Hz; apply in_app_or in Hz as [Hz|[<-|[]]]; auto|]. cbn [filter snd].
    destruct (kind_eqb (kind_of y) K); cbn [negb app map]; [now apply IH|]. rewrite <- app_assoc. rewrite split_leads by exact H. cbn [app split_items].
    assert (E' : leads (without_in K y) = false) by now destruct y. rewrite E'. cbn [fst snd]. f_equal. now apply IH.
Qed.
