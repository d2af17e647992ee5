(** * Lemmas: well-formed modules *)
From Verif Require Import Base Model_Ident Model_Path Model_Import Model_Text Model_Config Model_Type Model_IntoRs Model_World Model_Out
  Model_Function Model_Property Model_Class Model_Module Spec_Path Spec_Names Spec_Call Spec_Items Spec_Tree
  Proof_Base Proof_Ident Proof_Path Proof_IntoRs Proof_Call Proof_Function Proof_Fresh Proof_Method Proof_Kind Proof_Items.

(** Induction over the tree of modules *)
Fixpoint module_nested_ind (P : module -> Prop) (H : forall m, (forall s, In s (m_subs m) -> P s) -> P m) (m : module) {struct m} : P m :=
  H m ((fix go (l : list module) : forall s, In s l -> P s :=
          match l return forall s, In s l -> P s with
          | [] => fun s (h : In s []) => match h with end
          | x :: r => fun s (h : In s (x :: r)) =>
              match h with
              | or_introl e => match e in _ = y return P y with eq_refl => module_nested_ind P H x end
              | or_intror h' => go r s h'
              end
          end) (m_subs m)).

(** ** Classes *)
Definition members_ok (U : uni) (m : members) : Prop :=
  well_formed U InImpl (mb_struct m) /\ well_formed U InTrait (mb_defs m) /\ well_formed U InTraitImpl (mb_impls m) /\
  declared (mb_defs m) = defined (mb_impls m).
Lemma members_fold : forall g l m, members_ok (g_uni g) m -> (forall i, In i l -> impl_ok_at g InImpl i) ->
  members_ok (g_uni g) (fold_left add_member l m).
Proof.
  intros g. induction l as [|i l IH]; intros m Hm Hl; [exact Hm|]. cbn [fold_left]. apply IH; [|intros j Hj; apply Hl; now right].
  pose proof (Hl i (or_introl eq_refl)) as Hi. destruct Hm as (M1 & M2 & M3 & M4). destruct i as [k|t k]; cbn [add_member impl_ok_at] in *.
  - split; [now apply items_app|]. auto.
  - destruct Hi as (I1 & I2 & I3). split; [exact M1|]. split; [now apply items_app|]. split; [now apply items_app|].
    cbn [mb_defs mb_impls]. rewrite declared_app, defined_app. congruence.
Qed.

Lemma class_shape : forall g c l, uni_ok (g_uni g) -> relative_table (g_cx g) -> (forall p, In p (cl_props c) -> pr_owner p = OwnerClass) ->
  class_generate g c = Ok l ->
  l = [] \/ exists docs id tid m, (forall x, In x docs -> exists t, x = GDoc t) /\ rust_ident (g_uni g) id /\ rust_ident (g_uni g) tid /\
    members_ok (g_uni g) m /\
    l = docs ++ [GAttr AttrRepr; GPub; GStruct id; GMacros id (to_py (cl_name c)); GAttr AttrDerived; GImpl id (mb_struct m)]
          ++ trait_docs ++ [GAttr (AttrAlias id); GAttr AttrDerived; GPub; GTrait tid (mb_defs m); GAttr AttrDerived; GImplFor tid id (mb_impls m)].
Proof.
  intros g c l HU HT Hown H. unfold class_generate in H.
  apply bind_Ok in H as (docs & Hdoc & H). apply bind_Ok in H as (name & _ & H).
  destruct (struct_ident (g_uni g) name) as [id|] eqn:Eid; [|injection H as <-; now left].
  apply bind_Ok in H as (scope & Hscope & H). apply bind_Ok in H as (ms & Hms & H). apply bind_Ok in H as (ps & Hps & H).
  apply bind_Ok in H as (tid & Htid & H). injection H as <-. right.
  exists docs, id, tid, (fold_left add_member (ms ++ ps) (mk_members [] [] [])).
  split; [intros x Hx; now apply (gen_doc_only_docs _ _ _ _ Hdoc)|]. split.
  { unfold struct_ident, as_rs in Eid. destruct (syn_ident_ok (g_uni g) name) eqn:E; [injection Eid as <-; now apply syn_rust_ident|].
    destruct (syn_ident_ok (g_uni g) (ident_from_py (g_uni g) _)) eqn:E2; [injection Eid as <-; now apply syn_rust_ident|discriminate]. }
  split; [now apply to_syn_ident in Htid|]. split; [|reflexivity].
  apply members_fold; [repeat split|]. intros i Hi. apply in_app_or in Hi as [Hi|Hi].
  - destruct (mapM_In _ _ _ _ Hms Hi) as (f & _ & Hf). exact (fn_generate_wf g HU HT scope f i InImpl (or_intror eq_refl) Hf).
  - destruct (mapM_In _ _ _ _ Hps Hi) as (p & Hp & Hf). exact (class_prop_wf g HU HT _ p i (Hown p Hp) Hf).
Qed.

Lemma class_wf : forall g c l, uni_ok (g_uni g) -> relative_table (g_cx g) -> (forall p, In p (cl_props c) -> pr_owner p = OwnerClass) ->
  class_generate g c = Ok l -> well_formed (g_uni g) InModule l.
Proof.
  intros g c l HU HT Hown H. destruct (class_shape g c l HU HT Hown H) as [->|(docs & id & tid & m & Hd & Hi & Ht & (M1 & M2 & M3 & _) & ->)]; [reflexivity|].
  apply items_docs; [exact Hd| |]; cbn; repeat split; try discriminate; auto.
Qed.

(** ** Variables *)
Lemma accessor_module : forall g scope p l, uni_ok (g_uni g) -> relative_table (g_cx g) ->
  pr_doc p = None -> pr_setter_doc p = None ->
  (forall name, path_name (pr_name p) = Ok name -> exists id, getter_ident (g_uni g) scope name = Ok (Some id) \/ forall o, getter_ident (g_uni g) scope name <> Ok o) ->
  (forall name, path_name (pr_name p) = Ok name -> exists id, prefixed_ident (g_uni g) scope "set_" name = Ok (Some id) \/ forall o, prefixed_ident (g_uni g) scope "set_" name <> Ok o) ->
  (let! i := prop_generate g scope p in only_function i) = Ok l -> well_formed (g_uni g) InModule l.
Proof.
  intros g scope p l HU HT D1 D2 N1 N2 H. apply bind_Ok in H as (i & Hi & H). unfold prop_generate in Hi.
  apply bind_Ok in Hi as ([gt gi] & Hg & Hi). apply bind_Ok in Hi as ([st si] & Hs & Hi).
  destruct (pr_owner p) eqn:Eo; injection Hi as <-; cbn [only_function] in H; [|discriminate]. injection H as <-.
  assert (one : forall (m : trait_method), accessor_ok g p m -> (forall x, In x (snd m) -> forall t, x <> GDoc t) -> snd m <> [] ->
    well_formed (g_uni g) InModule (GPub :: snd m)).
  { intros [t k] [_ A] Hno Hne. cbn [snd] in *. specialize (A Eo) as [_ [A|(docs & d & -> & Hdocs & Hd & Hk)]]; [easy|].
    destruct docs as [|x docs].
    - cbn. split; [discriminate|]. split; [auto|reflexivity].
    - exfalso. destruct (Hdocs x (or_introl eq_refl)) as [s ->]. now apply (Hno (GDoc s) (or_introl eq_refl) s). }
  change (GPub :: gi ++ (if pr_mutable p then GPub :: si else [])) with ((GPub :: gi) ++ (if pr_mutable p then GPub :: si else [])).
  apply items_app.
  - apply (one (gt, gi)).
    + now apply (getter_wf g HU HT scope).
    + unfold gen_getter in Hg. rewrite D1 in Hg. assert (E : gen_doc g None = Ok []) by (unfold gen_doc; now destruct (generate_docs _)). rewrite E in Hg.
      cbn [obind] in Hg. apply bind_Ok in Hg as (name & _ & Hg). apply bind_Ok in Hg as ([id|] & _ & Hg); [|injection Hg as <- <-; easy].
      repeat (apply bind_Ok in Hg as (? & _ & Hg)). injection Hg as <- <-. intros ? [<-|[]] t. discriminate.
    + cbn [snd]. intros ->. unfold gen_getter in Hg. apply bind_Ok in Hg as (docs & _ & Hg). apply bind_Ok in Hg as (name & Hn & Hg).
      apply bind_Ok in Hg as (o & Ho & Hg). destruct (N1 name Hn) as [id [K|K]]; [|now apply K in Ho]. rewrite K in Ho. injection Ho as <-.
      repeat (apply bind_Ok in Hg as (? & _ & Hg)). injection Hg as _ Hg. now destruct docs.
  - destruct (pr_mutable p); [|reflexivity]. apply (one (st, si)).
    + now apply (setter_wf g HU HT scope).
    + unfold gen_setter in Hs. rewrite D2 in Hs. assert (E : gen_doc g None = Ok []) by (unfold gen_doc; now destruct (generate_docs _)). rewrite E in Hs.
      cbn [obind] in Hs. apply bind_Ok in Hs as (name & _ & Hs). apply bind_Ok in Hs as ([id|] & _ & Hs); [|injection Hs as <- <-; easy].
      repeat (apply bind_Ok in Hs as (? & _ & Hs)). injection Hs as <- <-. intros ? [<-|[]] t. discriminate.
    + cbn [snd]. intros ->. unfold gen_setter in Hs. apply bind_Ok in Hs as (docs & _ & Hs). apply bind_Ok in Hs as (name & Hn & Hs).
      apply bind_Ok in Hs as (o & Ho & Hs). destruct (N2 name Hn) as [id [K|K]]; [|now apply K in Ho]. rewrite K in Ho. injection Ho as <-.
      repeat (apply bind_Ok in Hs as (? & _ & Hs)). injection Hs as _ Hs. now destruct docs.
Qed.

Lemma not_taken : forall U F n, starts_with r_hash n = false -> (forall f, In f F -> starts_with r_hash f = false) ->
  ~ In n F -> ~ In n reserved -> name_taken (map (ident_from_py U) F) (ident_from_py U n) = false.
Proof.
  intros U F n Hn HF H1 H2. unfold name_taken. apply orb_false_intro.
  - apply mem_str_notIn. intros Hin. apply in_map_iff in Hin as (f & E & Hf). apply from_py_inj in E; [|now apply HF|easy]. now subst f.
  - rewrite as_py_from_py by easy. apply mem_str_notIn. exact H2.
Qed.
Lemma prefixed_some : forall U F pre n, (forall s, starts_with r_hash (u pre ++ s) = false) -> starts_with r_hash n = false ->
  (forall f, In f F -> starts_with r_hash f = false) -> available F (u pre ++ n) ->
  exists id, prefixed_ident U (map (ident_from_py U) F) pre (ident_from_py U n) = Ok (Some id) \/
    forall o, prefixed_ident U (map (ident_from_py U) F) pre (ident_from_py U n) <> Ok o.
Proof.
  intros U F pre n Hp Hn HF [A1 A2]. unfold prefixed_ident. rewrite as_py_from_py by easy. rewrite not_taken by auto.
  destruct (ident_to_syn U _) as [id| | |]; cbn; [now exists id; left|..]; exists []; right; discriminate.
Qed.
Lemma accessors_some : forall U F n, uni_ok U -> starts_with r_hash n = false -> (forall f, In f F -> starts_with r_hash f = false) -> accessors_named U F n ->
  (exists id, getter_ident U (map (ident_from_py U) F) (ident_from_py U n) = Ok (Some id) \/
     forall o, getter_ident U (map (ident_from_py U) F) (ident_from_py U n) <> Ok o) /\
  (exists id, prefixed_ident U (map (ident_from_py U) F) "set_" (ident_from_py U n) = Ok (Some id) \/
     forall o, prefixed_ident U (map (ident_from_py U) F) "set_" (ident_from_py U n) <> Ok o).
Proof.
  intros U F n HU Hn HF [Hg Hs]. split.
  - unfold getter_ident. destruct Hg as [(H1 & H2 & H3 & H4)|Hg].
    + unfold as_rs. rewrite (proj2 (from_py_valid_iff U n HU H1) H2). rewrite not_taken by auto. cbn. eexists. now left.
    + destruct (_ && _); [eexists; now left|]. now apply prefixed_some.
  - apply prefixed_some; auto. split; [exact Hs|]. intros H. unfold reserved in H. cbn in H. repeat destruct H as [H|H]; discriminate || easy.
Qed.

(** ** Modules *)
Lemma mapM_names : forall U (fs : list func) F scope, Forall2 (fun f n => called U (fn_name f) n) fs F ->
  mapM (fun f => path_name (fn_name f)) fs = Ok scope -> scope = map (ident_from_py U) F.
Proof.
  intros U fs F scope H. revert scope. induction H as [|f n fs F (_ & q & Hq) HF IH]; intros scope E; [now injection E as <-|].
  cbn [mapM] in E. apply bind_Ok in E as (x & Hx & E). apply bind_Ok in E as (r & Hr & E). injection E as <-. cbn [map]. f_equal; [|now apply IH].
  unfold path_name in Hx. rewrite Hq, last_opt_app in Hx. cbn in Hx. now injection Hx as <-.
Qed.

Lemma local_relative : forall dbg U m ts lt, local_types dbg U m ts = Ok lt -> forall k v, In (k, v) lt -> leading_colon v = false.
Proof.
  intros dbg U m ts lt H k v Hin. unfold local_types in H. apply bind_Ok in H as (own & Hown & H). apply bind_Ok in H as (al & Hal & H). injection H as <-.
  apply in_rev in Hin.
  assert (R : forall a b c r, relative_to a b c = Ok r -> leading_colon r = false).
  { intros a b c r Hr. unfold relative_to in Hr. destruct (path_eqb a b).
    - destruct c; [apply bind_Ok in Hr as (? & _ & Hr)|]; now injection Hr as <-.
    - apply bind_Ok in Hr as (? & _ & Hr). apply bind_Ok in Hr as (? & _ & Hr). now injection Hr as <-. }
  apply in_app_or in Hin as [Hin|Hin].
  - destruct (mapM_In _ _ _ _ Hown Hin) as (p & _ & Hp). apply bind_Ok in Hp as (rel & Hr & Hp). injection Hp as <- <-. now apply R in Hr.
  - apply in_concat in Hin as (l & Hl & Hin). destruct (mapM_In _ _ _ _ Hal Hl) as (im & _ & Him). unfold alias_entries in Him.
    destruct (mapM_In _ _ _ _ Him Hin) as (p & _ & Hp). apply bind_Ok in Hp as (key & _ & Hp). apply bind_Ok in Hp as (rel & Hr & Hp).
    injection Hp as <- <-. now apply R in Hr.
Qed.

Lemma when_ok : forall {A} b (m : outcome (list A)) l, when b m = Ok l -> l = [] \/ m = Ok l.
Proof. intros A b m l H. destruct b; cbn in H; [now right|left; now injection H as <-]. Qed.
Lemma concatM_items : forall {A} item (f : A -> outcome (list frag)) l r, concatM f l = Ok r ->
  (forall x y, In x l -> f x = Ok y -> items item Nothing y) -> items item Nothing r.
Proof.
  intros A item f l r H K. apply bind_Ok in H as (ys & Hys & H). injection H as <-. apply items_concat.
  intros y Hy. destruct (mapM_In _ _ _ _ Hys Hy) as (x & Hx & E). now apply (K x).
Qed.
Lemma when_concat : forall {A} item b (f : A -> outcome (list frag)) l r, when b (concatM f l) = Ok r ->
  (forall x y, In x l -> f x = Ok y -> items item Nothing y) -> items item Nothing r.
Proof. intros A item b f l r H K. apply when_ok in H as [->|H]; [reflexivity|]. now apply (concatM_items item f l). Qed.

Lemma import_wf : forall U i x, import_generate U i = Ok x -> well_formed U InModule (use_frags x).
Proof.
  intros U i x H. destruct x as [[p a]|]; [|reflexivity]. unfold import_generate in H.
  destruct (negb _); [discriminate|]. destruct (path_eqb _ _); [discriminate|]. apply bind_Ok in H as (rel & _ & H).
  unfold path_to_syn in H. destruct (syn_path_ok U rel) eqn:E; [|discriminate]. apply bind_Ok in H as (on & _ & H). apply bind_Ok in H as (tn & _ & H).
  cbn. split; [discriminate|]. split; [|reflexivity]. split; [reflexivity|]. destruct (ident_eqb on tn).
  - injection H as <- <-. split; [now apply syn_path_rust|exact I].
  - apply bind_Ok in H as (al & Hal & H). injection H as <- <-. split; [now apply syn_path_rust|]. now apply to_syn_ident in Hal.
Qed.
Lemma prelude_wf : forall U m l, gen_prelude U m = Ok l -> well_formed U InModule l.
Proof.
  intros U m l H. unfold gen_prelude in H. destruct (m_prelude m); [injection H as <-; reflexivity|].
  apply bind_Ok in H as (kept & _ & H). apply bind_Ok in H as (ex & Hex & H). destruct ex as [|e ex]; [injection H as <-; reflexivity|].
  apply bind_Ok in H as (c & _ & H). apply bind_Ok in H as (id & Hid & H). injection H as <-. apply to_syn_ident in Hid as [_ Hid].
  cbn. repeat split; try discriminate; auto. intros n Hn. destruct (mapM_In _ _ _ _ Hex Hn) as (x & _ & Hx). now apply to_syn_ident in Hx.
Qed.
Lemma type_var_wf : forall U p l, type_var_generate U p = Ok l -> well_formed U InModule l.
Proof.
  intros U p l H. unfold type_var_generate in H. apply bind_Ok in H as (n & _ & H). apply bind_Ok in H as (id & Hid & H). injection H as <-.
  apply to_syn_ident in Hid as [_ Hid]. cbn. repeat split; try discriminate; auto.
Qed.

Lemma module_wf : forall x m l, uni_ok (mx_uni x) -> (forall k, within k m -> items_typed k) -> (forall k, within k m -> variables_named (mx_uni x) k) ->
  mod_generate x m = Ok l -> well_formed (mx_uni x) InModule l.
Proof.
  intros x m l HU. revert l. induction m as [m IH] using module_nested_ind. intros l Hty Hnm H.
  destruct m as [nm pre ims subs cls tvs fns props doc pkg src]. cbn [mod_generate] in H.
  set (m := mk_module nm pre ims subs cls tvs fns props doc pkg src) in *.
  apply bind_Ok in H as (scope & Hscope & H). apply bind_Ok in H as (lt & Hlt & H). apply bind_Ok in H as (docs & Hdoc & H).
  set (g := mk_gctx (mx_cfg x) (mx_imp x) (mk_ctx (mx_dbg x) (mx_numpy x) (mx_uni x) lt)) in *.
  assert (HT : relative_table (g_cx g)) by (intros k v Hkv; exact (local_relative _ _ _ _ _ Hlt k v Hkv)).
  apply bind_Ok in H as (imports & Him & H). apply bind_Ok in H as (prelude & Hpre & H). apply bind_Ok in H as (tv & Htv & H).
  apply bind_Ok in H as (classes & Hcl & H). apply bind_Ok in H as (functions & Hfn & H). apply bind_Ok in H as (properties & Hpr & H).
  apply bind_Ok in H as (sub & Hsub & H). apply bind_Ok in H as (name & Hname & H). apply bind_Ok in H as (id & Hid & H). injection H as <-.
  assert (Kid : rust_ident (mx_uni x) id).
  { destruct (ident_to_syn (mx_uni x) name) as [i| | |] eqn:E; try discriminate. injection Hid as <-. now apply to_syn_ident in E. }
  assert (K1 : well_formed (mx_uni x) InModule imports).
  { apply (when_concat _ _ _ _ _ Him). intros i y _ Hy. apply bind_Ok in Hy as (u & Hu & Hy). injection Hy as <-. now apply (import_wf _ i). }
  assert (K2 : well_formed (mx_uni x) InModule prelude).
  { apply when_ok in Hpre as [->|Hpre]; [reflexivity|]. destruct (gen_prelude (mx_uni x) m) as [p| | |] eqn:E; cbn in Hpre; try discriminate;
      injection Hpre as <-; [|reflexivity]. now apply (prelude_wf _ m). }
  assert (K3 : well_formed (mx_uni x) InModule tv) by (apply (when_concat _ _ _ _ _ Htv); intros p y _ Hy; now apply (type_var_wf _ p)).
  assert (K4 : well_formed (mx_uni x) InModule classes).
  { apply (when_concat _ _ _ _ _ Hcl). intros c y Hc Hy. apply (class_wf g c y HU HT); [|exact Hy]. intros p Hp.
    destruct (Hty m (within_here m)) as [T _]. now apply (T c p). }
  assert (K5 : well_formed (mx_uni x) InModule functions).
  { apply (when_concat _ _ _ _ _ Hfn). intros f y _ Hy. apply bind_Ok in Hy as (i & Hi & Hy). pose proof (fn_generate_wf g HU HT scope f i InModule (or_introl eq_refl) Hi) as W.
    destruct i; [|discriminate]. cbn in Hy. injection Hy as <-. exact W. }
  assert (K6 : well_formed (mx_uni x) InModule properties).
  { apply (when_concat _ _ _ _ _ Hpr). intros p y Hp Hy. destruct (Hty m (within_here m)) as [_ T]. destruct (T p Hp) as [D1 D2].
    destruct (Hnm m (within_here m)) as (F & HF & HV). destruct (HV p Hp) as (n & (Hn & q & Hq) & Hacc).
    pose proof (mapM_names _ _ _ _ HF Hscope) as ->.
    assert (HR : forall f, In f F -> starts_with r_hash f = false).
    { intros f Hf. clear - HF Hf. induction HF as [|a b l k [Ha _] H IHf]; [easy|]. destruct Hf as [<-|Hf]; auto. }
    destruct (accessors_some (mx_uni x) F n HU Hn HR Hacc) as [A1 A2].
    assert (E : forall name, path_name (pr_name p) = Ok name -> name = ident_from_py (mx_uni x) n).
    { intros z Hz. unfold path_name in Hz. rewrite Hq, last_opt_app in Hz. now injection Hz as <-. }
    apply (accessor_module g (map (ident_from_py (mx_uni x)) F) p y HU HT D1 D2); [| |exact Hy]; intros z Hz; apply E in Hz; subst z; assumption. }
  assert (K7 : well_formed (mx_uni x) InModule sub).
  { apply (when_concat _ _ _ _ _ Hsub). intros s y Hs Hy. apply (IH s Hs); [| |exact Hy]; intros k Hk; [apply Hty|apply Hnm]; now apply (within_sub k m s). }
  assert (Kbody : well_formed (mx_uni x) InModule (gen_embed m ++ imports ++ prelude ++ tv ++ classes ++ functions ++ properties ++ sub)).
  { apply items_app; [unfold gen_embed; destruct (m_source m); [|reflexivity]; cbn; repeat split; discriminate|].
    repeat (apply items_app; [assumption|]). assumption. }
  assert (Kd : well_formed (mx_uni x) InModule (docs ++ [GPub; GMod id (gen_embed m ++ imports ++ prelude ++ tv ++ classes ++ functions ++ properties ++ sub)])).
  { apply items_docs; [intros d Hd; now apply (gen_doc_only_docs _ _ _ _ Hdoc)| |]; cbn [items]; (split; [discriminate|]);
      (split; [|reflexivity]); (split; [reflexivity|]); split; assumption. }
  destruct (in_dec _ _ _); [|exact Kd].
  cbn [app]. unfold well_formed. cbn [items]. split; [discriminate|].
  destruct docs as [|d docs]; cbn [app] in Kd |- *.
  - unfold well_formed in Kd. cbn [items] in Kd |- *. split; [discriminate|]. exact (proj2 Kd).
  - destruct (gen_doc_only_docs _ _ _ d Hdoc (or_introl eq_refl)) as [t ->]. unfold well_formed in Kd. cbn [items] in Kd |- *.
    split; [discriminate|]. exact (proj2 Kd).
Qed.
