(** * Lemmas: nothing hidden is bound (C09) *)
From Coq Require Import Permutation.
From Verif Require Import Base Model_Ident Model_Path Model_Import Model_Text Model_Config Model_Type Model_IntoRs Model_World Model_Out
  Model_Function Model_Property Model_Class Model_Module Model_Parse Model_Codegen Spec_Path Spec_Names Spec_Call Spec_Items Spec_Tree Spec_Api Spec_Safe Spec_Out Spec_Privacy Spec_Attr
  Proof_Base Proof_Ident Proof_Path Proof_Text Proof_IntoRs Proof_Call Proof_Function Proof_Fresh Proof_Method Proof_Kind Proof_Items Proof_Module
  Proof_Parse Proof_Forest Proof_Err Proof_Api Proof_Honest Proof_Calm Proof_Rooted Proof_Parts Proof_Property Proof_Scope Proof_Deps Proof_Attr.

Lemma shown_name : forall cfg n ms, ~ hidden cfg n ms -> ~ hidden cfg n [].
Proof. intros cfg n ms H K. apply H. unfold hidden in *. cbn [In] in K. firstorder. Qed.
Lemma member_shown : forall e cfg ord o name c, class_parse e cfg o name = Ok c -> shown_inside (mk_penv e cfg ord) (AClass c).
Proof.
  intros e cfg ord o name c H. unfold class_parse in H. apply bind_Ok in H as ([ms ps] & H1 & H). apply bind_Ok in H as (doc & _ & H). injection H as <-.
  cbn [shown_inside cl_methods cl_props].
  set (x := mk_penv e cfg ord).
  set (P := fun st : list func * list property =>
    (forall f, In f (fst st) -> exists n i b t, fn_name f = path_snoc n i /\ fn_parse e b (fn_name f) t = Ok f /\ (object_shown x i b \/ special (as_py i))) /\
    (forall p, In p (snd st) -> exists n i b, pr_name p = path_snoc n i /\ prop_parse e b (pr_name p) OwnerClass = Ok p /\ (object_shown x i b \/ special (as_py i)))).
  change (P (ms, ps)). refine (each_attr_inv P _ _ _ _ _ _ _ _ _ H1); [|split; intros ? []].
  intros [ms0 ps0] a [ms1 ps1] s _ Hr Ha [P1 P2] Hs. apply read_attr_inv in Hr as (_ & _ & Hm). cbn [fst snd] in *.
  assert (Hsh : object_shown x (at_name a) (at_obj a) \/ special (as_py (at_name a))).
  { unfold class_attr_allowed in Ha. apply orb_true_iff in Ha as [Ha|Ha]; [left|right].
    - apply shown_iff in Ha. unfold object_shown. cbn. rewrite Hm in Ha. exact Ha.
    - apply mem_str_In in Ha. cbn [map In] in Ha. unfold special. intuition. }
  unfold class_step in Hs. apply bind_Ok in Hs as (v & _ & Hs). cbn [fst snd] in *.
  destruct v; try (injection Hs as <- <-; split; assumption); apply bind_Ok in Hs as (y & Hy & Hs); injection Hs as <- <-; split; cbn [fst snd]; intros z Hz; auto;
    apply in_app_or in Hz as [Hz|[<-|[]]]; auto.
  - pose proof Hy as E. apply fn_parse_typed in E as [E _]. exists name, (at_name a), (at_obj a), (FMethod name (method_kind (at_name a))). now rewrite E.
  - pose proof Hy as E. apply fn_parse_typed in E as [E _]. exists name, (at_name a), (at_obj a), (FMethod name (method_kind (at_name a))). now rewrite E.
  - pose proof Hy as E. apply prop_parse_typed in E as [E _]. exists name, (at_name a), (at_obj a). now rewrite E.
Qed.
Definition shown_all (x : penv) (it : item) : Prop := match it with AnExport _ => True | _ => shown_item x it /\ shown_inside x it end.
Lemma attribute_shown : forall x o a, attribute x o a -> object_shown x (at_name a) (at_obj a).
Proof.
  intros x o a (s & _ & Hr & Ha). apply read_attr_inv in Hr as (_ & _ & Hm). apply shown_iff in Ha. unfold object_shown. rewrite Hm in Ha. exact Ha.
Qed.
Lemma reads_shown : forall x o name a it, attribute x o a -> reads x name a it -> shown_all x it.
Proof.
  intros x o name a it Ha Hr. pose proof (attribute_shown _ _ _ Ha) as Hs. destruct Ha as (s & _ & Hra & _). apply read_attr_inv in Hra as (_ & _ & Hm).
  assert (K : item_path it = Some (path_snoc name (at_name a)) -> made_of x it (at_obj a) -> shown_item x it).
  { intros E M. exists name, (at_name a), (at_name a), (at_obj a). repeat split; auto. now apply shown_name in Hs. }
  destruct it as [i|i|c|p|f|p]; cbn [reads] in Hr; cbn [shown_all]; [exact I|..].
  - destruct Hr as [_ Hi]. apply read_import_cases in Hi; [|exact Hm]. destruct Hi as (H1 & H2 & _ & H3). split; [|cbn; now rewrite H1].
    apply K; [cbn; now rewrite H2|]. now exists (at_name a).
  - destruct Hr as [_ Hc]. split; [|destruct x as [e cfg ord]; now apply (member_shown _ _ _ _ _ _ Hc)]. pose proof Hc as E. apply class_parse_typed in E as [E _].
    apply K; [cbn; now rewrite E|]. exists (path_snoc name (at_name a)), c. split; [exact Hc|]. now destruct c.
  - destruct Hr as [_ ->]. split; [|exact I]. now apply K.
  - split; [|exact I]. assert (Q : exists t, fn_parse (pe_env x) (at_obj a) (path_snoc name (at_name a)) t = Ok f) by (destruct Hr as [[_ Hf]|[_ Hf]]; eauto).
    destruct Q as (t & Hf). pose proof Hf as E. apply fn_parse_typed in E as [E _]. apply K; [cbn; now rewrite E|]. exists (path_snoc name (at_name a)), t, f. split; [exact Hf|]. now destruct f.
  - destruct Hr as [_ Hp]. split; [|exact I]. pose proof Hp as E. apply prop_parse_typed in E as [E _]. apply K; [cbn; now rewrite E|].
    exists (path_snoc name (at_name a)), p. split; [exact Hp|]. now destruct p.
Qed.
Lemma moved_shown : forall x c it it', shown_all x (AnImport c) -> shown_all x it -> moved (im_origin c) (im_target c) it it' -> shown_all x it'.
Proof.
  intros x c it it' [(n & i & _ & _ & E & Hi & _) _] H M. cbn in E. injection E as E.
  assert (K : item_path it' = Some (im_target c) -> (forall a, made_of x it a -> made_of x it' a) -> shown_item x it -> shown_item x it').
  { intros E1 E2 (_ & _ & j & a & _ & _ & Hm & Hj). exists n, i, j, a. rewrite E1, E. auto. }
  destruct it as [y|y|y|y|y|y], it' as [z|z|z|z|z|z]; cbn [moved] in M; try contradiction; cbn [shown_all] in *; destruct M as [_ M]; try subst z.
  - destruct H as [H1 H2]. split; [|exact H2]. apply K; auto.
  - destruct H as [H1 H2]. split; [|exact H2]. apply K; auto. intros a (p & d & Hp & Ed). exists p, d. split; [exact Hp|]. cbn. now rewrite Ed.
  - destruct H as [H1 H2]. split; [|exact H2]. apply K; auto.
  - destruct H as [H1 H2]. split; [|exact H2]. apply K; auto. intros a (p & t & d & Hp & Ed). exists p, t, d. split; [exact Hp|]. cbn. now rewrite Ed.
  - destruct H as [H1 H2]. split; [|exact H2]. apply K; auto. intros a (p & d & Hp & Ed). exists p, d. split; [exact Hp|]. cbn. now rewrite Ed.
Qed.
Lemma parsed_shown : forall x fuel o m k it, named_world (pe_world x) -> is_module (pe_world x) o -> mod_parse x fuel o = Ok m -> within k m -> has k it -> shown_all x it.
Proof.
  intros x fuel o m k it Hw Hmo Hm Hk Hit. refine (parsed_items x (proj2 Hw) (shown_all x) _ _ _ fuel o m Hmo Hm k it Hk Hit).
  - intros i. exact I.
  - intros o' name a it' _ _ Ha Hr. now apply (reads_shown x o' name a).
  - intros o' name c i it0 it' _ _ Hc _ H0 Hmv. now apply (moved_shown x c it0).
Qed.

(** ** The generated functions *)
Lemma snoc_path_name : forall n i j, path_name (path_snoc n i) = Ok j -> j = i.
Proof. intros n i j H. unfold path_name, path_snoc in H. cbn [segs] in H. destruct (last_opt (segs n ++ [i])) as [k|] eqn:E; [|discriminate]. injection H as <-. apply last_opt_split in E as (l & E). now apply app_inj_tail in E as [_ E]. Qed.
Lemma fn_uses : forall g scope f impl d n, fn_generate g scope f = Ok impl -> In (GFn d) (frags_of impl) -> uses_attr d n -> exists i, path_name (fn_name f) = Ok i /\ n = as_py i.
Proof.
  intros g scope f impl d n H Hin Hu. destruct (fn_generate_inv _ _ _ _ _ H Hin) as (name & id & preps & tys & rt & pb & dd & pos & kw & Hn & _ & _ & _ & _ & _ & _ & _ & _ & _ & _ & _ & _ & Hb).
  unfold uses_attr in Hu. rewrite Hb in Hu. exists name. split; [exact Hn|]. clear Hb. destruct (fn_typ f) as [|cp k|]; [|destruct k|]; cbn in Hu; easy || auto.
Qed.
Lemma prop_uses : forall g scope p impl d n, prop_generate g scope p = Ok impl -> In (GFn d) (frags_of impl) -> uses_attr d n -> exists i, path_name (pr_name p) = Ok i /\ n = as_py i.
Proof.
  intros g scope p impl d n H Hin Hu. unfold prop_generate in H. apply bind_Ok in H as ([gt gi] & Hg & H). apply bind_Ok in H as ([st si] & Hs & H).
  assert (Kg : In (GFn d) gi -> exists i, path_name (pr_name p) = Ok i /\ n = as_py i).
  { intros K. apply getter_shape in Hg as (nm & id & Hnm & _ & Hg). destruct id as [id|]; [|now destruct Hg as [_ ->]].
    destruct Hg as (docs & d' & ty & Hd & _ & Hb & _ & _ & _ & _ & _ & _ & ->). apply in_app_or in K as [K|[K|[]]]; [destruct (doc_only _ _ _ Hd _ K) as [t E]; discriminate|].
    injection K as <-. unfold uses_attr in Hu. rewrite Hb in Hu. now exists nm. }
  assert (Ks : In (GFn d) si -> exists i, path_name (pr_name p) = Ok i /\ n = as_py i).
  { intros K. destruct (pr_mutable p); [|now injection Hs as _ <-]. apply setter_shape in Hs as (nm & id & Hnm & _ & Hs). destruct id as [id|]; [|now destruct Hs as [_ ->]].
    destruct Hs as (docs & d' & ty & Hd & _ & Hb & _ & _ & _ & _ & _ & _ & ->). apply in_app_or in K as [K|[K|[]]]; [destruct (doc_only _ _ _ Hd _ K) as [t E]; discriminate|].
    injection K as <-. unfold uses_attr in Hu. rewrite Hb in Hu. now exists nm. }
  destruct (pr_owner p); injection H as <-; cbn [frags_of] in Hin.
  - destruct Hin as [E|Hin]; [discriminate|]. apply in_app_or in Hin as [Hin|Hin]; [auto|]. destruct (pr_mutable p); [|easy]. destruct Hin as [E|Hin]; [discriminate|auto].
  - apply in_app_or in Hin as [Hin|Hin]; auto.
Qed.
Lemma members_from : forall l m y, In y (mb_struct (fold_left add_member l m) ++ mb_impls (fold_left add_member l m)) ->
  In y (mb_struct m ++ mb_impls m) \/ exists i, In i l /\ In y (frags_of i).
Proof.
  induction l as [|i l IH]; intros m y H; [now left|]. cbn [fold_left] in H. apply IH in H as [H|(j & Hj & H)]; [|right; exists j; split; [now right|exact H]].
  assert (K : In y (mb_struct m ++ mb_impls m) \/ In y (frags_of i)).
  { destruct i as [k|t k]; cbn in *; rewrite ?in_app_iff in *; tauto. }
  destruct K as [K|K]; [now left|right]. exists i. split; [now left|exact K].
Qed.
Lemma class_uses : forall g c l d n, class_generate g c = Ok l -> (forall p, In p (cl_props c) -> pr_owner p = OwnerClass) ->
  forall b k, In b l -> (exists id, b = GImpl id k) \/ (exists t id, b = GImplFor t id k) -> In (GFn d) k -> uses_attr d n ->
  exists i, n = as_py i /\ ((exists f, In f (cl_methods c) /\ path_name (fn_name f) = Ok i) \/ exists p, In p (cl_props c) /\ path_name (pr_name p) = Ok i).
Proof.
  intros g c l d n H Hown b k Hb Hk Hd Hu. unfold class_generate in H. apply bind_Ok in H as (docs & Hdoc & H). apply bind_Ok in H as (name & _ & H).
  destruct (struct_ident (g_uni g) name) as [id|]; [|injection H as <-; easy].
  apply bind_Ok in H as (scope & _ & H). apply bind_Ok in H as (ms & Hms & H). apply bind_Ok in H as (ps & Hps & H). apply bind_Ok in H as (tid & _ & H). injection H as <-.
  set (m := fold_left add_member (ms ++ ps) (mk_members [] [] [])) in *.
  assert (K : In (GFn d) (mb_struct m ++ mb_impls m)).
  { apply in_app_or in Hb as [Hb|Hb].
    - destruct (doc_only _ _ _ Hdoc _ Hb) as [t ->]. destruct Hk as [(? & E)|(? & ? & E)]; discriminate.
    - cbn [app In trait_docs] in Hb. apply in_or_app. destruct Hk as [(? & ->)|(? & ? & ->)];
        repeat (destruct Hb as [Hb|Hb]; [first [discriminate|injection Hb as _ _ <-|injection Hb as _ <-]; auto|]); contradiction. }
  apply members_from in K as [K|(i & Hi & K)]; [easy|]. apply in_app_or in Hi as [Hi|Hi].
  - destruct (mapM_In _ _ _ _ Hms Hi) as (f & Hf & E). destruct (fn_uses _ _ _ _ _ _ E K Hu) as (j & Hj & ->). exists j. split; [reflexivity|]. left. now exists f.
  - destruct (mapM_In _ _ _ _ Hps Hi) as (p & Hp & E). destruct (prop_uses _ _ _ _ _ _ E K Hu) as (j & Hj & ->). exists j. split; [reflexivity|]. right. now exists p.
Qed.

(** ** The output *)
Lemma macros_name : forall g c l id s, class_generate g c = Ok l -> In (GMacros id s) l -> s = to_py (cl_name c).
Proof.
  intros g c l id s H Hin. unfold class_generate in H. apply bind_Ok in H as (docs & Hdoc & H). apply bind_Ok in H as (name & _ & H).
  destruct (struct_ident (g_uni g) name) as [id'|]; [|injection H as <-; easy].
  apply bind_Ok in H as (scope & _ & H). apply bind_Ok in H as (ms & Hms & H). apply bind_Ok in H as (ps & Hps & H). apply bind_Ok in H as (tid & _ & H). injection H as <-.
  apply in_app_or in Hin as [Hin|Hin]; [destruct (doc_only _ _ _ Hdoc _ Hin) as [t E]; discriminate|]. cbn [app In trait_docs] in Hin.
  repeat (destruct Hin as [Hin|Hin]; [first [discriminate|now injection Hin as _ <-]|]). contradiction.
Qed.
Lemma class_shape_frag : forall g c l f, class_generate g c = Ok l -> In f l ->
  match f with GFn _ | GUse _ | GType _ | GMod _ _ | GUseSuper _ | GEmbed _ _ _ | GDecl _ => false | _ => true end = true.
Proof.
  intros g c l f H Hin. unfold class_generate in H. apply bind_Ok in H as (docs & Hdoc & H). apply bind_Ok in H as (name & _ & H).
  destruct (struct_ident (g_uni g) name) as [id'|]; [|injection H as <-; easy].
  apply bind_Ok in H as (scope & _ & H). apply bind_Ok in H as (ms & Hms & H). apply bind_Ok in H as (ps & Hps & H). apply bind_Ok in H as (tid & _ & H). injection H as <-.
  apply in_app_or in Hin as [Hin|Hin]; [destruct (doc_only _ _ _ Hdoc _ Hin) as [t ->]; reflexivity|]. cbn [app In trait_docs] in Hin.
  repeat (destruct Hin as [<-|Hin]; [reflexivity|]). contradiction.
Qed.
Section output.
  Variable x : penv.
  Hypothesis Ho : order_ok (pe_ord x).
  Hypothesis Hw : named_world (pe_world x).
  Variables (numpy : bool) (fuel : nat) (l : list request) (c : codegen) (out : list frag).
  Hypothesis Hl : asked_modules (pe_world x) l.
  Hypothesis Hc : asks x fuel l cg_new = Ok c.
  Hypothesis Hout : cg_generate x numpy fuel c = Ok out.

  Lemma final_shown : forall ms m k it, final_modules x fuel c = Ok ms -> In m ms -> within k m -> has k it -> shown_all x it.
  Proof.
    intros ms m k it Hf Hm Hk Hit. refine (final_module_items x Ho Hw fuel l c ms Hl Hc Hf (shown_all x) _ m k it Hm Hk Hit).
    intros o m0 k0 it0 Hmo Hp Hk0 Hh. now apply (parsed_shown x fuel o m0 k0 it0).
  Qed.
  Lemma shown_last : forall it p i, shown_all x it -> item_path it = Some p -> path_name p = Ok i -> name_shown (pe_cfg x) i.
  Proof.
    intros it p i H E Hi. assert (K : shown_item x it) by (destruct it; [discriminate|apply H..]). destruct K as (n & j & _ & _ & E' & Hj & _).
    rewrite E in E'. injection E' as ->. apply snoc_path_name in Hi as ->. exact Hj.
  Qed.
  Lemma output_shown : forall ns k f, at_path out ns k -> In f k -> frag_shown x f.
  Proof.
    intros ns k f Hk Hin. destruct (output_scopes x numpy fuel c out Hout) as (ms & Hf & S).
    destruct (S ns k Hk) as [[_ K]|[(ex & ->)|(m & k' & P & Hm & Hk' & HP & ->)]].
    - destruct (K _ Hin) as [K'|(? & ? & ->)]; [|exact I]. destruct f; try discriminate; exact I.
    - destruct Hin as [<-|[<-|[]]]; exact I.
    - assert (F : forall it, has k' it -> shown_all x it) by (intros it Hit; now apply (final_shown ms m k')).
      destruct (final_typed x fuel l c ms Ho Hc Hf m k' Hm Hk') as (T1 & T2 & T3).
      destruct (body_frag _ _ _ _ HP T3 Hin) as [E|[(?&?&?&->&_)|[(v&->&Hv)|[(?&?&->&_)|[(n&->&Hn)|[Hcl|[(d&->&E&Hd)|[(d&->&E&Hd)|(?&?&->&_)]]]]]]]]; try exact I.
      + destruct f; try discriminate; exact I.
      + destruct (when_from _ _ _ _ _ (po_imports _ _ _ HP) Hv) as (_ & i & b & Hi & Hb & Hin'). apply filter_In in Hi as [Hi _].
        apply use_shape in Hb as [->|(v' & -> & Hg)]; [easy|]. destruct Hin' as [E|[E|[]]]; [discriminate|]. injection E as ->.
        destruct (F (AnImport i) Hi) as [(p & j & _ & _ & E & Hj & _) Hor]. cbn in E. injection E as E. exists i, p, j. auto.
      + destruct (when_from _ _ _ _ _ (po_vars _ _ _ HP) Hn) as (_ & p & b & Hp & Hb & Hin'). apply var_shape in Hb as (n' & Hn' & _ & ->).
        destruct Hin' as [E|[E|[]]]; [discriminate|]. injection E as ->. exact (shown_last (ATypeVar p) p n (F (ATypeVar p) Hp) eq_refl Hn').
      + destruct (when_from _ _ _ _ _ (po_classes _ _ _ HP) Hcl) as (_ & d & ld & Hd & Hld & Hin'). destruct (F (AClass d) Hd) as [(p & j & _ & _ & E & Hj & _) [M1 M2]].
        cbn in E. injection E as E.
        assert (Q : forall b dd n, f = b -> (exists id k0, b = GImpl id k0 /\ In (GFn dd) k0) \/ (exists t id k0, b = GImplFor t id k0 /\ In (GFn dd) k0) -> uses_attr dd n -> ~ hidden (pe_cfg x) n [] \/ special n).
        { intros b dd n Eb Hb Hu.
          assert (Q' : exists i, n = as_py i /\ ((exists f, In f (cl_methods d) /\ path_name (fn_name f) = Ok i) \/ exists p, In p (cl_props d) /\ path_name (pr_name p) = Ok i)).
          { destruct Hb as [(id & k0 & -> & Hdd)|(t & id & k0 & -> & Hdd)]; apply (class_uses _ _ _ dd n Hld (T1 d Hd) _ k0 Hin'); rewrite ?Eb; eauto. }
          destruct Q' as (i & -> & [(g & Hg & Hi)|(q & Hq & Hi)]).
          - destruct (M1 g Hg) as (n0 & i0 & b0 & t & En & _ & K). rewrite En in Hi. apply snoc_path_name in Hi as ->. destruct K as [K|K]; [left|now right]. now apply shown_name in K.
          - destruct (M2 q Hq) as (n0 & i0 & b0 & En & _ & K). rewrite En in Hi. apply snoc_path_name in Hi as ->. destruct K as [K|K]; [left|now right]. now apply shown_name in K. }
        destruct f; cbn [frag_shown]; try exact I.
        * exfalso. pose proof (class_shape_frag _ _ _ _ Hld Hin'). discriminate.
        * exfalso. pose proof (class_shape_frag _ _ _ _ Hld Hin'). discriminate.
        * exfalso. pose proof (class_shape_frag _ _ _ _ Hld Hin'). discriminate.
        * apply macros_name with (id := n) (s := py_name) in Hld; [|exact Hin']. exists p, j. now rewrite Hld, E.
        * intros dd n0 Hdd Hu. apply (Q _ dd n0 eq_refl); [left; eauto|exact Hu].
        * intros dd n0 Hdd Hu. apply (Q _ dd n0 eq_refl); [right; eauto|exact Hu].
      + destruct (when_from _ _ _ _ _ (po_fns _ _ _ HP) Hd) as (_ & g & b & Hg & Hb & Hin'). intros n Hu.
        apply bind_Ok in Hb as (i & Hi & Hb). destruct i as [b'|]; [|discriminate]. injection Hb as <-. destruct (fn_uses _ _ _ _ _ _ Hi Hin' Hu) as (j & Hj & ->).
        exact (shown_last (AFunction g) (fn_name g) j (F (AFunction g) Hg) eq_refl Hj).
      + destruct (when_from _ _ _ _ _ (po_props _ _ _ HP) Hd) as (_ & g & b & Hg & Hb & Hin'). intros n Hu.
        apply bind_Ok in Hb as (i & Hi & Hb). destruct i as [b'|]; [|discriminate]. injection Hb as <-. destruct (prop_uses _ _ _ _ _ _ Hi Hin' Hu) as (j & Hj & ->).
        exact (shown_last (AProperty g) (pr_name g) j (F (AProperty g) Hg) eq_refl Hj).
  Qed.
End output.

(** ** Names of modules *)
Section names.
  Variable x : penv.
  Hypothesis Ho : order_ok (pe_ord x).
  Hypothesis Hw : honest (pe_uni x) (pe_world x).
  Lemma parsed_sub_shown : forall fuel o m k, is_module (pe_world x) o -> mod_parse x fuel o = Ok m -> within k m ->
    m_name k = m_name m \/ exists n i, m_name k = path_snoc n i /\ name_shown (pe_cfg x) i.
  Proof.
    induction fuel as [|f IH]; intros o m k Hmo Hm Hk; [discriminate|]. cbn [mod_parse] in Hm.
    destruct (body_subs x Ho Hw _ _ _ Hmo Hm) as (En & done & Hd & F & Hsh).
    destruct Hk as [|m s Hs Hk]; [now left|right].
    assert (K : exists i t, In i done /\ m_name s = path_snoc (m_name m) i /\ is_module (pe_world x) t /\ mod_parse x f t = Ok s).
    { rewrite En. clear - F Hs Hmo Hw Ho. induction F as [|i k0 done subs (s0 & t & -> & Hs0 & Ht & E & Hr) F IHF]; [easy|]. destruct Hs as [->|Hs].
      - exists (ident_from_py (pe_uni x) s0), t. split; [now left|]. split; [|now split]. rewrite (parsed_name x Ho Hw f t s Ht Hr), E. now apply child_path.
      - destruct (IHF Hs) as (i & t' & Hi & R). exists i, t'. split; [now right|exact R]. }
    destruct K as (i & t & Hi & E & Ht & Hp). destruct (IH t s k Ht Hp Hk) as [E'|K]; [|exact K].
    exists (m_name m), i. rewrite E', E. split; [reflexivity|]. destruct (Hsh i Hi) as [p Hsp]. apply shown_iff in Hsp. now apply shown_name in Hsp.
  Qed.
  (** The name of a module is shown, unless it leads to a module that was asked for or that something is imported from. *)
  Lemma final_module_shown : forall fuel l c ms m k, names_differ (pe_world x) -> asked_modules (pe_world x) l -> asks x fuel l cg_new = Ok c -> final_modules x fuel c = Ok ms ->
    In m ms -> within k m -> (exists n i, m_name k = path_snoc n i /\ name_shown (pe_cfg x) i) \/ exists m0, In (m_name k) (parents (m_name m0) ++ [m_name m0]) /\
      (In m0 (cg_modules c) \/
        (generate_dependencies (pe_cfg x) = true /\ exists o, imported_from (pe_world x) (cg_modules c) o /\ ~ excluded x o /\ mod_parse x fuel o = Ok m0)).
  Proof.
    intros fuel l c ms m k Hd Hl Hc Hf Hm Hk. destruct (within_reach k m Hk ms Hm) as [ch Hch]. destruct (reach_last ms ch k Hch) as [d Ed].
    destruct (final_contents x Ho Hw Hd fuel l c ms Hl Hc Hf) as (_ & _ & F). destruct (F ch) as (m0 & Hm0 & K); [now exists k|].
    assert (In0 : exists o, is_module (pe_world x) o /\ mod_parse x fuel o = Ok m0).
    { destruct Hm0 as [Hm0|(_ & o & (m1 & k1 & i & _ & _ & _ & _ & Hh) & _ & Hp)].
      - now apply (requested_is x fuel l c).
      - exists o. split; [now apply (home_module x Hw (im_origin i))|exact Hp]. }
    destruct In0 as (o & Hmo & Hp). destruct K as [(c' & E & k0 & Hr)|(j & Hj & E)].
    - destruct (reach_last _ _ _ Hr) as [d' Ed']. pose proof (reach_within _ _ _ Hr) as (m1 & [<-|[]] & Hwi).
      rewrite Ed, Ed', app_assoc in E. apply app_inj_tail in E as [_ E]. destruct (parsed_sub_shown fuel o m0 k0 Hmo Hp Hwi) as [E'|K]; [right|left; now rewrite E].
      exists m0. split; [|exact Hm0]. apply in_or_app. right. left. congruence.
    - right. exists m0. split; [|exact Hm0]. apply in_or_app. left. rewrite Ed in E. assert (Hin : In (m_name k) (firstn j (parents (m_name m0)))) by (rewrite <- E; apply in_or_app; right; now left).
      rewrite <- (firstn_skipn j). apply in_or_app. now left.
  Qed.
End names.
