(** * Lemmas: what is parsed has a place; generation after parsing does not panic *)
From Verif Require Import Base Model_Ident Model_Path Model_Import Model_Text Model_Config Model_Type Model_IntoRs Model_World Model_Out
  Model_Function Model_Property Model_Class Model_Module Model_Parse Model_Codegen Spec_Path Spec_Names Spec_Call Spec_Items Spec_Tree Spec_Api Spec_Safe
  Proof_Base Proof_Ident Proof_Path Proof_Text Proof_IntoRs Proof_Call Proof_Function Proof_Fresh Proof_Method Proof_Kind Proof_Items Proof_Module
  Proof_Parse Proof_Forest Proof_Err Proof_Api Proof_Honest Proof_Calm.

Definition item_rooted (it : item) : Prop :=
  match it with
  | AnExport _ => True
  | AnImport i => segs (im_target i) <> [] /\ (im_type i = SubmoduleReexport -> segs (im_origin i) <> [])
  | AClass c => placed (cl_name c) /\
      (forall f, In f (cl_methods c) -> segs (fn_name f) <> [] /\ exists cp k, fn_typ f = FMethod cp k /\ segs cp <> []) /\
      (forall p, In p (cl_props c) -> segs (pr_name p) <> [] /\ pr_owner p = OwnerClass)
  | ATypeVar p => placed p
  | AFunction f => placed (fn_name f) /\ (fn_typ f = FFunction \/ fn_typ f = FClosure)
  | AProperty p => placed (pr_name p) /\ pr_owner p = OwnerModule
  end.
Lemma rooted_iff : forall m, segs (m_name m) <> [] -> leading_colon (m_name m) = false -> (forall it, has m it -> item_rooted it) -> rooted m.
Proof.
  intros m H1 H2 H. constructor.
  - now split.
  - intros c Hc. exact (H (AClass c) Hc).
  - intros p Hp. exact (H (ATypeVar p) Hp).
  - intros f Hf. exact (H (AFunction f) Hf).
  - intros p Hp. exact (H (AProperty p) Hp).
  - intros i Hi. exact (H (AnImport i) Hi).
Qed.

(** What has been found so far *)
Definition holds_found (st : found) (it : item) : Prop :=
  match it with
  | AnExport _ => False
  | AnImport i => In i (fd_imports st) \/ In i (fd_conflicts st)
  | AClass c => In c (fd_classes st)
  | ATypeVar p => In p (fd_typevars st)
  | AFunction f => In f (fd_functions st)
  | AProperty p => In p (fd_properties st)
  end.
Lemma snoc_placed : forall p i, segs p <> [] -> placed (path_snoc p i).
Proof. intros p i H. unfold placed, path_snoc. cbn [segs]. rewrite app_length. destruct (segs p); [easy|]. cbn. lia. Qed.
Lemma snoc_nonempty : forall p i, segs (path_snoc p i) <> [].
Proof. intros p i. unfold path_snoc. cbn [segs]. destruct (segs p); discriminate. Qed.

Lemma fn_parse_owner : forall e o name cp k f, fn_parse e o name (FMethod cp k) = Ok f ->
  fn_name f = name /\ exists cp' k', fn_typ f = FMethod cp' k' /\ (cp' = cp \/ cp' = name).
Proof.
  intros e o name cp k f H. pose proof (fn_parse_typed _ _ _ _ _ H) as [Hn _]. split; [exact Hn|].
  unfold fn_parse in H. apply bind_Ok in H as (doc & _ & H). destruct (w_signature (e_world e) o) as [sg|]; [|injection H as <-; cbn; eauto].
  apply bind_Ok in H as (ps0 & _ & H). apply bind_Ok in H as (ret & _ & H). apply bind_Ok in H as (t1 & Ht & H).
  assert (K : exists k1, t1 = FMethod cp k1).
  { unfold infer_storage in Ht. destruct k; try (injection Ht as <-; eauto). apply bind_Ok in Ht as (root & _ & Ht).
    destruct (w_import _ _); [|injection Ht as <-; eauto]. apply bind_Ok in Ht as (nm & _ & Ht). injection Ht as <-. eauto. }
  destruct K as [k1 ->]. destruct (infer_self (FMethod cp k1) (filter _ ps0)) as [t2 ps2] eqn:E2. apply bind_Ok in H as (ps3 & _ & H). injection H as <-. cbn [fn_typ].
  assert (K : exists k2, t2 = FMethod cp k2).
  { unfold infer_self in E2. destruct k1; try (injection E2 as <- <-; eauto); destruct (first_is_self _); injection E2 as <- <-; eauto. }
  destruct K as [k2 ->]. unfold fix_empty. destruct k2; eauto. destruct ps2; eauto.
Qed.
Lemma class_parse_rooted : forall e cfg o name c, segs name <> [] -> class_parse e cfg o name = Ok c ->
  (forall f, In f (cl_methods c) -> segs (fn_name f) <> [] /\ exists cp k, fn_typ f = FMethod cp k /\ segs cp <> []) /\
  (forall p, In p (cl_props c) -> segs (pr_name p) <> [] /\ pr_owner p = OwnerClass).
Proof.
  intros e cfg o name c Hn H. unfold class_parse in H. apply bind_Ok in H as ([ms ps] & H1 & H). apply bind_Ok in H as (doc & _ & H). injection H as <-. cbn.
  set (P := fun st : list func * list property =>
     (forall f, In f (fst st) -> segs (fn_name f) <> [] /\ exists cp k, fn_typ f = FMethod cp k /\ segs cp <> []) /\
     (forall p, In p (snd st) -> segs (pr_name p) <> [] /\ pr_owner p = OwnerClass)).
  change (P (ms, ps)). refine (each_attr_inv P _ _ _ _ _ _ _ _ _ H1); [|split; intros ? []].
  intros [ms0 ps0] a [ms1 ps1] s _ _ _ [P1 P2] Hs. unfold class_step in Hs. apply bind_Ok in Hs as (v & _ & Hs).
  assert (Km : forall f, fn_parse e (at_obj a) (path_snoc name (at_name a)) (FMethod name (method_kind (at_name a))) = Ok f ->
             segs (fn_name f) <> [] /\ exists cp k, fn_typ f = FMethod cp k /\ segs cp <> []).
  { intros f Hf. apply fn_parse_owner in Hf as (-> & cp & k & Hk & Hc). split; [apply snoc_nonempty|]. exists cp, k. split; [exact Hk|].
    destruct Hc as [-> | ->]; [exact Hn|apply snoc_nonempty]. }
  destruct v; try (injection Hs as <- <-; split; assumption); apply bind_Ok in Hs as (y & Hy & Hs); injection Hs as <- <-; split; cbn [fst snd]; intros z Hz; auto;
    apply in_app_or in Hz as [Hz|[<-|[]]]; auto. apply prop_parse_typed in Hy as (-> & -> & _). split; [apply snoc_nonempty|reflexivity].
Qed.
Lemma import_new_rooted : forall o t i, placed t -> import_new o t = Ok i -> item_rooted (AnImport i) /\ im_target i = t.
Proof.
  intros o t i Ht H. unfold import_new in H. apply bind_Ok in H as (ty & Hty & H). injection H as <-. cbn. split; [|reflexivity].
  split; [unfold placed in Ht; destruct (segs t); [cbn in Ht; lia|discriminate]|]. intros ->.
  destruct (placed_parent t Ht) as (q & Eq & Hq). unfold import_type_from_paths in Hty. rewrite Eq in Hty.
  destruct (path_starts_with o q) eqn:E.
  - intros Eo. unfold path_starts_with in E. rewrite Eo in E. destruct (segs q); [easy|discriminate].
  - rewrite andb_false_r in Hty. destruct (match path_root t with Some r => _ | None => _ end); discriminate.
Qed.

(** ** The items of a parsed module: each is read from an attribute, or moves up from an overwritten submodule. *)
Definition reads (x : penv) (name : path) (a : attr) (it : item) : Prop :=
  let e := pe_env x in
  let full := path_snoc name (at_name a) in
  let kind k := determine e (at_obj a) (at_module a) name true = Ok k in
  match it with
  | AnExport _ => False
  | AnImport i => kind VImport /\ read_import x a full = Ok (Some i)
  | AClass c => kind VClass /\ class_parse e (pe_cfg x) (at_obj a) full = Ok c
  | ATypeVar p => kind VTypeVar /\ p = full
  | AFunction f => kind VFunction /\ fn_parse e (at_obj a) full FFunction = Ok f \/ kind VClosure /\ fn_parse e (at_obj a) full FClosure = Ok f
  | AProperty p => kind VProperty /\ prop_parse e (at_obj a) full OwnerModule = Ok p
  end.
Definition attribute (x : penv) (o : oid) (a : attr) : Prop :=
  exists s, In s (w_dir (pe_world x) o) /\ read_attr (pe_env x) o s = Ok (Some a) /\ is_attr_allowed (pe_cfg x) (at_name a) (at_module a) = true.
(** The item at [p], moved to [t] *)
Definition moved (p t : path) (it it' : item) : Prop :=
  match it, it' with
  | AnImport i, AnImport j => im_target i = p /\ j = mk_import (im_origin i) t (im_type i)
  | AClass c, AClass d => cl_name c = p /\ d = mk_class t (cl_methods c) (cl_props c) (cl_doc c)
  | ATypeVar q, ATypeVar r => q = p /\ r = t
  | AFunction f, AFunction g => fn_name f = p /\ g = mk_func t (fn_typ f) (fn_params f) (fn_ret f) (fn_doc f)
  | AProperty q, AProperty r => pr_name q = p /\ r = mk_property t (pr_owner q) (pr_mutable q) (pr_ann q) (pr_setter_ann q) (pr_doc q) (pr_setter_doc q)
  | _, _ => False
  end.

Lemma step_reads : forall x name st a st' it, module_step x name st a = Ok st' -> holds_found st' it -> holds_found st it \/ reads x name a it.
Proof.
  intros x name [ims cfs cls tvs fns prs sbs] a st' it H Hit. cbn [module_step] in H. apply bind_Ok in H as (v & Hv & H).
  destruct v.
  - apply bind_Ok in H as (i & Hi & H). destruct i as [i|]; [|injection H as <-; now left].
    destruct (mem_str _ _); injection H as <-; destruct it as [?|j|?|?|?|?]; cbn in Hit |- *; auto.
    + destruct Hit as [Hit|Hit]; [auto|]. apply in_app_or in Hit as [Hit|[<-|[]]]; auto.
    + destruct Hit as [Hit|Hit]; [|auto]. apply in_app_or in Hit as [Hit|[<-|[]]]; auto.
  - injection H as <-. now left.
  - apply bind_Ok in H as (c & Hc & H). injection H as <-. destruct it; cbn in Hit |- *; auto. apply in_app_or in Hit as [Hit|[<-|[]]]; auto.
  - apply bind_Ok in H as (c & Hc & H). injection H as <-. destruct it; cbn in Hit |- *; auto. apply in_app_or in Hit as [Hit|[<-|[]]]; auto.
  - injection H as <-. now left.
  - apply bind_Ok in H as (c & Hc & H). injection H as <-. destruct it; cbn in Hit |- *; auto. apply in_app_or in Hit as [Hit|[<-|[]]]; auto.
  - injection H as <-. destruct it; cbn in Hit |- *; auto. apply in_app_or in Hit as [Hit|[<-|[]]]; auto.
  - apply bind_Ok in H as (c & Hc & H). injection H as <-. destruct it; cbn in Hit |- *; auto. apply in_app_or in Hit as [Hit|[<-|[]]]; auto.
Qed.
Lemma retarget_moved : forall c m st it, holds_found (retarget c m st) it ->
  holds_found st it \/ exists it0, has m it0 /\ moved (im_origin c) (im_target c) it0 it.
Proof.
  intros c m st it H. destruct it as [i|i|d|p|f|p]; cbn in H |- *.
  - easy.
  - destruct H as [H|H]; [|auto]. apply in_app_or in H as [H|H]; [auto|]. right. apply in_moved in H as (z & Hz & -> & E). exists (AnImport z). now split.
  - apply in_app_or in H as [H|H]; [auto|]. right. apply in_moved in H as (z & Hz & -> & E). exists (AClass z). now split.
  - apply in_app_or in H as [H|H]; [auto|]. right. apply in_moved in H as (z & Hz & -> & E). exists (ATypeVar z). now split.
  - apply in_app_or in H as [H|H]; [auto|]. right. apply in_moved in H as (z & Hz & -> & E). exists (AFunction z). now split.
  - apply in_app_or in H as [H|H]; [auto|]. right. apply in_moved in H as (z & Hz & -> & E). exists (AProperty z). now split.
Qed.

Section parsed_items.
  Variable x : penv.
  Let w := pe_world x.
  Hypothesis Himp : forall n o, w_import w n = Some o -> is_module w o.
  Variable P : item -> Prop.
  Hypothesis Hexp : forall i, P (AnExport i).
  Hypothesis Hread : forall o name a it, is_module w o -> module_path x o = Ok name -> attribute x o a -> reads x name a it -> P it.
  Hypothesis Hmove : forall o name c i it it', is_module w o -> module_path x o = Ok name -> P (AnImport c) -> im_target c = path_snoc name i ->
    P it -> moved (im_origin c) (im_target c) it it' -> P it'.
  Lemma find_submodule_module : forall o p i s, find_submodule x o p i = Some s -> is_module w s.
  Proof.
    intros o p i s H. unfold find_submodule in H. fold w in H. destruct (w_import w (to_py p)) as [t|] eqn:E; [injection H as <-; now apply (Himp (to_py p))|].
    destruct (w_getattr w o (as_py i)) as [t|]; [|discriminate]. destruct (tf_is_module (w_type w t)) eqn:E2; [|discriminate]. injection H as <-. exact E2.
  Qed.
  Lemma body_items : forall rec o m, (forall o' m', is_module w o' -> rec o' = Ok m' -> forall k it, within k m' -> has k it -> P it) ->
    is_module w o -> mod_parse_body x rec o = Ok m -> forall k it, within k m -> has k it -> P it.
  Proof.
    intros rec o m IH Hmo H.
    assert (Hn : exists name, module_path x o = Ok name).
    { unfold mod_parse_body in H. apply bind_Ok in H as (name & Hn & _). eauto. }
    destruct Hn as [name Hn].
    destruct (mod_body_inv (fun st => forall it, holds_found st it -> P it) (fun s => forall k it, within k s -> has k it -> P it) x rec o m name Hn)
      as (_ & Hs & st & HP & E1 & E2 & E3 & E4 & E5); auto.
    - intros sbs it Hit. now destruct it as [?|?|?|?|?|?]; cbn in Hit; [..|]; destruct Hit.
    - intros st a st' s H1 H2 H3 Pst Hst it Hit. destruct (step_reads _ _ _ _ _ _ Hst Hit) as [K|K]; [now apply Pst|].
      apply (Hread o name a it Hmo Hn); [now exists s|exact K].
    - intros st c s k i Pst Hc Ht Hi Hk it Hit. destruct (retarget_moved _ _ _ _ Hit) as [K|(it0 & K1 & K2)]; [now apply Pst|].
      apply (Hmove o name c i it0 it Hmo Hn); auto; [apply Pst; now right|]. apply (IH s k (Himp _ _ Hi) Hk k it0); [constructor|exact K1].
    - intros s k i Hf Hk. apply (IH s k); [now apply (find_submodule_module o (path_snoc name i) i)|exact Hk].
    - intros k it Hk Hit. inversion Hk as [E|m' s Hin Hk']; subst; [|now apply (Hs s Hin k)].
      destruct it as [j|j|j|j|j|j]; [apply Hexp|..]; apply HP; cbn in Hit |- *; [rewrite E1 in Hit; now left|congruence..].
  Qed.
  Lemma parsed_items : forall fuel o m, is_module w o -> mod_parse x fuel o = Ok m -> forall k it, within k m -> has k it -> P it.
  Proof.
    induction fuel as [|f IH]; intros o m Ho Hm; [discriminate|]. cbn [mod_parse] in Hm. now apply (body_items (mod_parse x f) o).
  Qed.
End parsed_items.

(** ** Parsed modules are rooted *)
Lemma honest_named : forall U w, honest U w -> named_world w.
Proof.
  intros U w H. split.
  - intros o Ho E. destruct (hn_name _ _ H o Ho) as (l & Hl & Hs & En). destruct l as [|a [|b l]]; [easy|..].
    + cbn in En. destruct (Hs a (or_introl eq_refl)) as [[Ha _] _]. congruence.
    + rewrite join_cons' in En by easy. rewrite E in En. symmetry in En. apply app_eq_nil in En as [_ En]. apply app_eq_nil in En as [En _]. discriminate.
  - intros n o Hi. now apply (hn_import _ _ H) in Hi.
Qed.

Section rooted.
  Variable x : penv.
  Let U := pe_uni x.
  Let w := pe_world x.
  Hypothesis Hw : named_world w.

  Lemma module_path_ok : forall o name, is_module w o -> module_path x o = Ok name -> segs name <> [] /\ leading_colon name = false.
  Proof.
    intros o name Ho H. unfold module_path in H. apply chk_path in H as ->. split; [|now destruct (w_name (pe_world x) o)].
    apply from_py_nonempty. now apply (proj1 Hw).
  Qed.
  Lemma reads_rooted : forall o name a it, is_module w o -> module_path x o = Ok name -> reads x name a it -> item_rooted it.
  Proof.
    intros o name a it Ho Hn H. destruct (module_path_ok o name Ho Hn) as [Hne _]. pose proof (snoc_placed name (at_name a) Hne) as Hp.
    destruct it as [i|i|c|p|f|p]; cbn [reads] in H; cbn [item_rooted].
    - easy.
    - destruct H as [_ H]. unfold read_import in H. apply bind_Ok in H as (orig & _ & H). destruct (path_eqb _ _); [discriminate|]. destruct (negb _); [discriminate|].
      unfold omap in H. apply bind_Ok in H as (j & Hj & H). injection H as <-. now apply import_new_rooted in Hj.
    - destruct H as [_ H]. pose proof (class_parse_typed _ _ _ _ _ H) as [En _]. split; [now rewrite En|]. refine (class_parse_rooted _ _ _ _ _ _ H). apply snoc_nonempty.
    - destruct H as [_ ->]. exact Hp.
    - destruct H as [[_ H]|[_ H]]; apply fn_parse_typed in H as [-> ->]; (split; [exact Hp|]); auto.
    - destruct H as [_ H]. apply prop_parse_typed in H as (-> & -> & _). now split.
  Qed.
  Lemma moved_rooted : forall p t it it', placed t -> item_rooted it -> moved p t it it' -> item_rooted it'.
  Proof.
    intros p t it it' Ht Hit Hm.
    assert (Hne : segs t <> []). { unfold placed in Ht. destruct (segs t); [cbn in Ht; lia|discriminate]. }
    destruct it, it'; cbn in Hm; try easy; destruct Hm as [_ ->]; cbn in *; auto.
    - split; [exact Hne|apply Hit].
    - split; [exact Ht|apply Hit].
    - split; [exact Ht|apply Hit].
    - split; [exact Ht|apply Hit].
  Qed.
  Lemma parsed_names : forall fuel o m, is_module w o -> mod_parse x fuel o = Ok m -> forall k, within k m -> segs (m_name k) <> [] /\ leading_colon (m_name k) = false.
  Proof.
    induction fuel as [|f IH]; intros o m Ho Hm; [discriminate|]. cbn [mod_parse] in Hm.
    assert (Hn : exists name, module_path x o = Ok name).
    { unfold mod_parse_body in Hm. apply bind_Ok in Hm as (name & Hn & _). eauto. }
    destruct Hn as [name Hn].
    destruct (mod_body_inv (fun _ => True) (fun s => forall k, within k s -> segs (m_name k) <> [] /\ leading_colon (m_name k) = false) x (mod_parse x f) o m name Hn)
      as (En & Hs & _); auto.
    - intros s k i Hf Hk. apply (IH s k); [|exact Hk]. apply (find_submodule_module x (proj2 Hw) o (path_snoc name i) i s Hf).
    - intros k Hk. inversion Hk as [E|m' s Hin Hk']; subst; [|now apply (Hs s)]. now apply (module_path_ok o).
  Qed.
  Lemma parsed_rooted : forall fuel o m, is_module w o -> mod_parse x fuel o = Ok m -> forall k, within k m -> rooted k.
  Proof.
    intros fuel o m Ho Hm k Hk. destruct (parsed_names fuel o m Ho Hm k Hk) as [N1 N2]. apply rooted_iff; auto. intros it Hit.
    refine (parsed_items x (proj2 Hw) item_rooted _ _ _ fuel o m Ho Hm k it Hk Hit).
    - intros i. exact I.
    - intros o' name a it' Hmo Hn _ Hr. now apply (reads_rooted o' name a).
    - intros o' name c i it0 it' Hmo Hn Hc Ht H0 Hmv. apply (moved_rooted (im_origin c) (im_target c) it0); auto. rewrite Ht. apply snoc_placed.
      now apply (module_path_ok o').
  Qed.
End rooted.

(** ** The final forest *)
Section final_rooted.
  Variable x : penv.
  Let U := pe_uni x.
  Let w := pe_world x.
  Hypothesis Ho : order_ok (pe_ord x).
  Hypothesis Hw : named_world w.
  Variables (fuel : nat) (l : list request) (c : codegen) (ms : list module).
  Hypothesis Hl : asked_modules w l.
  Hypothesis Hc : asks x fuel l cg_new = Ok c.
  Hypothesis Hf : final_modules x fuel c = Ok ms.

  Lemma input_from : forall inp m, all_inputs x fuel c inp -> In m inp -> exists o, is_module w o /\ mod_parse x fuel o = Ok m.
  Proof.
    intros inp m [_ E] Hm. destruct (generate_dependencies _); [|injection E as <-; now apply (requested_is x fuel l c)].
    apply dependencies_grow in E as (d & -> & Kd). apply in_app_or in Hm as [Hm|Hm]; [now apply (requested_is x fuel l c)|].
    destruct (Kd m Hm) as (p & o & _ & Hd & _ & Hp). exists o. split; [|exact Hp].
    unfold dependency_module in Hd. apply bind_Ok in Hd as (root & _ & Hd). apply bind_Ok in Hd as (o0 & H0 & Hd). injection Hd as <-.
    apply last_module_is. fold w in H0. destruct (w_import w (to_py root)) as [o1|] eqn:E; [|discriminate]. injection H0 as ->. now apply (proj2 Hw) in E.
  Qed.
  Lemma final_module_items : forall (P : item -> Prop), (forall o m k it, is_module w o -> mod_parse x fuel o = Ok m -> within k m -> has k it -> P it) ->
    forall m k it, In m ms -> within k m -> has k it -> P it.
  Proof.
    intros P HP m k it Hm Hk Hit. destruct (final_vis x Ho fuel c ms Hf) as (inp & Hin & V).
    destruct (within_reach k m Hk ms Hm) as [ch Hch].
    assert (K : vis ms ch (Some it)) by (exists k; now split). apply V in K as (m0 & Hm0 & [(c' & _ & k0 & Hr & Hh)|[E _]]); [|discriminate].
    apply reach_within in Hr as (m1 & [<-|[]] & Hwi). destruct (input_from inp m0 Hin Hm0) as (o & Hmod & Hp). now apply (HP o m0 k0).
  Qed.
  Lemma reach_last : forall ls ch k, reach ls ch k -> exists d, ch = d ++ [m_name k].
  Proof. intros ls ch k H. induction H as [l0 m Hin|l0 m ch k Hin H (d & ->)]; [now exists []|now exists (m_name m :: d)]. Qed.
  Lemma final_names : forall m k, In m ms -> within k m ->
    (exists o m0 k0, is_module w o /\ mod_parse x fuel o = Ok m0 /\ within k0 m0 /\ m_name k = m_name k0) \/
    (exists o m0, is_module w o /\ mod_parse x fuel o = Ok m0 /\ In (m_name k) (parents (m_name m0))).
  Proof.
    intros m k Hm Hk. destruct (final_vis x Ho fuel c ms Hf) as (inp & Hin & V). destruct (within_reach k m Hk ms Hm) as [ch Hch].
    destruct (reach_last ms ch k Hch) as [d Ed].
    assert (K : vis ms ch None) by (exists k; now split). apply V in K as (m0 & Hm0 & [(c' & E & k0 & Hr & Hh)|[_ (j & Hj & E)]]);
      destruct (input_from inp m0 Hin Hm0) as (o & Hmod & Hp).
    - left. destruct (reach_last _ _ _ Hr) as [d' Ed']. pose proof (reach_within _ _ _ Hr) as (m1 & [<-|[]] & Hwi). exists o, m0, k0. repeat split; auto.
      rewrite Ed, Ed', app_assoc in E. now apply app_inj_tail in E.
    - right. exists o, m0. repeat split; auto. apply (firstn_map_incl j). rewrite <- E, Ed. apply in_or_app. right. now left.
  Qed.
  Lemma final_rooted : forall m k, In m ms -> within k m -> rooted k.
  Proof.
    intros m k Hm Hk. apply rooted_iff.
    - destruct (final_names m k Hm Hk) as [(o & m0 & k0 & Hmod & Hp & Hk0 & ->)|(o & m0 & Hmod & Hp & Hin)].
      + now apply (parsed_names x Hw fuel o m0).
      + apply parents_segs in Hin as (j & Hj & ->). cbn. destruct (segs (m_name m0)), j; cbn in *; (lia || discriminate).
    - destruct (final_names m k Hm Hk) as [(o & m0 & k0 & Hmod & Hp & Hk0 & ->)|(o & m0 & Hmod & Hp & Hin)].
      + now apply (parsed_names x Hw fuel o m0).
      + now apply parents_segs in Hin as (j & Hj & ->).
    - intros it Hit. refine (final_module_items item_rooted _ m k it Hm Hk Hit). intros o m0 k0 it0 Hmod Hp Hk0 Hh.
      pose proof (parsed_rooted x Hw fuel o m0 Hmod Hp k0 Hk0) as R. destruct it0; cbn [has] in Hh; cbn [item_rooted].
      + exact I.
      + now apply (rt_import _ R).
      + now apply (rt_class _ R).
      + now apply (rt_var _ R).
      + now apply (rt_fn _ R).
      + now apply (rt_prop _ R).
  Qed.
End final_rooted.

(** ** All types *)
Lemma types_In : forall m p, In p (types_of m) <-> exists k, within k m /\ (In p (map cl_name (m_classes k)) \/ In p (m_typevars k)).
Proof.
  fix IH 1. intros m p.
  assert (L : forall l, (forall s, In s l -> In p (types_of s) <-> exists k, within k s /\ (In p (map cl_name (m_classes k)) \/ In p (m_typevars k))) ->
              In p (flat_map types_of l) <-> exists s k, In s l /\ within k s /\ (In p (map cl_name (m_classes k)) \/ In p (m_typevars k))).
  { intros l H. rewrite in_flat_map. split.
    - intros (s & Hs & Hp). apply H in Hp as (k & Hk & Hp); [|exact Hs]. now exists s, k.
    - intros (s & k & Hs & Hk & Hp). exists s. split; [exact Hs|]. apply H; [exact Hs|]. now exists k. }
  assert (S : In p (flat_map types_of (m_subs m)) <-> exists s k, In s (m_subs m) /\ within k s /\ (In p (map cl_name (m_classes k)) \/ In p (m_typevars k))).
  { apply L. destruct m as [n pr ims subs cls tvs fns prs dc pk src]. cbn [m_subs]. clear L. induction subs as [|s r IHr]; intros t Ht; [destruct Ht|].
    destruct Ht as [<-|Ht]; [apply IH|now apply IHr]. }
  destruct m as [n pr ims subs cls tvs fns prs dc pk src] eqn:Em. rewrite <- Em in *.
  assert (E : types_of m = map cl_name (m_classes m) ++ m_typevars m ++ flat_map types_of (m_subs m)) by now subst.
  rewrite E, !in_app_iff, S. clear. split.
  - intros [H|[H|(s & k & Hs & Hk & H)]]; [exists m; split; [constructor|now left]|exists m; split; [constructor|now right]|].
    exists k. split; [now apply (within_sub k m s)|exact H].
  - intros (k & Hk & H). inversion Hk as [E|m' s Hs Hk' E]; subst; [destruct H; auto|]. right. right. now exists s, k.
Qed.
Lemma all_types_In : forall l p, In p (all_types l) <-> exists m k, In m l /\ within k m /\ (In p (map cl_name (m_classes k)) \/ In p (m_typevars k)).
Proof.
  intros l p. unfold all_types. rewrite unique_In by (intros; apply path_eqb_eq). rewrite in_flat_map. split.
  - intros (m & Hm & Hp). apply types_In in Hp as (k & Hk & H). now exists m, k.
  - intros (m & k & Hm & Hk & H). exists m. split; [exact Hm|]. apply types_In. now exists k.
Qed.

(** ** Generation after parsing *)
Lemma generation_calm : forall (K : panic_kind -> Prop) (E : error_kind -> Prop) x numpy fuel l c ms,
  uni_ok (pe_uni x) -> order_ok (pe_ord x) -> named_world (pe_world x) -> asked_modules (pe_world x) l ->
  asks x fuel l cg_new = Ok c -> final_modules x fuel c = Ok ms ->
  (pe_dbg x = true -> K PDebugAssert) ->
  ((forall p, In p (all_types ms) -> has_text p) \/ K PIndex) ->
  ((forall p, In p (all_types ms) -> sayable (pe_uni x) p) \/ K PUnwrap) ->
  ((forall m k, In m ms -> within k m -> spelled (pe_uni x) k) \/ E ESyn /\ E ECodegen) ->
  calm K E (cg_generate x numpy fuel c).
Proof.
  intros K E x numpy fuel l c ms HU Ho Hw Hl Hc Hf Hd Ht Hs Hsp. unfold cg_generate. rewrite Hf. cbn [obind].
  pose proof (final_rooted x Ho Hw fuel l c ms Hl Hc Hf) as R.
  apply calm_concatM. intros m Hm. apply module_calm; auto.
  - intros p Hp. cbn [mx_types gen_ctx] in Hp. split; [|destruct Ht as [Ht|Ht]; [left; now apply Ht|now right]].
    apply all_types_In in Hp as (m1 & k & Hm1 & Hk & [Hp|Hp]).
    + apply in_map_iff in Hp as (d & <- & Hd1). now apply (rt_class _ (R m1 k Hm1 Hk)).
    + now apply (rt_var _ (R m1 k Hm1 Hk)).
  - intros k Hk. now apply (R m).
  - destruct Hsp as [Hsp|Hsp]; [left; intros k Hk; now apply (Hsp m)|now right].
Qed.
