(** * Lemmas: what [use] items refer to (C30, C48, C59) *)
From Coq Require Import Permutation.
From Verif Require Import Base Model_Ident Model_Path Model_Import Model_Text Model_Config Model_Type Model_IntoRs Model_World Model_Out
  Model_Function Model_Property Model_Class Model_Module Model_Parse Model_Codegen Spec_Path Spec_Names Spec_Call Spec_Items Spec_Tree Spec_Api Spec_Safe Spec_Out Spec_Privacy Spec_Prop Spec_Attr
  Proof_Base Proof_Ident Proof_Path Proof_Text Proof_Type Proof_IntoRs Proof_Call Proof_Function Proof_Fresh Proof_Method Proof_Kind Proof_Items Proof_Module
  Proof_Parse Proof_Forest Proof_Err Proof_Api Proof_Honest Proof_Calm Proof_Rooted Proof_Parts Proof_Property Proof_Scope Proof_Deps Proof_Attr Proof_Shown Spec_Full Proof_Full Spec_Use.

(** ** Every item lies in its module. *)
Definition located (name : path) (it : item) : Prop := forall p, item_path it = Some p -> exists i, p = path_snoc name i.
Lemma reads_located : forall x name a it, reads x name a it -> located name it.
Proof.
  intros x name a it H p E. exists (at_name a). destruct it as [i|i|c|q|f|q]; cbn [reads item_path] in *; [discriminate|injection E as <-..].
  - destruct H as [_ H]. now apply read_import_target in H.
  - destruct H as [_ H]. now apply class_parse_typed in H as [-> _].
  - now destruct H.
  - destruct H as [[_ H]|[_ H]]; now apply fn_parse_typed in H as [-> _].
  - destruct H as [_ H]. now apply prop_parse_typed in H as (-> & _).
Qed.
Lemma moved_path : forall p t it it', moved p t it it' -> item_path it' = Some t.
Proof. intros p t it it' H. destruct it, it'; cbn in H; try easy; now destruct H as [_ ->]. Qed.

Lemma body_located : forall x rec o m, (forall o' m', rec o' = Ok m' -> forall k it, within k m' -> has k it -> located (m_name k) it) ->
  mod_parse_body x rec o = Ok m -> forall k it, within k m -> has k it -> located (m_name k) it.
Proof.
  intros x rec o m IH H.
  assert (Hn : exists name, module_path x o = Ok name).
  { unfold mod_parse_body in H. apply bind_Ok in H as (name & Hn & _). eauto. }
  destruct Hn as [name Hn].
  destruct (mod_body_inv (fun st => forall it, holds_found st it -> located name it) (fun s => forall k it, within k s -> has k it -> located (m_name k) it) x rec o m name Hn)
    as (En & Hs & st & HP & E1 & E2 & E3 & E4 & E5); auto.
  - intros sbs it Hit. now destruct it as [?|?|?|?|?|?]; cbn in Hit; [..|]; destruct Hit.
  - intros st a st' s H1 H2 H3 Pst Hst it Hit. destruct (step_reads _ _ _ _ _ _ Hst Hit) as [K|K]; [now apply Pst|]. now apply (reads_located x name a).
  - intros st c s k i Pst Hc Ht Hi Hk it Hit. destruct (retarget_moved _ _ _ _ Hit) as [K|(it0 & K1 & K2)]; [now apply Pst|].
    apply moved_path in K2. intros p E. rewrite K2 in E. injection E as <-. now exists i.
  - intros s k i Hf Hk. now apply (IH s).
  - intros k it Hk Hit. inversion Hk as [E|m' s Hin Hk']; subst; [|now apply (Hs s Hin k)].
    destruct it as [j|j|j|j|j|j]; [intros p E; discriminate|..]; apply HP; cbn in Hit |- *; [rewrite E1 in Hit; now left|congruence..].
Qed.
Lemma parsed_located : forall x fuel o m, mod_parse x fuel o = Ok m -> forall k it, within k m -> has k it -> located (m_name k) it.
Proof.
  intros x. induction fuel as [|f IH]; intros o m Hm; [discriminate|]. cbn [mod_parse] in Hm. now apply (body_located x (mod_parse x f) o).
Qed.

(** Every item is called by the name of an attribute. *)
Definition titled (U : uni) (it : item) : Prop := forall p, item_path it = Some p -> exists n, called U p n.
Lemma parsed_titled : forall x fuel o m, honest (pe_uni x) (pe_world x) -> is_module (pe_world x) o -> mod_parse x fuel o = Ok m ->
  forall k it, within k m -> has k it -> titled (pe_uni x) it.
Proof.
  intros x fuel o m Hw Hmo Hm. apply (parsed_items x (fun n o E => proj1 (hn_import _ _ Hw n o E)) (titled (pe_uni x))) with (fuel := fuel) (o := o); [discriminate|..]; auto.
  - intros o' name a it _ _ (s & Hs & Hr & _) Hit p E. exists s. split; [now apply (hn_dir _ _ Hw o')|]. apply read_attr_inv in Hr as [Ea _].
    assert (Ep : p = path_snoc name (at_name a)).
    { destruct it as [i|i|c|q|f|q]; cbn [reads item_path] in *; [discriminate|injection E as <-..].
      - destruct Hit as [_ H]. now apply read_import_target in H.
      - destruct Hit as [_ H]. now apply class_parse_typed in H as [-> _].
      - now destruct Hit.
      - destruct Hit as [[_ H]|[_ H]]; now apply fn_parse_typed in H as [-> _].
      - destruct Hit as [_ H]. now apply prop_parse_typed in H as (-> & _). }
    exists (segs name). rewrite Ep, Ea. reflexivity.
  - intros o' name c i it it' _ _ Hi _ _ Hmv p E. apply moved_path in Hmv. rewrite Hmv in E. injection E as <-. now apply Hi.
Qed.
(** A name that is fine as a Rust identifier *)
Lemma rust_spellable : forall U n, uni_ok U -> starts_with (u "r#") n = false -> rust_ident U (ident_from_py U n) -> spellable_name U n.
Proof.
  intros U n HU Hn H. assert (E : py_identifier U n).
  { apply (rust_ident_syn U _ HU) in H. unfold ident_from_py, py_to_rs in H. destruct (syn_ident_ok U n) eqn:E.
    - apply syn_ident_ok_inv in E as [[E _]|(t & -> & _)]; [exact E|discriminate].
    - apply syn_ident_ok_inv in H as [[K _]|(t & Et & K & _)]; [|apply app_inv_head in Et as ->; exact K].
      apply (py_identifier_no_raw U _ HU) in K. now rewrite starts_with_app in K. }
  split; [exact E|]. apply (from_py_valid_iff U n HU E). now apply rust_ident_syn.
Qed.

(** ** Looking up paths *)
Lemma has_path_iff : forall {A} (name : A -> path) p l, has_path name p l = true <-> exists y, In y l /\ name y = p.
Proof.
  intros A name p l. unfold has_path. rewrite existsb_exists. split; intros (y & Hy & E); exists y; (split; [exact Hy|]); now apply path_eqb_eq.
Qed.
Lemma path_exists_found : forall p m, path_exists p m = true -> exists k, within k m /\
  ((exists s, In s (m_subs k) /\ m_name s = p) \/ exists it, has k it /\ item_path it = Some p /\ forall j, it <> AnImport j).
Proof.
  intros p m. induction m as [m IH] using module_nested_ind. intros H.
  assert (E : path_exists p m = has_path m_name p (m_subs m) || has_path cl_name p (m_classes m) || has_path fn_name p (m_functions m)
    || has_path (fun x => x) p (m_typevars m) || has_path pr_name p (m_properties m) || existsb (path_exists p) (m_subs m)) by now destruct m.
  rewrite E, !orb_true_iff, !has_path_iff, existsb_exists in H. destruct H as [[[[[H|H]|H]|H]|H]|H].
  - exists m. split; [constructor|]. now left.
  - destruct H as (y & Hy & <-). exists m. split; [constructor|right]. now exists (AClass y).
  - destruct H as (y & Hy & <-). exists m. split; [constructor|right]. now exists (AFunction y).
  - destruct H as (y & Hy & <-). exists m. split; [constructor|right]. now exists (ATypeVar y).
  - destruct H as (y & Hy & <-). exists m. split; [constructor|right]. now exists (AProperty y).
  - destruct H as (s & Hs & Hp). destruct (IH s Hs Hp) as (k & Hk & K). exists k. split; [now apply (within_sub k m s)|exact K].
Qed.

(** ** What a scope defines *)
Lemma ends_name : forall p i, path_name p = Ok i <-> ends p i.
Proof. intros p i. split; apply path_name_ends. Qed.
Lemma getter_defines : forall g scope p t l n, uni_ok (g_uni g) -> gen_getter g scope p = Ok (t, l) -> called (g_uni g) (pr_name p) n -> spellable_name (g_uni g) n ->
  name_taken scope (ident_from_py (g_uni g) n) = false -> exists d, In (GFn d) l /\ k_name (f_contract d) = ident_from_py (g_uni g) n.
Proof.
  intros g scope p t l n HU H Hc [Hn Hs] Ht. destruct (called_name _ _ _ Hc) as [E1 E2]. destruct (getter_shape g _ p t l H) as (nm & id & Hnm & Hid & K).
  rewrite E1 in Hnm. injection Hnm as <-. unfold getter_ident in Hid.
  assert (V : syn_ident_ok (g_uni g) (as_rs (ident_from_py (g_uni g) n)) = true) by (unfold as_rs; now apply (from_py_valid_iff _ n HU Hn)).
  rewrite V, Ht in Hid. cbn in Hid. injection Hid as <-. destruct K as (docs & d & ty & _ & Kn & _ & _ & _ & _ & _ & _ & _ & ->). exists d.
  split; [rewrite in_app_iff; cbn; auto|exact Kn].
Qed.
Lemma item_defined : forall X m P it p n, uni_ok (mx_uni X) -> parts_of X m P -> mod_typed m -> (forall j, has m j -> unreserved (mx_uni X) j) ->
  (forall q k, In q (m_properties m) -> called (mx_uni X) (pr_name q) k -> ~ In k reserved) -> all_on (mx_cfg X) ->
  has m it -> item_path it = Some p -> (forall j, it <> AnImport j) -> called (mx_uni X) p n -> spellable_name (mx_uni X) n -> defines (pt_body m P) (ident_from_py (mx_uni X) n).
Proof.
  intros X m P it p n HU HP Hty Hres Hpr (_ & O1 & O2 & O3 & O4) Hit E Hni Hc Hn.
  assert (Kf : forall f k, In f (m_functions m) -> called (mx_uni X) (fn_name f) k -> spellable_name (mx_uni X) k -> defines (pt_body m P) (ident_from_py (mx_uni X) k)).
  { intros f k Hf Hk [Sk1 Sk2]. destruct (parts_yield X m P (AFunction f) HU HP Hty Hf (Hres (AFunction f) Hf) O3 k Hk Sk1) as (d & a & Hd & _ & S).
    left. exists d. split; [exact Hd|]. destruct S as [[_ S]|[S _]]; [exact S|contradiction]. }
  destruct it as [i|i|c|q|f|q]; cbn [item_path has] in *; [discriminate|now destruct (Hni i)|injection E as <-..].
  - destruct (parts_yield X m P (AClass c) HU HP Hty Hit (Hres (AClass c) Hit) O1 n Hc (proj1 Hn)) as (id & _ & _ & _ & _ & S & Hd & _).
    right. right. left. destruct S as [[_ ->]|[S _]]; [exact Hd|]. now destruct (proj2 Hn).
  - right. left. exact (parts_yield X m P (ATypeVar q) HU HP Hty Hit I O2 n Hc).
  - now apply (Kf f).
  - destruct Hty as (T1 & T2 & T3). destruct (when_In _ _ _ _ (po_props _ _ _ HP) O4 q Hit) as (l & El & Il). unfold prop_frags in El. apply bind_Ok in El as (i & Ei & El).
    destruct (name_taken (pt_scope P) (ident_from_py (mx_uni X) n)) eqn:Et.
    + unfold name_taken in Et. apply orb_true_iff in Et as [Et|Et].
      * apply mem_str_In in Et. destruct (mapM_In _ _ _ _ (po_scope _ _ _ HP) Et) as (f & Hf & Ef). apply (Kf f n Hf); [|exact Hn].
        split; [apply Hc|]. now apply ends_name in Ef.
      * exfalso. apply (Hpr q n Hit Hc). rewrite as_py_from_py in Et by apply Hc. now apply mem_In in Et.
    + unfold prop_generate in Ei. apply bind_Ok in Ei as ([gt gi] & Hg & Ei). apply bind_Ok in Ei as ([st si] & Hs & Ei). rewrite (proj1 (T2 q Hit)) in Ei. injection Ei as <-. injection El as <-.
      destruct (getter_defines (pt_ctx X P) _ q gt gi n HU Hg Hc Hn Et) as (d & Hd & Ed). left. exists d. split; [|exact Ed].
      apply (body_incl m P (GPub :: gi ++ (if pr_mutable q then GPub :: si else []))); [auto|]. right. apply in_or_app. now left.
Qed.

(** ** Going down *)
Lemma resolve_In : forall ns p r, resolve ns p = Some r -> forall n, In n r -> In n ns \/ In n p.
Proof.
  assert (N : forall cur p r, resolve_names cur p = Some r -> forall n, In n r -> In n cur \/ In n p).
  { intros cur p r H n Hn. unfold resolve_names in H. destruct (existsb path_kw p); [discriminate|]. injection H as <-. now apply in_app_or. }
  assert (S : forall p cur r, resolve_supers cur p = Some r -> forall n, In n r -> In n cur \/ In n p).
  { induction p as [|s p IH]; intros cur r H n Hn; cbn [resolve_supers] in H; [injection H as <-; now left|]. destruct (str_eqb s (u "super")); [|now apply (N cur (s :: p) r)].
    destruct cur as [|a cur]; [discriminate|]. destruct (IH _ _ H n Hn) as [K|K]; [left|right; now right].
    rewrite (app_removelast_last [] (l := a :: cur)) by discriminate. apply in_or_app. now left. }
  intros ns p r H n Hn. unfold resolve in H. destruct p as [|s p]; [discriminate|]. destruct (str_eqb s (u "self")); [|now apply (S (s :: p) ns r)].
  destruct (S p ns r H n Hn) as [K|K]; [now left|right; now right].
Qed.
Lemma call_ident : forall U, uni_ok U -> py_identifier U (u "call").
Proof.
  intros U (H1 & H2 & _). eexists; eexists; (split; [reflexivity|]); (split; [right; now rewrite H1|]); cbn [In]; intuition subst; rewrite H2; easy.
Qed.
Lemma rust_plain : forall U n, rust_ident U n -> path_kw n = false.
Proof.
  intros U n H. destruct (path_kw n) eqn:E; [|reflexivity]. exfalso. unfold path_kw in E. apply existsb_exists in E as (t & Ht & E). apply str_eqb_eq in E. subst t.
  destruct H as [[_ H]|(t & -> & _)].
  - apply H. cbn in Ht |- *. intuition.
  - cbn in Ht. intuition discriminate.
Qed.
Lemma at_path_snoc : forall ns l c k, at_path l (ns ++ [c]) k -> exists k', at_path l ns k' /\ In (GMod c k) k'.
Proof.
  induction ns as [|n ns IH]; intros l c k H; inversion H as [|l0 n0 b ns0 k0 Hin Hb]; subst.
  - inversion Hb; subst. exists l. split; [constructor|exact Hin].
  - destruct (IH b c k Hb) as (k' & A & Hk). exists k'. split; [now apply (at_down l n b)|exact Hk].
Qed.
Lemma filterM_In : forall {A} (f : A -> outcome bool) l k, filterM f l = Ok k -> forall a, In a k <-> In a l /\ f a = Ok true.
Proof.
  induction l as [|b l IH]; intros k H a; cbn [filterM] in H; [injection H as <-; cbn; tauto|].
  apply bind_Ok in H as (r & Hr & H). apply bind_Ok in H as (k' & Hk & H). injection H as <-. specialize (IH k' Hk a). destruct r; cbn [In]; rewrite IH.
  - split; [intros [->|[H1 H2]]; auto|intros [[->|H1] H2]; auto].
  - split; [intros [H1 H2]; auto|]. intros [[->|H1] H2]; [congruence|auto].
Qed.
Lemma mapM_syn_In : forall U l k, mapM (ident_to_syn U) l = Ok k -> k = l /\ forall i, In i l -> rust_ident U i.
Proof.
  intros U. induction l as [|i l IH]; intros k H; cbn [mapM] in H; [injection H as <-; now split|].
  apply bind_Ok in H as (j & Hj & H). apply bind_Ok in H as (k' & Hk & H). injection H as <-. apply to_syn_ident in Hj as [-> Hj]. destruct (IH k' Hk) as [-> IH'].
  split; [reflexivity|]. intros n [->|Hn]; auto.
Qed.
Lemma uses_counterpart : forall m i, uses_name m false i <-> counterpart m i.
Proof.
  intros m i. unfold uses_name, counterpart. setoid_rewrite ends_name. split.
  - intros [[E _]|[H|[H|[H|[H|H]]]]]; [discriminate|now left|right..].
    + destruct H as (c & Hc & E). now exists (AClass c), (cl_name c).
    + destruct H as (c & Hc & E). now exists (AFunction c), (fn_name c).
    + destruct H as (c & Hc & E). now exists (ATypeVar c), c.
    + destruct H as (c & Hc & E). now exists (AProperty c), (pr_name c).
  - intros [H|(it & p & Hit & E & Hi & Hn)]; [auto|]. destruct it as [j|j|c|q|f|q]; cbn in *; [discriminate|now destruct (Hn j)|injection E as <-..]; eauto 10.
Qed.
Lemma uses_in_use : forall m i, uses_name m true i <-> in_use m i.
Proof.
  intros m i. unfold in_use. rewrite <- uses_counterpart. unfold uses_name. setoid_rewrite ends_name. split; [intros [[_ H]|H]; auto 10|].
  intros [[[E _]|H]|H]; [discriminate|auto 10..].
Qed.
(** The prelude of a module *)
Lemma prelude_made : forall U m l, uni_ok U -> named_items m -> gen_prelude U m = Ok l -> (l = [] /\ forall i, In i (m_prelude m) -> ~ counterpart m i) \/
  exists c ex j, l = [GPub; GMod c [GPub; GUseSuper ex]] /\ (forall i, In i ex <-> In i (m_prelude m) /\ counterpart m i) /\ (forall i, In i ex -> rust_ident U i) /\
    c = numbered (u "call") j /\ ~ in_use m c /\ forall k, k < j -> in_use m (numbered (u "call") k).
Proof.
  intros U m l HU Hm H. unfold gen_prelude in H. destruct (m_prelude m) as [|i0 r0] eqn:Ep; [injection H as <-; left; split; [reflexivity|intros i []]|].
  rewrite <- Ep in H |- *. clear Ep i0 r0. apply bind_Ok in H as (kept & Hk & H). apply bind_Ok in H as (ex & Hex & H).
  destruct (mapM_syn_In _ _ _ Hex) as [-> Hs].
  assert (K : forall i, In i kept <-> In i (m_prelude m) /\ counterpart m i).
  { intros i. rewrite (filterM_In _ _ _ Hk), <- uses_counterpart. destruct (ident_exists_iff m false i Hm) as (r & Hr & Hu). rewrite Hr, <- Hu.
    split; intros [H1 H2]; (split; [exact H1|congruence]). }
  destruct kept as [|i0 r0] eqn:Ek; [injection H as <-; left; split; [reflexivity|]; intros i H1 H2; now apply (K i)|]. rewrite <- Ek in *. clear Ek i0 r0.
  apply bind_Ok in H as (c & Hc & H). apply bind_Ok in H as (id & Hid & H). injection H as <-. apply to_syn_ident in Hid as [-> _].
  destruct (first_unused_spec U m _ _ c Hm Hc) as (j & _ & -> & Hf & Hj). right.
  assert (Hid : py_identifier U (u "call")).
  { destruct HU as (H1 & H2 & _). eexists; eexists; (split; [reflexivity|]); (split; [right; now rewrite H1|]); cbn [In]; intuition subst; rewrite H2; easy. }
  assert (Hcd : forall i, candidate U "call" i = numbered (u "call") i).
  { intros i. refine (proj1 (candidate_plain U "call" i HU Hid _ _)); reflexivity. }
  exists (candidate U "call" j), kept, j. split; [reflexivity|]. split; [exact K|]. split; [exact Hs|]. split; [apply Hcd|]. rewrite <- uses_in_use. split; [exact Hf|].
  intros k Hk'. rewrite <- Hcd. apply uses_in_use, Hj. lia.
Qed.

(** ** The output *)
Section output.
  Variable x : penv.
  Let U := pe_uni x.
  Hypothesis HU : uni_ok U.
  Hypothesis Ho : order_ok (pe_ord x).
  Hypothesis Hw : honest U (pe_world x).
  Variables (numpy : bool) (fuel : nat) (l : list request) (c : codegen) (ms : list module) (out : list frag).
  Hypothesis Hl : asked_modules (pe_world x) l.
  Hypothesis Hc : asks x fuel l cg_new = Ok c.
  Hypothesis Hf : final_modules x fuel c = Ok ms.
  Hypothesis Hout : cg_generate x numpy fuel c = Ok out.
  Let X := gen_ctx x numpy ms.

  Lemma final_located : forall m k it, In m ms -> within k m -> has k it -> located (m_name k) it.
  Proof.
    intros m k it Hm Hk Hit. destruct (final_vis x Ho fuel c ms Hf) as (inp & Hin & V). destruct (within_reach k m Hk ms Hm) as [ch Hch].
    destruct (reach_last ms ch k Hch) as [d Ed].
    assert (K : vis ms ch (Some it)) by (exists k; now split). apply V in K as (m0 & Hm0 & [(c' & E & k0 & Hr & Hh)|[E _]]); [|discriminate].
    destruct (reach_last _ _ _ Hr) as [d' Ed']. rewrite Ed, Ed', app_assoc in E. apply app_inj_tail in E as [_ ->].
    apply reach_within in Hr as (m1 & [<-|[]] & Hwi). destruct (input_from x (honest_named _ _ Hw) fuel l c Hl Hc inp m0 Hin Hm0) as (o & Hmod & Hp).
    now apply (parsed_located x fuel o m0).
  Qed.
  Lemma final_titled : forall m k it, In m ms -> within k m -> has k it -> titled U it.
  Proof.
    apply (final_module_items x Ho (honest_named _ _ Hw) fuel l c ms Hl Hc Hf). intros o m k it Hmo Hm. now apply (parsed_titled x fuel o m Hw Hmo Hm).
  Qed.
  Lemma final_items_named : forall m k, In m ms -> within k m -> named_items k.
  Proof.
    intros m k Hm Hk. pose proof (final_rooted x Ho (honest_named _ _ Hw) fuel l c ms Hl Hc Hf) as R. apply rooted_items; [now apply (R m k)|].
    intros s Hs. apply (R m s); [exact Hm|]. clear - Hk Hs. induction Hk as [|m t Ht H IH]; [apply (within_sub s k s Hs); constructor|now apply (within_sub s m t)].
  Qed.
  (** The scopes that belong to modules *)
  Lemma scope_module : forall ns k, at_path out ns k ->
    (ns = [] /\ forall f, In f k -> leads f = true \/ exists n b, f = GMod n b) \/ (exists ex, k = [GPub; GUseSuper ex]) \/
    exists m m0 P, In m0 ms /\ within m m0 /\ ns = segs (m_name m) /\ parts_of X m P /\ k = pt_body m P.
  Proof.
    intros ns k A. destruct (output_named x numpy fuel c out ms Hf Hout ns k A) as [K|[K|(ch & m & P & Hr & M & HP & ->)]]; [now left|now (right; left)|]. right. right.
    destruct (reach_within _ _ _ Hr) as (m0 & Hm0 & Hk). exists m, m0, P. split; [exact Hm0|]. split; [exact Hk|]. split; [|now split].
    destruct (final_linked x Ho Hw fuel l c ms Hl Hc Hf ch (ex_intro _ m Hr)) as [L (n & r & E & H1)].
    destruct (reach_last _ _ _ Hr) as (d & Ed). rewrite Ed in M, L. apply (mirrors_linked d ns (m_name m) L M). intros n' r' E'. rewrite <- Ed, E in E'. injection E' as <- <-. exact H1.
  Qed.
  Lemma module_scope : forall m m0, traverse_submodules (pe_cfg x) = true -> In m0 ms -> within m m0 -> exists P, parts_of X m P /\ at_path out (segs (m_name m)) (pt_body m P).
  Proof.
    intros m m0 Ht Hm0 Hk. destruct (within_reach m m0 Hk ms Hm0) as [ch Hr]. destruct (output_reached x numpy fuel c out ms Hf Hout ch m (or_introl Ht) Hr) as (ns & P & M & HP & A).
    exists P. split; [exact HP|]. replace (segs (m_name m)) with ns; [exact A|].
    destruct (final_linked x Ho Hw fuel l c ms Hl Hc Hf ch (ex_intro _ m Hr)) as [L (n & r & E & H1)].
    destruct (reach_last _ _ _ Hr) as (d & Ed). rewrite Ed in M, L. apply (mirrors_linked d ns (m_name m) L M). intros n' r' E'. rewrite <- Ed, E in E'. injection E' as <- <-. exact H1.
  Qed.
  Lemma scope_mods : forall ns k n b, at_path out ns k -> In (GMod n b) k ->
    (exists m m0 P, In m0 ms /\ within m m0 /\ parts_of X m P /\ rust_ident U n /\ path_name (m_name m) = Ok n /\ b = pt_body m P) \/
    exists m m0 P, In m0 ms /\ within m m0 /\ ns = segs (m_name m) /\ parts_of X m P /\ k = pt_body m P /\ In (GMod n b) (pt_prelude P).
  Proof.
    intros ns k n b A Hin.
    destruct (scope_module ns k A) as [[-> K]|[(ex & ->)|(m & m0 & P & Hm0 & Hm & En & HP & ->)]].
    - inversion A as [l0 E|]; subst. destruct (output_from x numpy fuel c k ms Hf Hout _ Hin) as (m & lm & Hm & Hg & Hin').
      destruct (generated_mods _ _ _ _ _ Hg Hin') as (P & HP & Hn & Hr & ->). left. exists m, m, P. split; [exact Hm|]. split; [constructor|]. auto.
    - destruct Hin as [E|[E|[]]]; discriminate.
    - destruct (body_mods _ _ _ _ _ HP Hin) as [Hp|(s & ls & Hs & Hg & Hin')]; [right; now exists m, m0, P|].
      destruct (generated_mods _ _ _ _ _ Hg Hin') as (P' & HP' & Hn & Hr & ->). left. exists s, m0, P'. split; [exact Hm0|]. split; [|auto].
      clear - Hm Hs. induction Hm as [|m' t Ht H IH]; [apply (within_sub s m s Hs); constructor|now apply (within_sub s m' t)].
  Qed.
  Lemma prelude_parts : forall m m0 P, In m0 ms -> within m m0 -> parts_of X m P -> pt_prelude P = [] \/
    generate_preludes (pe_cfg x) = true /\ exists cc ex j, pt_prelude P = [GPub; GMod cc [GPub; GUseSuper ex]] /\ (forall i, In i ex <-> In i (m_prelude m) /\ counterpart m i) /\ (forall i, In i ex -> rust_ident U i) /\
      cc = numbered (u "call") j /\ ~ in_use m cc /\ forall k, k < j -> in_use m (numbered (u "call") k).
  Proof.
    intros m m0 P Hm0 Hm HP. pose proof (po_prelude _ _ _ HP) as H. change (mx_cfg X) with (pe_cfg x) in H. destruct (generate_preludes _) eqn:Eg; cbn [when] in H; [|injection H as H; now left].
    destruct (prelude_shape _ _ _ H) as [K|(id & ex & E & K)]; [now left|]. right. split; [reflexivity|].
    destruct (prelude_made U m _ HU (final_items_named m0 m Hm0 Hm) K) as [[E' _]|K']; [congruence|exact K'].
  Qed.
  Lemma scope_names : forall ns k, at_path out ns k -> forall n, In n ns -> path_kw n = false.
  Proof.
    induction ns as [|n ns IH] using rev_ind; intros k A i Hi; [destruct Hi|]. destruct (at_path_snoc _ _ _ _ A) as (k' & A' & Hin).
    apply in_app_or in Hi as [Hi|[<-|[]]]; [now apply (IH k')|].
    destruct (scope_mods ns k' n k A' Hin) as [(m & m0 & P & _ & _ & _ & Hr & _)|(m & m0 & P & Hm0 & Hm & _ & HP & _ & Hp)]; [now apply (rust_plain U)|].
    destruct (prelude_parts m m0 P Hm0 Hm HP) as [E|(_ & cc & ex & j & E & _ & _ & -> & _)]; rewrite E in Hp; [easy|]. destruct Hp as [Hp|[Hp|[]]]; [discriminate|]. injection Hp as <- _.
    unfold numbered. reflexivity.
  Qed.

  Lemma scope_rust : forall ns k, at_path out ns k -> forall n, In n ns -> rust_ident U n.
  Proof.
    induction ns as [|n ns IH] using rev_ind; intros k A i Hi; [destruct Hi|]. destruct (at_path_snoc _ _ _ _ A) as (k' & A' & Hin).
    apply in_app_or in Hi as [Hi|[<-|[]]]; [now apply (IH k')|].
    destruct (scope_mods ns k' n k A' Hin) as [(m & m0 & P & _ & _ & _ & Hr & _)|(m & m0 & P & Hm0 & Hm & _ & HP & _ & Hp)]; [exact Hr|].
    destruct (prelude_parts m m0 P Hm0 Hm HP) as [E|(_ & cc & ex & j & E & _ & _ & -> & _)]; rewrite E in Hp; [easy|]. destruct Hp as [Hp|[Hp|[]]]; [discriminate|]. injection Hp as <- _.
    change (numbered (u "call") j) with (u "call" ++ suffix_of j).
    rewrite <- (proj1 (candidate_plain U "call" j HU (call_ident U HU) eq_refl eq_refl)). apply syn_rust_ident, (candidate_plain U "call" j HU (call_ident U HU) eq_refl eq_refl).
  Qed.

  Lemma prelude_scope : forall ns k ex, at_path out ns k -> In (GUseSuper ex) k ->
    exists q cc k' m m0 P, ns = q ++ [cc] /\ at_path out q k' /\ In (GMod cc k) k' /\ In m0 ms /\ within m m0 /\ q = segs (m_name m) /\ parts_of X m P /\ k' = pt_body m P /\
      k = [GPub; GUseSuper ex] /\
      (forall i, In i ex <-> In i (m_prelude m) /\ counterpart m i) /\ (forall i, In i ex -> rust_ident U i) /\ exists j, cc = numbered (u "call") j /\ ~ in_use m cc /\ forall n, n < j -> in_use m (numbered (u "call") n).
  Proof.
    intros ns k ex A Hin.
    assert (B : forall m m0 P, In m0 ms -> within m m0 -> parts_of X m P -> ~ In (GUseSuper ex) (pt_body m P)).
    { intros m m0 P Hm0 Hm HP Hb. destruct (final_typed x fuel l c ms Ho Hc Hf m0 m Hm0 Hm) as (_ & _ & T3).
      destruct (body_frag _ _ _ _ HP T3 Hb) as [E|[(?&?&?&E&_)|[(v'&E&Hv)|[(?&?&E&_)|[(?&E&_)|[Hcl|[(?&E&_)|[(?&E&_)|(?&?&E&_)]]]]]]]]; try discriminate.
      destruct (when_from _ _ _ _ _ (po_classes _ _ _ HP) Hcl) as (_ & d & ld & _ & Hld & Hin'). pose proof (class_shape_frag _ _ _ _ Hld Hin'). discriminate. }
    destruct (scope_module ns k A) as [[-> K]|[(ex' & E)|(m & m0 & P & Hm0 & Hm & En & HP & ->)]].
    - destruct (K _ Hin) as [E|(n & b & E)]; discriminate.
    - rewrite E in Hin. destruct Hin as [E'|[E'|[]]]; [discriminate|]. injection E' as ->.
      destruct ns as [|n ns _] using rev_ind.
      { assert (Eo : out = k) by now inversion A. assert (Hi : In (GUseSuper ex) out) by (rewrite Eo, E; right; now left).
        destruct (output_from x numpy fuel c _ ms Hf Hout (GUseSuper ex) Hi) as (m & lm & _ & Hg & Hin).
        destruct (mod_lead_or_mod _ _ _ _ Hg Hin) as [K|(? & ? & K)]; discriminate. }
      destruct (at_path_snoc _ _ _ _ A) as (k' & A' & Hm').
      destruct (scope_mods ns k' n k A' Hm') as [(m & m0 & P & Hm0 & Hm & HP & _ & _ & Eb)|(m & m0 & P & Hm0 & Hm & En & HP & Ek & Hp)].
      { exfalso. apply (B m m0 P Hm0 Hm HP). rewrite <- Eb, E. right. now left. }
      destruct (prelude_parts m m0 P Hm0 Hm HP) as [E'|(_ & cc & ex' & j & E' & K1 & K3 & K2)]; rewrite E' in Hp; [easy|]. destruct Hp as [Hp|[Hp|[]]]; [discriminate|].
      rewrite E in Hp. injection Hp as -> ->. exists ns, n, k', m, m0, P. repeat (split; [assumption || reflexivity|]). now exists j.
    - now destruct (B m m0 P Hm0 Hm HP).
  Qed.

  Section refer.
    Hypothesis Hon : all_on (pe_cfg x).
    Lemma final_defines : forall m m0 P it p n, In m0 ms -> within m m0 -> parts_of X m P -> has m it -> item_path it = Some p -> (forall j, it <> AnImport j) ->
      called U p n -> spellable_name U n -> defines (pt_body m P) (ident_from_py U n).
    Proof.
      intros m m0 P it p n Hm0 Hm HP Hit E Hni Hn Hs.
      assert (Sh : forall j, has m j -> shown_all x j) by (intros j Hj; exact (final_shown x Ho (honest_named _ _ Hw) fuel l c Hl Hc ms m0 m j Hf Hm0 Hm Hj)).
      apply (item_defined X m P it p n HU HP); auto.
      - now apply (final_typed x fuel l c ms Ho Hc Hf m0 m).
      - intros j Hj. now apply shown_unreserved, Sh.
      - intros q k Hq Hk Hr. destruct (called_name _ _ _ Hk) as [E1 E2].
        apply (shown_last x (AProperty q) (pr_name q) _ (Sh (AProperty q) Hq) eq_refl E1). left. now rewrite E2.
    Qed.
    Lemma sub_defines : forall m m0 P s, In m0 ms -> within m m0 -> parts_of X m P -> In s (m_subs m) -> exists i, ends (m_name s) i /\ defines (pt_body m P) i.
    Proof.
      intros m m0 P s Hm0 Hm HP Hs. destruct (subs_in X m P HP (proj1 Hon) s Hs) as (ls & Els & Il). destruct (module_in X s ls Els) as (P' & n & _ & Hn & Hin).
      exists n. split; [exact Hn|]. right. right. right. exists (pt_body s P'). now apply Il.
    Qed.
    Lemma called_ends : forall p n i, called U p n -> ends p i -> i = ident_from_py U n.
    Proof. intros p n i (_ & q & E) (q' & E'). rewrite E in E'. now apply app_inj_tail in E' as [_ <-]. Qed.

    Lemma uses_refer : forall ns k v, at_path out ns k -> In (GUse v) k -> refers out ns (use_path v).
    Proof.
      intros ns k v A Hin.
      destruct (scope_module ns k A) as [[-> K]|[(ex & ->)|(m & m0 & P & Hm0 & Hm & En & HP & ->)]].
      - destruct (K _ Hin) as [E|(n & b & E)]; discriminate.
      - destruct Hin as [E|[E|[]]]; discriminate.
      - destruct (final_typed x fuel l c ms Ho Hc Hf m0 m Hm0 Hm) as (_ & _ & T3).
        assert (Hv : In (GUse v) (pt_imports P)).
        { destruct (body_frag _ _ _ _ HP T3 Hin) as [E|[(?&?&?&E&_)|[(v'&E&Hv)|[(?&?&E&_)|[(?&E&_)|[Hcl|[(?&E&_)|[(?&E&_)|(?&?&E&_)]]]]]]]]; try discriminate; [exact Hv|].
          exfalso. destruct (when_from _ _ _ _ _ (po_classes _ _ _ HP) Hcl) as (_ & d & ld & _ & Hld & Hin'). pose proof (class_shape_frag _ _ _ _ Hld Hin'). discriminate. }
        destruct (when_from _ _ _ _ _ (po_imports _ _ _ HP) Hv) as (_ & i & b & Hi & Hb & Hin'). apply filter_In in Hi as [Hi Hex].
        apply use_shape in Hb as [->|(v' & -> & Hg)]; [easy|]. destruct Hin' as [E|[E|[]]]; [discriminate|]. injection E as ->.
        apply existsb_exists in Hex as (m1 & Hm1 & Hex). apply path_exists_found in Hex as (k1 & Hk1 & Hex).
        destruct (module_scope k1 m1 (proj1 Hon) Hm1 Hk1) as (P1 & HP1 & A1).
        (* the origin *)
        assert (O : exists n, absolute (im_origin i) /\ segs (im_origin i) = segs (m_name k1) ++ [n] /\ (rust_ident U n -> defines (pt_body k1 P1) n)).
        { destruct Hex as [(s & Hs & Es)|(it & Hit & Ep & Hni)].
          - destruct (sub_defines k1 m1 P1 s Hm1 Hk1 HP1 Hs) as (n & (q & En') & Hd). exists n.
            assert (Hs' : within s m1). { clear - Hk1 Hs. induction Hk1 as [|m' t Ht H IH]; [apply (within_sub s k1 s Hs); constructor|now apply (within_sub s m' t)]. }
            destruct (module_scope s m1 (proj1 Hon) Hm1 Hs') as (Ps & _ & As). rewrite <- Es. split; [|split; [|now intros _]].
            + split; [now destruct (rt_name _ (final_rooted x Ho (honest_named _ _ Hw) fuel l c ms Hl Hc Hf m1 s Hm1 Hs'))|]. intros y Hy. now apply (scope_names _ _ As).
            + destruct (within_reach k1 m1 Hk1 ms Hm1) as [ch Hr].
              assert (Hr2 : reach ms (ch ++ [m_name s]) s).
              { clear - Hr Hs. induction Hr as [l0 m Hl|l0 m ch k Hl Hr IH]; [apply reach_down; [exact Hl|]; now apply reach_here|]. cbn. apply reach_down; auto. }
              destruct (final_linked x Ho Hw fuel l c ms Hl Hc Hf _ (ex_intro _ s Hr2)) as [L _]. destruct (reach_last _ _ _ Hr) as (d & Ed). rewrite Ed, <- app_assoc in L. cbn [app] in L.
              assert (L2 : extends (m_name k1) (m_name s)).
              { clear - L. induction d as [|a d IH]; [apply L|]. apply IH. destruct d; apply L. }
              destruct L2 as (j & Ej). rewrite Ej in En'. apply app_inj_tail in En' as [_ <-]. exact Ej.
          - destruct (final_located m1 k1 it Hm1 Hk1 Hit _ Ep) as (j & Ej). destruct (final_titled m1 k1 it Hm1 Hk1 Hit _ Ep) as (n & Hn).
            assert (Ejn : j = ident_from_py U n). { apply (called_ends (im_origin i)); [exact Hn|]. rewrite Ej. now exists (segs (m_name k1)). }
            exists j. split; [|split; [now rewrite Ej|]].
            + rewrite Ej. split; [now destruct (rt_name _ (final_rooted x Ho (honest_named _ _ Hw) fuel l c ms Hl Hc Hf m1 k1 Hm1 Hk1))|].
              intros y Hy. cbn in Hy. apply in_app_or in Hy as [Hy|[<-|[]]]; [now apply (scope_names _ _ A1)|]. rewrite Ejn. apply from_py_not_path_kw.
            + rewrite Ejn. intros Hr. apply (final_defines k1 m1 P1 it (im_origin i) n); auto. apply rust_spellable; auto. apply Hn. }
        destruct O as (n & Oa & Os & Od).
        (* the target *)
        destruct (final_located m0 m (AnImport i) Hm0 Hm Hi _ eq_refl) as (t & Et). destruct (final_titled m0 m (AnImport i) Hm0 Hm Hi _ eq_refl) as (tn & Htn).
        assert (Etn : t = ident_from_py U tn). { apply (called_ends (im_target i)); [exact Htn|]. rewrite Et. now exists (segs (m_name m)). }
        assert (Ta : absolute (im_target i)).
        { rewrite Et. split; [now destruct (rt_name _ (final_rooted x Ho (honest_named _ _ Hw) fuel l c ms Hl Hc Hf m0 m Hm0 Hm))|].
          intros y Hy. cbn in Hy. apply in_app_or in Hy as [Hy|[<-|[]]]; [rewrite <- En in Hy; now apply (scope_names _ _ A)|]. rewrite Etn. apply from_py_not_path_kw. }
        destruct (import_generate_correct U i v Oa Ta Hg) as (_ & _ & R & _ & _ & F). rewrite Et in R. cbn [segs path_snoc] in R. rewrite removelast_last, <- En, Os in R.
        exists (segs (m_name k1)), n, (pt_body k1 P1). split; [exact R|]. split; [exact A1|]. apply Od.
        assert (Hn : path_kw n = false) by (apply (proj2 Oa); rewrite Os; apply in_or_app; right; now left).
        destruct (resolve_In _ _ _ R n) as [K|K]; [apply in_or_app; right; now left|now apply (scope_rust _ _ A)|].
        rewrite forallb_forall in F. specialize (F n K). rewrite Hn, orb_false_r in F. now apply syn_rust_ident.
    Qed.

    Lemma counterpart_defined : forall m m0 P i, In m0 ms -> within m m0 -> parts_of X m P -> counterpart m i -> rust_ident U i -> defines (pt_body m P) i.
    Proof.
      intros m m0 P i Hm0 Hm HP [(s & Hs & He)|(it & p & Hit & Ep & He & Hni)] Hr.
      - destruct (subs_in X m P HP (proj1 Hon) s Hs) as (ls & Els & Il). destruct (module_in X s ls Els) as (P' & n & _ & Hn & Hin).
        assert (n = i) as ->. { destruct Hn as (q & E1), He as (q' & E2). rewrite E1 in E2. now apply app_inj_tail in E2. }
        right; right; right; exists (pt_body s P'); now apply Il.
      - destruct (final_titled m0 m it Hm0 Hm Hit p Ep) as (n & Hn). pose proof (called_ends p n i Hn He) as ->.
        apply (final_defines m m0 P it p n); auto. apply rust_spellable; auto. apply Hn.
    Qed.
    Lemma preludes_refer : forall ns k ex, at_path out ns k -> In (GUseSuper ex) k ->
      exists q cc k', ns = q ++ [cc] /\ at_path out q k' /\ In (GMod cc k) k' /\ forall i, In i ex -> defines k' i.
    Proof.
      intros ns k ex A Hin. destruct (prelude_scope ns k ex A Hin) as (q & cc & k' & m & m0 & P & -> & A' & Hin' & Hm0 & Hm & _ & HP & -> & _ & K & Kr & _).
      exists q, cc, (pt_body m P). split; [reflexivity|]. split; [exact A'|]. split; [exact Hin'|]. intros i Hi.
      apply (counterpart_defined m m0 P i Hm0 Hm HP); [now apply K|now apply Kr].
    Qed.
  End refer.
    Hypothesis Hsp : exports_spelled U ms.
    Lemma prelude_complete : forall m m0 P i, In m0 ms -> within m m0 -> parts_of X m P -> generate_preludes (pe_cfg x) = true ->
      In i (m_prelude m) -> counterpart m i -> exists cc ex, prelude_of (pt_body m P) cc ex /\ In i ex.
    Proof.
      intros m m0 P i Hm0 Hm HP Hg Hi Hcp.
      assert (G : exists l, gen_prelude U m = Ok l).
      { clear Hi Hcp. unfold gen_prelude. destruct (m_prelude m) as [|i0 r0] eqn:Ep; [eexists; reflexivity|]. rewrite <- Ep. clear Ep i0 r0.
        pose proof (final_items_named m0 m Hm0 Hm) as Hnm.
        assert (F : exists kept, filterM (fun i => ident_exists m i false) (m_prelude m) = Ok kept).
        { clear - Hnm. induction (m_prelude m) as [|j r [k IH]]; [now exists []|]. cbn [filterM]. destruct (ident_exists_iff m false j Hnm) as (b & -> & _). cbn [obind].
          rewrite IH. cbn [obind]. eexists. reflexivity. }
        destruct F as [kept Hk]. rewrite Hk. cbn [obind].
        assert (M : mapM (ident_to_syn U) kept = Ok kept).
        { assert (Q : forall j, In j kept -> rust_ident U j).
          { intros j Hj. apply (filterM_In _ _ _ Hk) in Hj as [Hin Hj]. destruct (ident_exists_iff m false j Hnm) as (b & Eb & Hu). rewrite Eb in Hj. injection Hj as ->.
            apply (Hsp m0 m j Hm0 Hm Hin). now apply uses_counterpart, Hu. }
          clear - Q HU. induction kept as [|j r IH]; [reflexivity|]. cbn [mapM]. rewrite (to_syn_ok U j HU) by (apply Q; now left). cbn [obind].
          rewrite IH; [reflexivity|]. intros y Hy. apply Q. now right. }
        rewrite M. cbn [obind]. destruct kept as [|j0 r0]; [eexists; reflexivity|]. destruct (first_unused_total U m Hnm) as [cc Hcc]. rewrite Hcc. cbn [obind].
        destruct (first_unused_spec U m _ _ cc Hnm Hcc) as (j & _ & -> & _).
        unfold ident_to_syn, as_rs. assert (Hid : py_identifier U (u "call")).
        { destruct HU as (H1 & H2 & _). eexists; eexists; (split; [reflexivity|]); (split; [right; now rewrite H1|]); cbn [In]; intuition subst; rewrite H2; easy. }
        rewrite (proj2 (candidate_plain U "call" j HU Hid eq_refl eq_refl)). eexists. reflexivity. }
      destruct G as [lp Hlp]. pose proof (po_prelude _ _ _ HP) as H. change (mx_cfg X) with (pe_cfg x) in H. rewrite Hg in H. cbn [when] in H.
      change (mx_uni X) with U in H. rewrite Hlp in H. injection H as H.
      destruct (prelude_made U m lp HU (final_items_named m0 m Hm0 Hm) Hlp) as [[_ K]|(cc & ex & j & E & K & _)]; [now destruct (K i Hi)|].
      exists cc, ex. split; [|now apply K]. unfold prelude_of, pt_body. rewrite !in_app_iff. right. right. left. rewrite <- H, E. right. now left.
    Qed.
End output.

(** ** The declared names *)
Lemma chk_map : forall d U l k, mapM (ident_from_py_chk d U) l = Ok k -> k = map (ident_from_py U) l.
Proof.
  intros d U. induction l as [|a l IH]; intros k H; cbn [mapM] in H; [now injection H as <-|]. apply bind_Ok in H as (i & Hi & H). apply bind_Ok in H as (r & Hr & H).
  injection H as <-. apply chk_ident in Hi as ->. now rewrite (IH r Hr).
Qed.
Lemma same_set_iff : forall a b, same_set a b = true <-> forall i, In i a <-> In i b.
Proof.
  intros a b. unfold same_set. rewrite andb_true_iff, !forallb_forall. split.
  - intros [H1 H2] i. split; intros H; [apply H1 in H|apply H2 in H]; now apply mem_str_In in H.
  - intros H. split; intros i Hi; apply mem_str_In; now apply H.
Qed.
Lemma reexported_iff : forall x o p i r, is_reexported x o p i = Ok r -> r = true <-> exists a, w_getattr (pe_world x) o (as_py i) = Some a /\ own_package x p a.
Proof.
  intros x o p i r H. unfold is_reexported in H. destruct (w_getattr _ _ _) as [a|].
  - unfold path_root in H. unfold own_package. destruct (segs p) as [|s t] eqn:Es.
    + injection H as <-. split; [discriminate|]. intros (a' & _ & s & t & q & E & _). discriminate.
    + apply bind_Ok in H as (m & Hm & H). injection H as <-. unfold module_of in Hm. apply chk_path in Hm. rewrite path_starts_with_iff. cbn [segs]. unfold is_prefix. split.
      * intros (q & Eq). exists a. split; [reflexivity|]. exists s, t, q. split; [reflexivity|]. unfold from_module, module_text. change (e_uni (pe_env x)) with (pe_uni x) in Hm. change (e_world (pe_env x)) with (pe_world x) in Hm. rewrite <- Hm. exact Eq.
      * intros (a' & Ea & s' & t' & q & E & Eq). injection Ea as <-. injection E as <- <-. exists q. rewrite Hm. exact Eq.
  - injection H as <-. split; [discriminate|]. intros (a & E & _). discriminate.
Qed.
Lemma declared_iff : forall x fuel o m i, mod_parse x fuel o = Ok m -> In i (m_prelude m) <-> exported x o (m_name m) i.
Proof.
  intros x [|fuel] o m i H; [discriminate|]. cbn [mod_parse] in H. unfold mod_parse_body in H. cbv zeta in H. apply bind_Ok in H as (name & Hn & H). apply bind_Ok in H as (pre & Hp & H).
  apply bind_Ok in H as (sbs & _ & H). apply bind_Ok in H as (st & _ & H). apply bind_Ok in H as ([st' subs] & _ & H). apply bind_Ok in H as (doc & _ & H). injection H as <-.
  cbn [m_prelude m_name]. unfold exported. destruct (generate_preludes (pe_cfg x)); [|injection Hp as <-; split; [intros []|intros [K _]; discriminate]].
  unfold extract_prelude in Hp. cbv zeta in Hp. apply bind_Ok in Hp as (index & Hi & Hp). apply bind_Ok in Hp as (names & Hns & Hp). apply chk_map in Hns as ->.
  assert (L : forall j, In j index <-> listed x o j).
  { intros j. unfold listed. destruct (w_all (pe_world x) o) as [la|].
    - apply bind_Ok in Hi as (k & Hk & Hi). apply chk_map in Hk as ->. injection Hi as <-. rewrite unique_In by apply str_eqb_eq. rewrite in_map_iff. split.
      + intros (s & <- & Hs). now exists la, s.
      + intros (l' & s & E & Hs & ->). injection E as <-. now exists s.
    - injection Hi as <-. split; [intros []|]. intros (l' & s & E & _). discriminate. }
  assert (Q : forall j, In j (filter is_public (map (ident_from_py (pe_uni x)) (w_dir (pe_world x) o))) <-> public_name x o j).
  { intros j. rewrite filter_In, in_map_iff. unfold public_name, is_public. rewrite negb_true_iff.
    assert (E : starts_with [c_us] (as_py j) = false <-> ~ private (as_py j)) by (rewrite <- private_iff; destruct (starts_with _ _); split; congruence).
    rewrite E. split; [intros [(s & <- & Hs) Hj]; now exists s|]. intros (s & Hs & -> & Hj). split; [now exists s|exact Hj]. }
  destruct (same_set _ _) eqn:Es.
  - injection Hp as <-. split; [intros []|]. intros (_ & _ & K & _). exfalso. apply K. intros j. rewrite <- L, <- Q. now apply same_set_iff.
  - assert (Ns : ~ (forall j, listed x o j <-> public_name x o j)).
    { intros K. assert (E : same_set index (filter is_public (map (ident_from_py (pe_uni x)) (w_dir (pe_world x) o))) = true) by (apply same_set_iff; intros j; now rewrite L, Q). congruence. }
    apply bind_Ok in Hp as (kept & Hk & Hp). injection Hp as <-. rewrite filter_In, <- L, <- shown_iff.
    assert (A : prelude_allowed x o name i = true <-> (exists a, w_getattr (pe_world x) o (as_py i) = Some a) /\ is_attr_allowed (pe_cfg x) i name = true).
    { unfold prelude_allowed. destruct (w_getattr _ _ _) as [a|]; [split; [intros; split; eauto|now intros [_ ?]]|]. split; [discriminate|]. intros [(a & E) _]. discriminate. }
    rewrite A. destruct (generate_dependencies (pe_cfg x)).
    + injection Hk as <-. split; [intros (H1 & (a & Ha) & H2); repeat split; eauto|]. intros (_ & H1 & _ & (a & Ha & _) & H2). repeat split; eauto.
    + rewrite (filterM_In _ _ _ Hk).
      split.
      * intros ((H1 & H1') & (a & Ha) & H2). apply reexported_iff in H1'. destruct (proj1 H1' eq_refl) as (a' & Ha' & Hp'). repeat split; eauto.
      * intros (_ & H1 & _ & (a & Ha & [K|Hp']) & H2); [discriminate|]. repeat split; eauto.
        assert (T : exists r, is_reexported x o name i = Ok r).
        { clear - Hk H1. revert kept Hk. induction index as [|j r IH]; intros kept Hk; [destruct H1|]. cbn [filterM] in Hk. apply bind_Ok in Hk as (b & Hb & Hk). apply bind_Ok in Hk as (k' & Hk' & _).
          destruct H1 as [->|H1]; [now exists b|now apply (IH H1 k')]. }
        destruct T as [r Hr]. destruct (reexported_iff _ _ _ _ _ Hr) as [_ K]. rewrite Hr. f_equal. apply K. now exists a.
Qed.
Lemma parsed_within : forall x fuel o m k, named_world (pe_world x) -> is_module (pe_world x) o -> mod_parse x fuel o = Ok m -> within k m ->
  exists f o', is_module (pe_world x) o' /\ mod_parse x f o' = Ok k.
Proof.
  intros x fuel o m k Hw. revert o m. induction fuel as [|f IH]; intros o m Ho Hm Hk; [discriminate|].
  inversion Hk as [E|m' s Hin Hk']; subst; [now exists (S f), o|]. cbn [mod_parse] in Hm.
  assert (Hn : exists name, module_path x o = Ok name).
  { unfold mod_parse_body in Hm. apply bind_Ok in Hm as (name & Hn & _). eauto. }
  destruct Hn as [name Hn].
  destruct (mod_body_inv (fun _ => True) (fun s => exists t, is_module (pe_world x) t /\ mod_parse x f t = Ok s) x (mod_parse x f) o m name Hn) as (_ & Hs & _); auto.
  - intros t k0 i Ht Hk0. exists t. split; [|exact Hk0]. apply (find_submodule_module x (proj2 Hw) o (path_snoc name i) i t Ht).
  - destruct (Hs s Hin) as (t & Ht & Hp). now apply (IH t s).
Qed.
Lemma parsed_path : forall x fuel o m, mod_parse x fuel o = Ok m -> m_name m = path_from_py (pe_uni x) (w_name (pe_world x) o).
Proof.
  intros x [|fuel] o m H; [discriminate|]. cbn [mod_parse] in H. unfold mod_parse_body in H. cbv zeta in H. apply bind_Ok in H as (name & Hn & H).
  unfold module_path in Hn. apply chk_path in Hn as ->. repeat (apply bind_Ok in H as (? & _ & H); try match goal with p : (_ * _)%type |- _ => destruct p end). now injection H as <-.
Qed.

Section declared.
  Variable x : penv.
  Let U := pe_uni x.
  Hypothesis HU : uni_ok U.
  Hypothesis Ho : order_ok (pe_ord x).
  Hypothesis Hw : honest U (pe_world x).
  Variables (numpy : bool) (fuel : nat) (l : list request) (c : codegen) (ms : list module) (out : list frag).
  Hypothesis Hl : asked_modules (pe_world x) l.
  Hypothesis Hc : asks x fuel l cg_new = Ok c.
  Hypothesis Hf : final_modules x fuel c = Ok ms.
  Hypothesis Hout : cg_generate x numpy fuel c = Ok out.

  Lemma final_declared : forall m k i, In m ms -> within k m -> In i (m_prelude k) -> exists o, is_module (pe_world x) o /\ m_name k = path_from_py U (w_name (pe_world x) o) /\ exported x o (m_name k) i.
  Proof.
    intros m k i Hm Hk Hit. destruct (final_vis x Ho fuel c ms Hf) as (inp & Hin & V). destruct (within_reach k m Hk ms Hm) as [ch Hch].
    destruct (reach_last ms ch k Hch) as [d Ed].
    assert (K : vis ms ch (Some (AnExport i))) by (exists k; now split). apply V in K as (m0 & Hm0 & [(c' & E & k0 & Hr & Hh)|[E _]]); [|discriminate].
    destruct (reach_last _ _ _ Hr) as [d' Ed']. rewrite Ed, Ed', app_assoc in E. apply app_inj_tail in E as [_ ->].
    apply reach_within in Hr as (m1 & [<-|[]] & Hwi). destruct (input_from x (honest_named _ _ Hw) fuel l c Hl Hc inp m0 Hin Hm0) as (o & Hmod & Hp).
    destruct (parsed_within x fuel o m0 k0 (honest_named _ _ Hw) Hmod Hp Hwi) as (f & o' & Ho' & Hp'). exists o'. split; [exact Ho'|]. split; [now apply (parsed_path x f)|].
    now apply (declared_iff x f o' k0 i).
  Qed.
  Lemma prelude_only : forall ns k cc ex, at_path out ns k -> prelude_of k cc ex -> forall i, In i ex ->
    exists o m ch, is_module (pe_world x) o /\ segs (path_from_py U (w_name (pe_world x) o)) = ns /\ exported x o (path_from_py U (w_name (pe_world x) o)) i /\
      reach ms ch m /\ m_name m = path_from_py U (w_name (pe_world x) o) /\ counterpart m i.
  Proof.
    intros ns k cc ex A Hp i Hi.
    assert (A' : at_path out (ns ++ [cc]) [GPub; GUseSuper ex]).
    { clear - A Hp. induction A as [l0|l0 n b ns0 k0 Hin A IH]; cbn; [apply (at_down l0 cc [GPub; GUseSuper ex]); [exact Hp|constructor]|]. apply (at_down l0 n b); auto. }
    destruct (prelude_scope x HU Ho Hw numpy fuel l c ms out Hl Hc Hf Hout _ _ ex A' (or_intror (or_introl eq_refl))) as (q & cc' & k' & m & m0 & P & E & _ & _ & Hm0 & Hm & Eq & _ & _ & _ & K & _).
    apply app_inj_tail in E as [<- <-]. apply K in Hi as [Hi Hcp]. destruct (final_declared m0 m i Hm0 Hm Hi) as (o & Ho' & En & Hex).
    destruct (within_reach m m0 Hm ms Hm0) as [ch Hch]. exists o, m, ch. rewrite <- En. auto 10.
  Qed.
  Lemma prelude_fresh : forall ns k cc ex, at_path out ns k -> prelude_of k cc ex -> exists m ch j, reach ms ch m /\ segs (m_name m) = ns /\
    cc = numbered (u "call") j /\ ~ in_use m cc /\ forall n, n < j -> in_use m (numbered (u "call") n).
  Proof.
    intros ns k cc ex A Hp.
    assert (A' : at_path out (ns ++ [cc]) [GPub; GUseSuper ex]).
    { clear - A Hp. induction A as [l0|l0 n b ns0 k0 Hin A IH]; cbn; [apply (at_down l0 cc [GPub; GUseSuper ex]); [exact Hp|constructor]|]. apply (at_down l0 n b); auto. }
    destruct (prelude_scope x HU Ho Hw numpy fuel l c ms out Hl Hc Hf Hout _ _ ex A' (or_intror (or_introl eq_refl))) as (q & cc' & k' & m & m0 & P & E & _ & _ & Hm0 & Hm & Eq & _ & _ & _ & _ & _ & j & K1 & K2 & K3).
    apply app_inj_tail in E as [<- <-]. destruct (within_reach m m0 Hm ms Hm0) as [ch Hch]. exists m, ch, j. auto 10.
  Qed.
  Lemma prelude_all : traverse_submodules (pe_cfg x) = true -> exports_spelled U ms -> forall m0 ch k0 f o i, In m0 (cg_modules c) -> reach [m0] ch k0 -> mod_parse x f o = Ok k0 ->
    exported x o (m_name k0) i -> counterpart k0 i -> exists k cc ex, at_path out (segs (m_name k0)) k /\ prelude_of k cc ex /\ In i ex.
  Proof.
    intros Hon Hsp m0 ch k0 f o i Hm0 Hr Hp Hex Hcp.
    pose proof (proj2 (declared_iff x f o k0 i Hp) Hex) as Hi.
    assert (K : forall q, has_opt k0 q -> exists m, reach ms (parents (m_name m0) ++ ch) m /\ m_name m = m_name k0 /\ has_opt m q).
    { intros q Hq. destruct (final_requested x Ho fuel c ms Hf m0 Hm0 ch q (ex_intro _ k0 (conj Hr Hq))) as (m & Hm & Hmq).
      exists m. split; [exact Hm|]. split; [|exact Hmq].
      destruct (reach_last _ _ _ Hm) as (d1 & E1). destruct (reach_last _ _ _ Hr) as (d2 & E2). rewrite E2, app_assoc in E1. now apply app_inj_tail in E1 as [_ <-]. }
    destruct (K None I) as (m & Hm & Em & _).
    assert (Hh : forall it, has k0 it -> has m it).
    { intros it Hit. destruct (K (Some it) Hit) as (m' & Hm' & _ & Hi'). now rewrite <- (reach_once _ _ _ Hm (final_siblings x Ho Hw fuel l c ms Hl Hc Hf) m' Hm'). }
    destruct (reach_within _ _ _ Hm) as (m1 & Hm1 & Hwi). destruct (module_scope x Ho Hw numpy fuel l c ms out Hl Hc Hf Hout m m1 Hon Hm1 Hwi) as (P & HP & A).
    destruct (prelude_complete x HU Ho Hw numpy fuel l c ms Hl Hc Hf Hsp m m1 P i Hm1 Hwi HP (proj1 Hex)) as (cc & ex & H1 & H2).
    - apply (Hh (AnExport i)). exact Hi.
    - destruct Hcp as [(s & Hs & He)|(it & p & Hit & Ep & He & Hni)]; [left|right; exists it, p; auto].
      assert (Hr2 : reach [m0] (ch ++ [m_name s]) s).
      { clear - Hr Hs. induction Hr as [l0 m Hl|l0 m ch k Hl Hr IH]; [apply reach_down; [exact Hl|]; now apply reach_here|]. cbn. apply reach_down; auto. }
      destruct (final_requested x Ho fuel c ms Hf m0 Hm0 _ None (ex_intro _ s (conj Hr2 I))) as (s' & Hs' & _). rewrite app_assoc in Hs'.
      assert (Q : exists m', reach ms (parents (m_name m0) ++ ch) m' /\ exists s'', In s'' (m_subs m') /\ m_name s'' = m_name s).
      { clear - Hs' Hr. assert (Hne : parents (m_name m0) ++ ch <> []) by (intros E; apply app_eq_nil in E as [_ ->]; inversion Hr).
        revert Hs' Hne. generalize (parents (m_name m0) ++ ch). intros d. revert ms. induction d as [|a d IH]; intros ms H Hne; [easy|].
        cbn in H. inversion H as [l1 m1 Hm1 E1|l1 m1 c1 k1 Hm1 Hr1 E1]; subst; [destruct d; discriminate|].
        destruct d as [|b d].
        - exists m1. split; [now apply reach_here|]. cbn in Hr1. inversion Hr1 as [l2 m2 Hm2 E2|l2 m2 c2 k2 Hm2 Hr2 E2]; subst; [now exists s'|inversion Hr2].
        - destruct (IH (m_subs m1) Hr1) as (m' & Hm' & Q); [easy|]. exists m'. split; [now apply reach_down|exact Q]. }
      destruct Q as (m' & Hm' & s'' & Hs'' & Es). rewrite (reach_once _ _ _ Hm (final_siblings x Ho Hw fuel l c ms Hl Hc Hf) m' Hm') in Hs''. exists s''. now rewrite Es.
    - exists (pt_body m P), cc, ex. rewrite Em in A. auto.
  Qed.
End declared.
