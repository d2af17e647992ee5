(** * Lemmas: documentation (C64) *)
From Coq Require Import Permutation.
From Verif Require Import Base Model_Ident Model_Path Model_Import Model_Text Model_Config Model_Type Model_IntoRs Model_World Model_Out
  Model_Function Model_Property Model_Class Model_Module Model_Parse Model_Codegen Spec_Path Spec_Names Spec_Call Spec_Items Spec_Tree Spec_Api Spec_Safe Spec_Out Spec_Privacy Spec_Prop Spec_Attr Spec_Doc
  Proof_Base Proof_Ident Proof_Path Proof_Text Proof_IntoRs Proof_Call Proof_Function Proof_Fresh Proof_Method Proof_Kind Proof_Items Proof_Module
  Proof_Parse Proof_Forest Proof_Err Proof_Api Proof_Honest Proof_Calm Proof_Rooted Proof_Parts Proof_Property Proof_Scope Proof_Deps Proof_Attr Proof_Shown Proof_Use.

(** ** Reading *)
Lemma read_doc_of : forall w o r, none_prints w -> read_docstring w o = Ok r -> doc_of w o r.
Proof.
  intros w o r Hn H. apply read_doc_cases in H. destruct r as [s|]; cbn [doc_of].
  - destruct H as (H & H1 & H2). unfold attr_text in H. destruct (w_getattr w o (u "__doc__")) as [d|] eqn:E; [|discriminate]. cbn in H. injection H as H.
    exists d. split; [exact E|]. split; [|exact H]. destruct (w_is_none w d) eqn:En; [|reflexivity]. apply Hn in En. congruence.
  - intros s (d & E & _ & Hs). apply H. unfold attr_text. rewrite E. cbn. now rewrite Hs.
Qed.
Lemma fn_parse_doc : forall e o n t f, fn_parse e o n t = Ok f -> read_docstring (e_world e) o = Ok (fn_doc f).
Proof.
  intros e o n t f H. unfold fn_parse in H. apply bind_Ok in H as (doc & Hd & H). destruct (w_signature _ o) as [sg|]; [|injection H as <-; exact Hd].
  apply bind_Ok in H as (ps0 & _ & H). apply bind_Ok in H as (ret & _ & H). apply bind_Ok in H as (t1 & _ & H).
  destruct (infer_self t1 _) as [t2 ps2]. apply bind_Ok in H as (ps3 & _ & H). injection H as <-. exact Hd.
Qed.
Lemma class_parse_doc : forall e cfg o n c, class_parse e cfg o n = Ok c -> read_docstring (e_world e) o = Ok (cl_doc c).
Proof.
  intros e cfg o n c H. unfold class_parse in H. apply bind_Ok in H as ([ms ps] & _ & H). apply bind_Ok in H as (doc & Hd & H). injection H as <-. exact Hd.
Qed.
Lemma prop_parse_doc : forall e o n p, none_prints (e_world e) -> prop_parse e o n OwnerClass = Ok p ->
  exists dg ds, doc_get (e_world e) o dg /\ doc_set (e_world e) o ds /\ either dg ds (pr_doc p) /\ (pr_mutable p = true -> either ds dg (pr_setter_doc p)).
Proof.
  intros e o n p Hw H. unfold prop_parse in H. apply bind_Ok in H as ([ann doc] & Hg & H). apply bind_Ok in H as (s & Hs & H).
  assert (G : doc_get (e_world e) o doc).
  { unfold read_getter in Hg. destruct (w_getattr (e_world e) o (u "fget")) as [g|] eqn:E.
    - left. exists g. split; [exact E|]. apply bind_Ok in Hg as (a & _ & Hg). apply bind_Ok in Hg as (d & Hd & Hg). injection Hg as <- <-. now apply read_doc_of.
    - right. split; [intros g Hgg; unfold getter_of in Hgg; congruence|]. apply bind_Ok in Hg as (a & _ & Hg). now injection Hg as _ <-. }
  assert (S : doc_set (e_world e) o (match s with Some (_, d) => d | None => None end)).
  { unfold read_setter in Hs. destruct (w_getattr (e_world e) o (u "fset")) as [g|] eqn:E.
    - destruct (w_is_none (e_world e) g) eqn:En.
      + injection Hs as <-. right. split; [|reflexivity]. intros g' [E' En']. congruence.
      + apply bind_Ok in Hs as (a & _ & Hs). apply bind_Ok in Hs as (d & Hd & Hs). injection Hs as <-. left. exists g. split; [now split|]. now apply read_doc_of.
    - injection Hs as <-. right. split; [|reflexivity]. intros g' [E' _]. congruence. }
  exists doc, (match s with Some (_, d) => d | None => None end). split; [exact G|]. split; [exact S|].
  destruct s as [[sann sdoc]|]; injection H as <-; cbn [pr_doc pr_setter_doc pr_mutable].
  - unfold either, or_else. destruct doc, sdoc; split; intros; (now left; split) || (now right; split).
  - split; [|discriminate]. unfold either. destruct doc; [left|right]; now split.
Qed.
(** A method is only a constructor or callable by its name. *)
Lemma fn_parse_kind : forall e o n cp k f cp' k', fn_parse e o n (FMethod cp k) = Ok f -> fn_typ f = FMethod cp' k' -> (k' = MConstructor \/ k' = MCallable) -> k = k'.
Proof.
  intros e o n cp k f cp' k' H Ht Hk. unfold fn_parse in H. apply bind_Ok in H as (doc & _ & H). destruct (w_signature _ o) as [sg|]; [|injection H as <-; cbn in Ht; congruence].
  apply bind_Ok in H as (ps0 & _ & H). apply bind_Ok in H as (ret & _ & H). apply bind_Ok in H as (t1 & H1 & H).
  destruct (infer_self t1 _) as [t2 ps2] eqn:E2. apply bind_Ok in H as (ps3 & _ & H). injection H as <-. cbn [fn_typ] in Ht.
  assert (E3 : t2 = FMethod cp' k').
  { unfold fix_empty in Ht. destruct t2 as [|c2 k2|]; auto. destruct k2; auto. destruct ps2; auto. injection Ht as _ <-. destruct Hk; discriminate. }
  subst t2. assert (E4 : t1 = FMethod cp' k').
  { unfold infer_self in E2. destruct t1 as [|c1 k1|].
    - exfalso. destruct (filter _ ps0) as [|q r]; [discriminate|]. destruct (first_is_self _); [destruct (p_kind q)|]; discriminate.
    - destruct k1; try (injection E2 as -> -> _; reflexivity); destruct (first_is_self _); injection E2 as -> <- _; auto; destruct Hk; discriminate.
    - exfalso. destruct (filter _ ps0) as [|q r]; [discriminate|]. destruct (first_is_self _); [destruct (p_kind q)|]; discriminate. }
  subst t1. unfold infer_storage in H1. destruct k; try (injection H1 as _ <-; reflexivity).
  apply bind_Ok in H1 as (root & _ & H1). destruct (w_import _ _); [|injection H1 as _ <-; destruct Hk; discriminate]. apply bind_Ok in H1 as (nm & _ & H1). injection H1 as _ <-.
  destruct (find_storage _ _ _ _) as [[]|]; cbn in Hk; destruct Hk; discriminate.
Qed.

(** The members of a class come from its attributes. *)
Definition from_class_attr (x : penv) (o : oid) (c : class) : Prop :=
  (forall f, In f (cl_methods c) -> exists n i b cp, attribute_of (pe_uni x) (pe_world x) o i b /\ fn_name f = path_snoc n i /\
     fn_parse (pe_env x) b (fn_name f) (FMethod cp (method_kind i)) = Ok f) /\
  (forall p, In p (cl_props c) -> exists n i b, attribute_of (pe_uni x) (pe_world x) o i b /\ pr_name p = path_snoc n i /\ prop_parse (pe_env x) b (pr_name p) OwnerClass = Ok p).
Lemma class_members : forall x o name c, class_parse (pe_env x) (pe_cfg x) o name = Ok c -> from_class_attr x o c.
Proof.
  intros x o name c H. unfold class_parse in H. apply bind_Ok in H as ([ms ps] & H1 & H). apply bind_Ok in H as (doc & _ & H). injection H as <-.
  set (P := fun st : list func * list property => from_class_attr x o (mk_class name (fst st) (snd st) doc)).
  change (P (ms, ps)). refine (each_attr_inv P _ _ _ _ _ _ _ _ _ H1); [|split; intros ? []].
  intros [ms0 ps0] a [ms1 ps1] s Hin Hr Ha [P1 P2] Hs. apply read_attr_inv in Hr as (En & Eg & _). cbn [fst snd cl_methods cl_props] in *.
  assert (A : attribute_of (pe_uni x) (pe_world x) o (at_name a) (at_obj a)).
  { exists s. split; [now apply unique_names_In in Hin|]. split; assumption. }
  unfold class_step in Hs. apply bind_Ok in Hs as (v & _ & Hs). cbn [fst snd] in *. unfold P, from_class_attr. cbn [fst snd cl_methods cl_props].
  destruct v; try (injection Hs as <- <-; split; assumption); apply bind_Ok in Hs as (y & Hy & Hs); injection Hs as <- <-; split; intros z Hz; auto;
    apply in_app_or in Hz as [Hz|[<-|[]]]; auto.
  - pose proof Hy as E. apply fn_parse_typed in E as [E _]. exists name, (at_name a), (at_obj a), name. rewrite E. auto.
  - pose proof Hy as E. apply fn_parse_typed in E as [E _]. exists name, (at_name a), (at_obj a), name. rewrite E. auto.
  - pose proof Hy as E. apply prop_parse_typed in E as [E _]. exists name, (at_name a), (at_obj a). rewrite E. auto.
Qed.

(** ** The object an item is made of stands at its path. *)
Definition sound_item (x : penv) (it : item) : Prop :=
  match it with
  | AnExport _ => True
  | AnImport i => (exists n j, im_target i = path_snoc n j) /\ forall a, stands (pe_uni x) (pe_world x) (im_origin i) a -> stands (pe_uni x) (pe_world x) (im_target i) a
  | _ => exists n i a, item_path it = Some (path_snoc n i) /\ stands (pe_uni x) (pe_world x) (path_snoc n i) a /\ made_of x it a
  end.
Lemma parsed_sound : forall x fuel o m k it, named_world (pe_world x) -> is_module (pe_world x) o -> mod_parse x fuel o = Ok m -> within k m -> has k it -> sound_item x it.
Proof.
  intros x fuel o m k it Hw Hmo Hm Hk Hit. refine (parsed_items x (proj2 Hw) (sound_item x) _ _ _ fuel o m Hmo Hm k it Hk Hit).
  - intros i. exact I.
  - intros o' name a it' Ho' Hn (s & Hs & Hra & _) Hr. apply read_attr_inv in Hra as (En & Eg & Em).
    assert (A : attribute_of (pe_uni x) (pe_world x) o' (at_name a) (at_obj a)) by (exists s; auto).
    unfold module_path in Hn. apply chk_path in Hn. subst name.
    pose proof (stands_attr (pe_uni x) (pe_world x) o' (at_name a) (at_obj a) Ho' A) as St.
    pose proof (fun b => stands_import (pe_uni x) (pe_world x) o' (at_name a) (at_obj a) b Ho' A) as Si.
    set (full := path_snoc (path_from_py (pe_uni x) (w_name (pe_world x) o')) (at_name a)) in *.
    destruct it' as [i|i|c|p|f|p]; cbn [reads] in Hr; cbn [sound_item]; [exact I|..].
    + destruct Hr as [_ Hi]. apply read_import_cases in Hi; [|exact Em]. destruct Hi as (H1 & H2 & _). rewrite H1, H2. split; [eexists; eexists; reflexivity|exact Si].
    + destruct Hr as [_ Hc]. pose proof Hc as E. apply class_parse_typed in E as [E _]. do 2 eexists. exists (at_obj a). cbn [item_path]. rewrite E. split; [reflexivity|].
      split; [exact St|]. exists full, c. split; [exact Hc|]. now destruct c.
    + destruct Hr as [_ ->]. do 2 eexists. exists (at_obj a). split; [reflexivity|]. split; [exact St|exact I].
    + assert (Q : exists t, fn_parse (pe_env x) (at_obj a) full t = Ok f) by (destruct Hr as [[_ Hf]|[_ Hf]]; eauto).
      destruct Q as (t & Hf). pose proof Hf as E. apply fn_parse_typed in E as [E _]. do 2 eexists. exists (at_obj a). cbn [item_path]. rewrite E. split; [reflexivity|].
      split; [exact St|]. exists full, t, f. split; [exact Hf|]. now destruct f.
    + destruct Hr as [_ Hp]. pose proof Hp as E. apply prop_parse_typed in E as [E _]. do 2 eexists. exists (at_obj a). cbn [item_path]. rewrite E. split; [reflexivity|].
      split; [exact St|]. exists full, p. split; [exact Hp|]. now destruct p.
  - intros o' name c i it0 it' _ _ [_ Hc] Ht H0 Hmv.
    assert (K : forall it0', it0' = it0 -> item_path it0 = Some (im_origin c) -> item_path it' = Some (im_target c) -> (forall a, made_of x it0 a -> made_of x it' a) ->
      (exists n i a, item_path it0 = Some (path_snoc n i) /\ stands (pe_uni x) (pe_world x) (path_snoc n i) a /\ made_of x it0 a) ->
      exists n i a, item_path it' = Some (path_snoc n i) /\ stands (pe_uni x) (pe_world x) (path_snoc n i) a /\ made_of x it' a).
    { intros _ _ E1 E2 Hmade (n & j & a & E & Hs & M). rewrite E1 in E. injection E as E. exists name, i, a. rewrite E2, Ht, <- Ht. split; [reflexivity|].
      split; [apply Hc; now rewrite E|now apply Hmade]. }
    specialize (K _ eq_refl).
    destruct it0 as [y|y|y|y|y|y], it' as [z|z|z|z|z|z]; cbn [moved] in Hmv; try contradiction; cbn [sound_item item_path] in *; destruct Hmv as [E Hmv]; try subst z.
    + cbn [im_target im_origin]. split; [now exists name, i|]. intros a Ha. apply Hc. rewrite <- E. now apply H0.
    + apply K; auto; [now rewrite E|]. intros a (p & d & Hp & Ed). exists p, d. split; [exact Hp|]. cbn. now rewrite Ed.
    + subst. apply K; auto.
    + apply K; auto; [now rewrite E|]. intros a (p & t & g & Hp & Ed). exists p, t, g. split; [exact Hp|]. cbn. now rewrite Ed.
    + apply K; auto; [now rewrite E|]. intros a (p & q & Hp & Ed). exists p, q. split; [exact Hp|]. cbn. now rewrite Ed.
Qed.

(** ** Modules *)
Definition sound_module (x : penv) (m : module) : Prop :=
  exists o, is_module (pe_world x) o /\ m_name m = path_from_py (pe_uni x) (w_name (pe_world x) o) /\ read_docstring (pe_world x) o = Ok (m_doc m).
Lemma parsed_sound_module : forall x fuel o m, named_world (pe_world x) -> is_module (pe_world x) o -> mod_parse x fuel o = Ok m ->
  forall k, within k m -> sound_module x k.
Proof.
  intros x fuel o m Hw. revert o m. induction fuel as [|f IH]; intros o m Ho Hm; [discriminate|]. cbn [mod_parse] in Hm.
  assert (Hn : exists name, module_path x o = Ok name).
  { unfold mod_parse_body in Hm. apply bind_Ok in Hm as (name & Hn & _). eauto. }
  destruct Hn as [name Hn].
  assert (Hd : read_docstring (pe_world x) o = Ok (m_doc m)).
  { unfold mod_parse_body in Hm. apply bind_Ok in Hm as (nm & _ & Hm). apply bind_Ok in Hm as (pre & _ & Hm). apply bind_Ok in Hm as (sbs & _ & Hm).
    apply bind_Ok in Hm as (st & _ & Hm). apply bind_Ok in Hm as ([st' subs] & _ & Hm). apply bind_Ok in Hm as (doc & Hd & Hm). injection Hm as <-. exact Hd. }
  destruct (mod_body_inv (fun _ => True) (fun s => forall k, within k s -> sound_module x k) x (mod_parse x f) o m name Hn)
    as (En & Hs & _); auto.
  - intros s k i Hf Hk. apply (IH s k); [|exact Hk]. apply (find_submodule_module x (proj2 Hw) o (path_snoc name i) i s Hf).
  - intros k Hk. inversion Hk as [E|m' s Hin Hk']; subst; [|now apply (Hs s)]. exists o. split; [exact Ho|]. split; [|exact Hd].
    unfold module_path in Hn. now apply chk_path in Hn.
Qed.
Lemma siblings_sound : forall x (Q : module -> Prop) fuel l l',
  (forall a m, Q a -> m_name m = m_name a -> m_doc m = m_doc a -> Q m) ->
  (forall m k, In m l -> within k m -> Q k) ->
  merge_siblings (merge_modules x fuel) l = Ok l' -> forall m k, In m l' -> within k m -> Q k.
Proof.
  intros x Q fuel l l' HQ. revert l l'. induction fuel as [|fuel IH]; intros l l' Hl H.
  all: unfold merge_siblings in H; intros m k Hm Hk; destruct (mapM_In _ _ _ _ H Hm) as (R & HR & E).
  all: assert (HRl : forall k, In k R -> In k l) by (intros k0 Hk0; apply sort_In; rewrite <- (spans_concat (sort_modules l)); apply in_concat; now exists R).
  all: destruct (spans_run _ _ HR) as [Hne _]; destruct R as [|a [|b R]]; [easy|injection E as <-; apply (Hl a k); [apply HRl; now left|exact Hk]|].
  - discriminate.
  - cbn [merge_run merge_modules] in E. apply bind_Ok in E as (subs & Hsubs & E). injection E as <-.
    inversion Hk as [Ek|m' s Hin Hk']; subst.
    + apply (HQ a); auto. apply (Hl a a); [apply HRl; now left|constructor].
    + cbn [m_subs] in Hin. refine (IH _ _ _ Hsubs s k Hin Hk'). intros m0 k0 Hm0 Hk0. apply in_flat_map in Hm0 as (y & Hy & Hm0).
      apply (Hl y k0); [now apply HRl|]. now apply (within_sub k0 y m0).
Qed.
Lemma named_again : forall U p, module_named U p -> path_from_py U (to_py p) = p.
Proof.
  intros U p (l & H1 & H2 & H3 & ->). rewrite named_to_py; [reflexivity|]. intros s Hs. split; [now apply H2|]. intros ->. contradiction.
Qed.
Lemma embed_sound : forall x p, honest (pe_uni x) (pe_world x) -> module_named (pe_uni x) p -> forall i m m', i < length (segs p) -> (forall k, within k m -> sound_module x k) ->
  embed_in x (segs p) i m = Ok m' -> forall k, within k m' -> sound_module x k.
Proof.
  intros x p Hw Hp. induction i as [|i IH]; intros m m' Hi Hm H; cbn [embed_in] in H; [injection H as <-; exact Hm|].
  apply bind_Ok in H as (par & Hpar & H). refine (IH _ m' _ _ H); [lia|].
  destruct (mod_empty _ _) as [e| | |] eqn:E; try discriminate. injection Hpar as <-. pose proof (empty_shape _ _ _ E) as (En & Es & _).
  intros k Hk. inversion Hk as [E1|m1 s Hin Hk1 E1]; subst.
  - unfold mod_empty in E. destruct (w_import _ _) as [o|] eqn:Ei; [|discriminate]. apply bind_Ok in E as (d & Hd & E). injection E as <-.
    cbn [with_subs m_name m_doc m_subs]. apply (hn_import _ _ Hw) in Ei as [Ho En']. exists o. split; [exact Ho|]. split; [|exact Hd]. cbn [m_name].
    rewrite En'. transitivity (path_of_segs (firstn (S i) (segs p))); [reflexivity|]. symmetry. apply named_again. apply (prefix_named (pe_uni x) p (S i)); [exact Hp|lia].
  - cbn [with_subs m_subs] in Hin. rewrite Es in Hin. destruct Hin as [<-|[]]. now apply Hm.
Qed.

Section final.
  Variables (x : penv) (fuel : nat) (l : list request) (c : codegen) (ms : list module).
  Hypothesis Ho : order_ok (pe_ord x).
  Hypothesis Hw : honest (pe_uni x) (pe_world x).
  Hypothesis Hl : asked_modules (pe_world x) l.
  Hypothesis Hc : asks x fuel l cg_new = Ok c.
  Hypothesis Hf : final_modules x fuel c = Ok ms.
  Lemma final_sound : forall m k it, In m ms -> within k m -> has k it -> sound_item x it.
  Proof.
    intros m k it Hm Hk Hit. refine (final_module_items x Ho (honest_named _ _ Hw) fuel l c ms Hl Hc Hf (sound_item x) _ m k it Hm Hk Hit).
    intros o m0 k0 it0 Hmo Hp Hk0 Hh. apply (parsed_sound x fuel o m0 k0 it0); auto. now apply (honest_named (pe_uni x)).
  Qed.
  Lemma final_sound_module : forall m k, In m ms -> within k m -> sound_module x k.
  Proof.
    pose proof (honest_named _ _ Hw) as Hn.
    pose proof (input_from x Hn fuel l c Hl Hc) as Hinp. destruct (final_inv x fuel c ms Hf) as (inp & ms2 & Hin & Hcan & ->).
    assert (K : forall m k, In m ms2 -> within k m -> sound_module x k).
    { unfold canonicalize in Hcan. apply bind_Ok in Hcan as (k0 & H0 & Hmerge). refine (siblings_sound x (sound_module x) _ k0 ms2 _ _ Hmerge).
      - intros a m (o & H1 & H2 & H3) E1 E2. exists o. rewrite E1, E2. auto.
      - intros m k Hm Hk. destruct (mapM_In _ _ _ _ H0 Hm) as (m0 & Hm0 & E). destruct (Hinp inp m0 Hin Hm0) as (o & Hmod & Hp).
        destruct (parsed_tree x Ho Hw fuel o m0 Hmod Hp) as [T _]. pose proof (proj1 (T m0 (within_here m0))) as Hnm. unfold canonical in E.
        refine (embed_sound x (m_name m0) Hw Hnm _ m0 m _ _ E k Hk).
        + pose proof (named_nonempty _ _ Hnm). destruct (segs (m_name m0)); [easy|cbn; lia].
        + now apply (parsed_sound_module x fuel o m0). }
    intros m k Hm Hk. apply in_map_iff in Hm as (m1 & <- & Hm1). apply with_source_within in Hk as [->|(t & Ht & Hk)].
    - destruct (K m1 m1 Hm1 (within_here m1)) as (o & H1 & H2 & H3). exists o. unfold with_source. destruct (map_get _ _); auto.
    - apply (K m1 k Hm1). now apply (within_sub k m1 t).
  Qed.
End final.

(** ** The lines in front of items *)
Fixpoint pend (t : list str) (l : list frag) : list str :=
  match l with
  | [] => t
  | GDoc s :: r => pend (t ++ [s]) r
  | GPub :: r => pend t r
  | GAttr _ :: r => pend t r
  | _ :: r => pend [] r
  end.
Lemma described_app : forall a t b, described t (a ++ b) = described t a ++ described (pend t a) b.
Proof. induction a as [|y a IH]; intros t b; [reflexivity|]. destruct y; cbn [app described pend]; rewrite IH; reflexivity. Qed.
Lemma pend_app : forall a t b, pend t (a ++ b) = pend (pend t a) b.
Proof. induction a as [|y a IH]; intros t b; [reflexivity|]. destruct y; cbn [app pend]; apply IH. Qed.
Lemma described_In : forall l t y, In y l -> leads y = false -> exists s, In (s, y) (described t l).
Proof.
  induction l as [|z l IH]; intros t y Hin Hy; [destruct Hin|]. destruct Hin as [<-|Hin].
  - exists t. destruct z; try discriminate; now left.
  - destruct z; cbn [described]; try (destruct (IH [] y Hin Hy) as [s Hs]; exists s; now right); now apply IH.
Qed.
Lemma described_from : forall l t s y, In (s, y) (described t l) -> In y l.
Proof.
  induction l as [|z l IH]; intros t s y H; [destruct H|]. destruct z; cbn [described] in H; try (right; now apply (IH _ s y H));
    (destruct H as [H|H]; [injection H as _ <-; now left|right; now apply (IH _ s y H)]).
Qed.
Definition each (Q : list str -> frag -> Prop) (l : list frag) : Prop := pend [] l = [] /\ forall t y, In (t, y) (described [] l) -> Q t y.
Lemma each_nil : forall Q, each Q [].
Proof. intros Q. split; [reflexivity|easy]. Qed.
Lemma each_app : forall Q a b, each Q a -> each Q b -> each Q (a ++ b).
Proof.
  intros Q a b [A1 A2] [B1 B2]. split; [now rewrite pend_app, A1|]. intros t y H. rewrite described_app, A1 in H. apply in_app_or in H as [H|H]; auto.
Qed.
Lemma each_concat : forall Q ls, (forall l, In l ls -> each Q l) -> each Q (concat ls).
Proof. intros Q. induction ls as [|l ls IH]; intros H; [apply each_nil|]. cbn. apply each_app; [apply H; now left|apply IH; intros k Hk; apply H; now right]. Qed.
Lemma each_incl : forall (Q R : list str -> frag -> Prop) l, (forall t y, Q t y -> R t y) -> each Q l -> each R l.
Proof. intros Q R l H [A B]. split; [exact A|]. intros t y Hy. now apply H, B. Qed.
Lemma each_when : forall {A} Q b (f : A -> outcome (list frag)) l r, when b (concatM f l) = Ok r -> (forall a k, In a l -> f a = Ok k -> incl k r -> each Q k) -> each Q r.
Proof.
  intros A Q b f l r H HQ. destruct b; [|injection H as <-; apply each_nil]. cbn in H. apply bind_Ok in H as (ks & Hks & H). injection H as <-.
  apply each_concat. intros k Hk. destruct (mapM_In _ _ _ _ Hks Hk) as (a & Ha & E). apply (HQ a); auto. intros y Hy. apply in_concat. now exists k.
Qed.
Lemma doc_lines : forall g d docs, gen_doc g d = Ok docs -> exists t, docs = map GDoc t /\ tells (g_cfg g) d t.
Proof.
  intros g d docs H. unfold gen_doc in H. unfold tells. destruct (generate_docs (g_cfg g)), d as [s|]; try (injection H as <-; now exists []).
  apply bind_Ok in H as (s' & Hs & H). injection H as <-. exists [s']. split; [reflexivity|]. now exists s'.
Qed.
Lemma described_docs : forall t s l, described s (map GDoc t ++ l) = described (s ++ t) l.
Proof. induction t as [|a t IH]; intros s l; [now rewrite app_nil_r|]. cbn. rewrite IH, <- app_assoc. reflexivity. Qed.
Lemma pend_docs : forall t s l, pend s (map GDoc t ++ l) = pend (s ++ t) l.
Proof. induction t as [|a t IH]; intros s l; [now rewrite app_nil_r|]. cbn. rewrite IH, <- app_assoc. reflexivity. Qed.
(** Documentation, then one item *)
Lemma each_item : forall (Q : list str -> frag -> Prop) t b y, leads y = false -> Q t y -> each Q (map GDoc t ++ (if b : bool then [GPub] else []) ++ [y]).
Proof.
  intros Q t b y Hy HQ. split.
  - rewrite pend_docs. destruct b, y; try discriminate; reflexivity.
  - intros s z H. rewrite described_docs in H. assert (E : (s, z) = (t, y)) by (destruct b, y; try discriminate; destruct H as [H|[]]; now symmetry). now injection E as -> ->.
Qed.
Lemma each_pub : forall Q l, each Q l -> each Q (GPub :: l).
Proof. intros Q l [A B]. now split. Qed.

(** ** Functions and properties *)
Lemma fn_each : forall (Q : list str -> frag -> Prop) g scope f i, fn_generate g scope f = Ok i ->
  (forall t d, In (GFn d) (frags_of i) -> tells (g_cfg g) (fn_doc f) t -> Q t (GFn d)) ->
  each Q (match i with IFunction l => l | IMethod _ l => l end).
Proof.
  intros Q g scope f i H HQ. unfold fn_generate in H. apply bind_Ok in H as (docs & Hd & H). apply doc_lines in Hd as (t & -> & Ht).
  apply bind_Ok in H as (n & _ & H). destruct (fn_ident (g_uni g) n) as [id|]; [|injection H as <-; apply each_nil].
  apply bind_Ok in H as (ids & _ & H). apply bind_Ok in H as (preps & _ & H). apply bind_Ok in H as (tys & _ & H). apply bind_Ok in H as (rt & _ & H).
  apply bind_Ok in H as ([pb k] & _ & H). apply bind_Ok in H as (od & _ & H). destruct od as [dd|]; [|injection H as <-; apply each_nil].
  apply bind_Ok in H as (pos & _ & H). apply bind_Ok in H as (kw & _ & H).
  destruct (is_bound (fn_typ f)); injection H as <-; cbn [frags_of] in HQ; (apply each_item; [reflexivity|]; apply HQ; [|exact Ht]);
    rewrite ?in_app_iff; cbn [In]; tauto.
Qed.
Lemma getter_each : forall (Q : list str -> frag -> Prop) g scope p t l, gen_getter g scope p = Ok (t, l) ->
  (forall s d n, path_name (pr_name p) = Ok n -> f_body d = BGet (as_py n) -> tells (g_cfg g) (pr_doc p) s -> Q s (GFn d)) -> each Q l.
Proof.
  intros Q g scope p t l H HQ. apply getter_shape in H as (n & id & Hn & _ & H). destruct id as [id|]; [|destruct H as [_ ->]; apply each_nil].
  destruct H as (docs & d & ty & Hd & _ & Hb & _ & _ & _ & _ & _ & _ & ->). apply doc_lines in Hd as (s & -> & Hs). apply (each_item Q s false); [reflexivity|]. now apply (HQ s d n).
Qed.
Lemma setter_each : forall (Q : list str -> frag -> Prop) g scope p t l, gen_setter g scope p = Ok (t, l) ->
  (forall s d n v, path_name (pr_name p) = Ok n -> f_body d = BSet (as_py n) v -> tells (g_cfg g) (pr_setter_doc p) s -> Q s (GFn d)) -> each Q l.
Proof.
  intros Q g scope p t l H HQ. apply setter_shape in H as (n & id & Hn & _ & H). destruct id as [id|]; [|destruct H as [_ ->]; apply each_nil].
  destruct H as (docs & d & ty & Hd & _ & Hb & _ & _ & _ & _ & _ & _ & ->). apply doc_lines in Hd as (s & -> & Hs). apply (each_item Q s false); [reflexivity|]. now apply (HQ s d n p_value).
Qed.
Lemma prop_each : forall (Q : list str -> frag -> Prop) g scope p i, prop_generate g scope p = Ok i ->
  (forall s d n, path_name (pr_name p) = Ok n -> f_body d = BGet (as_py n) -> tells (g_cfg g) (pr_doc p) s -> Q s (GFn d)) ->
  (forall s d n v, pr_mutable p = true -> path_name (pr_name p) = Ok n -> f_body d = BSet (as_py n) v -> tells (g_cfg g) (pr_setter_doc p) s -> Q s (GFn d)) ->
  each Q (match i with IFunction l => l | IMethod _ l => l end).
Proof.
  intros Q g scope p i H HG HS. unfold prop_generate in H. apply bind_Ok in H as ([gt gi] & Hg & H). apply bind_Ok in H as ([st si] & Hs & H).
  pose proof (getter_each Q _ _ _ _ _ Hg HG) as G. destruct (pr_mutable p).
  - pose proof (setter_each Q _ _ _ _ _ Hs (fun s d n v => HS s d n v eq_refl)) as S. destruct (pr_owner p); injection H as <-.
    + apply each_pub, each_app; [exact G|now apply each_pub].
    + now apply each_app.
  - injection Hs as <- <-. destruct (pr_owner p); injection H as <-; [apply each_pub|]; now apply each_app; [|apply each_nil].
Qed.

(** ** Classes *)
Definition Qm (x : penv) (a : oid) (t : list str) (y : frag) : Prop := exists d, y = GFn d /\ member_told x a t d.
Lemma method_told : forall x g scope a f i, none_prints (pe_world x) -> g_cfg g = pe_cfg x -> fn_generate g scope f = Ok i ->
  (exists n i b cp, attribute_of (pe_uni x) (pe_world x) a i b /\ fn_name f = path_snoc n i /\ fn_parse (pe_env x) b (fn_name f) (FMethod cp (method_kind i)) = Ok f) ->
  each (Qm x a) (match i with IFunction l => l | IMethod _ l => l end).
Proof.
  intros x g scope a f i Hn Hc H (n & j & b & cp & Ha & En & Hp). apply (fn_each _ _ _ _ _ H). intros t d Hin Ht. exists d. split; [reflexivity|].
  exists j, b. split; [exact Ha|]. pose proof (read_doc_of _ _ _ Hn (fn_parse_doc _ _ _ _ _ Hp)) as Hd. rewrite Hc in Ht.
  assert (T : tells_of x b t) by now exists (fn_doc f).
  destruct (fn_generate_inv _ _ _ _ _ H Hin) as (name & id & preps & tys & rt & pb & dd & pos & kw & Hname & _ & _ & _ & _ & _ & _ & _ & _ & _ & _ & _ & _ & Hb).
  rewrite En in Hname. apply snoc_path_name in Hname as ->. rewrite Hb.
  destruct (fn_typ f) as [|cp' k|] eqn:Et; [now split| |now split]. destruct k; try (now split); (split; [|exact T]).
  - pose proof (fn_parse_kind _ _ _ _ _ _ _ _ Hp Et (or_introl eq_refl)) as K. unfold method_kind in K. left.
    destruct (str_eqb (as_py j) (u "__init__")) eqn:E; [now apply str_eqb_eq in E|]. destruct (str_eqb (as_py j) (u "__call__")); discriminate.
  - pose proof (fn_parse_kind _ _ _ _ _ _ _ _ Hp Et (or_intror eq_refl)) as K. unfold method_kind in K. right.
    destruct (str_eqb (as_py j) (u "__init__")) eqn:E; [discriminate|]. destruct (str_eqb (as_py j) (u "__call__")) eqn:E1; [now apply str_eqb_eq in E1|discriminate].
Qed.
Lemma accessor_told : forall x g scope a p i, none_prints (pe_world x) -> g_cfg g = pe_cfg x -> prop_generate g scope p = Ok i ->
  (exists n i b, attribute_of (pe_uni x) (pe_world x) a i b /\ pr_name p = path_snoc n i /\ prop_parse (pe_env x) b (pr_name p) OwnerClass = Ok p) ->
  each (Qm x a) (match i with IFunction l => l | IMethod _ l => l end).
Proof.
  intros x g scope a p i Hn Hc H (n & j & b & Ha & En & Hp). destruct (prop_parse_doc _ _ _ _ Hn Hp) as (dg & ds & G & S & E1 & E2).
  apply (prop_each _ _ _ _ _ H).
  - intros s d nm Hnm Hb Ht. exists d. split; [reflexivity|]. exists j, b. split; [exact Ha|]. rewrite Hb. rewrite En in Hnm. apply snoc_path_name in Hnm as ->.
    split; [reflexivity|]. exists dg, ds, (pr_doc p). rewrite Hc in Ht. auto.
  - intros s d nm v Hmut Hnm Hb Ht. exists d. split; [reflexivity|]. exists j, b. split; [exact Ha|]. rewrite Hb. rewrite En in Hnm. apply snoc_path_name in Hnm as ->.
    split; [reflexivity|]. exists dg, ds, (pr_setter_doc p). rewrite Hc in Ht. auto.
Qed.
Lemma members_each : forall Q is m, (forall i, In i is -> each Q (match i with IFunction l => l | IMethod _ l => l end)) ->
  each Q (mb_struct m) -> each Q (mb_impls m) -> each Q (mb_struct (fold_left add_member is m)) /\ each Q (mb_impls (fold_left add_member is m)).
Proof.
  intros Q. induction is as [|i is IH]; intros m H H1 H2; [now split|]. cbn [fold_left]. pose proof (H i (or_introl eq_refl)) as Hi.
  apply IH; [intros j Hj; apply H; now right|..]; destruct i as [l|t l]; cbn [add_member mb_struct mb_impls]; auto; now apply each_app.
Qed.
Lemma class_each : forall x g c name0 l k, none_prints (pe_world x) -> g_cfg g = pe_cfg x -> class_generate g c = Ok l -> sound_item x (AClass c) -> located name0 (AClass c) -> incl l k -> each (told x (segs name0) k) l.
Proof.
  intros x g c name0 l k Hn Hc H (n & i & a & E & Hs & (p & d & Hp & Ed)) Hlo Hincl. cbn [item_path] in E. injection E as E.
  destruct (Hlo _ eq_refl) as (i0 & E0).
  pose proof (class_members _ _ _ _ Hp) as [M1 M2]. pose proof (read_doc_of _ _ _ Hn (class_parse_doc _ _ _ _ _ Hp)) as Hd.
  assert (Em : cl_methods c = cl_methods d) by now rewrite Ed. assert (Epr : cl_props c = cl_props d) by now rewrite Ed. assert (Edoc : cl_doc c = cl_doc d) by now rewrite Ed.
  rewrite <- Em in M1. rewrite <- Epr in M2. rewrite <- Edoc in Hd.
  unfold class_generate in H. apply bind_Ok in H as (docs & Hdoc & H). apply bind_Ok in H as (name & Hname & H).
  destruct (struct_ident (g_uni g) name) as [id|]; [|injection H as <-; apply each_nil]. apply bind_Ok in H as (scope & _ & H).
  apply bind_Ok in H as (ms & Hms & H). apply bind_Ok in H as (ps & Hps & H). apply bind_Ok in H as (tid & _ & H).
  destruct (members_each (Qm x a) (ms ++ ps) (mk_members [] [] [])) as [S1 S2]; [|apply each_nil..|].
  { intros j Hj. apply in_app_or in Hj as [Hj|Hj].
    - destruct (mapM_In _ _ _ _ Hms Hj) as (f & Hf & Hg). apply (method_told x g scope a f); auto.
    - destruct (mapM_In _ _ _ _ Hps Hj) as (q & Hq & Hg). apply (accessor_told x g (scope ++ extra_scope (g_uni g) (cl_methods c)) a q); auto. }
  set (m := fold_left add_member (ms ++ ps) (mk_members [] [] [])) in *. injection H as <-. rewrite <- E, E0 in Hs.
  assert (Hmac : In (GMacros id (to_py (path_snoc name0 i0))) k).
  { rewrite <- E0. apply Hincl. apply in_or_app. right. cbn. tauto. }
  apply doc_lines in Hdoc as (t & -> & Ht). rewrite Hc in Ht. split.
  - rewrite pend_docs. reflexivity.
  - intros s y Hy. rewrite described_docs in Hy. cbn in Hy. destruct Hy as [Hy|[Hy|[Hy|[Hy|[Hy|[]]]]]]; injection Hy as <- <-; cbn [told].
    + exists name0, i0, a. split; [reflexivity|]. split; [exact Hs|]. split; [exact Hmac|]. now exists (cl_doc c).
    + reflexivity.
    + exists name0, i0, a. repeat split; auto. exact (proj2 S1).
    + reflexivity.
    + exists name0, i0, a. repeat split; auto. exact (proj2 S2).
Qed.

(** ** Modules *)
Lemma path_ends : forall p n, path_name p = Ok n -> ends p n.
Proof. intros p n H. unfold path_name in H. destruct (last_opt (segs p)) as [i|] eqn:E; [|discriminate]. injection H as <-. now apply last_opt_split in E. Qed.
Lemma module_told : forall x X m l ns k, none_prints (pe_world x) -> mx_cfg X = pe_cfg x -> sound_module x m -> (forall i, ends (m_name m) i -> segs (m_name m) = ns ++ [i]) -> mod_generate X m = Ok l -> each (told x ns k) l.
Proof.
  intros x X m l ns k Hn Hc (o & Ho & En & Hd) Hns H. apply mod_generate_inv in H as (P & id & HP & Hid & _ & ->).
  pose proof (po_docs _ _ _ HP) as Hdoc. apply doc_lines in Hdoc as (t & E & Ht). rewrite E. cbn [pt_ctx g_cfg] in Ht. rewrite Hc in Ht.
  assert (T : each (told x ns k) (map GDoc t ++ [GPub; GMod id (pt_body m P)])).
  { apply (each_item _ t true); [reflexivity|]. right. exists o. split; [exact Ho|]. split; [rewrite <- En; now apply Hns, path_ends|].
    exists (m_doc m). split; [|exact Ht]. now apply read_doc_of. }
  unfold pt_top. destruct (in_dec _ _ _); [|exact T]. destruct T as [T1 T2]. now split.
Qed.
Lemma body_told : forall x X m P, none_prints (pe_world x) -> mx_cfg X = pe_cfg x -> parts_of X m P ->
  (forall f, In f (m_functions m) -> fn_typ f = FFunction \/ fn_typ f = FClosure) ->
  (forall p, In p (m_properties m) -> pr_owner p = OwnerModule) ->
  (forall it, has m it -> sound_item x it /\ located (m_name m) it) -> (forall s, In s (m_subs m) -> sound_module x s /\ extends (m_name m) (m_name s)) ->
  each (told x (segs (m_name m)) (pt_body m P)) (pt_body m P).
Proof.
  intros x X m P Hn Hc HP Hty Hpo Hit Hsub. set (k := pt_body m P). unfold pt_body.
  apply each_app. { unfold gen_embed. destruct (m_source m); [|apply each_nil]. split; [reflexivity|]. intros t y [E|[]]. injection E as <- <-. reflexivity. }
  apply each_app. { apply (each_when _ _ _ _ _ (po_imports _ _ _ HP)). intros i l _ Hl _. apply use_shape in Hl as [->|(v & -> & _)]; [apply each_nil|].
    split; [reflexivity|]. intros t y [E|[]]. injection E as <- <-. reflexivity. }
  apply each_app. { pose proof (po_prelude _ _ _ HP) as H. destruct (generate_preludes _); [|injection H as <-; apply each_nil]. cbn in H.
    apply prelude_shape in H as [->|(id & ex & -> & _)]; [apply each_nil|]. split; [reflexivity|]. intros t y [E|[]]. injection E as <- <-. left. now split. }
  apply each_app. { apply (each_when _ _ _ _ _ (po_vars _ _ _ HP)). intros i l _ Hl _. apply var_shape in Hl as (n & _ & _ & ->).
    split; [reflexivity|]. intros t y [E|[]]. injection E as <- <-. reflexivity. }
  apply each_app. { apply (each_when _ _ _ _ _ (po_classes _ _ _ HP)). intros c l Hin Hl Hi. apply (class_each x (pt_ctx X P) c (m_name m) l k Hn Hc Hl (proj1 (Hit (AClass c) Hin)) (proj2 (Hit (AClass c) Hin))).
    intros y Hy. apply Hi in Hy. unfold k, pt_body. rewrite !in_app_iff. tauto. }
  apply each_app. { apply (each_when _ _ _ _ _ (po_fns _ _ _ HP)). intros f l Hin Hl _. unfold fn_frags in Hl. apply bind_Ok in Hl as (i & Hi & Hl).
    destruct (Hit (AFunction f) Hin) as [(n & j0 & a & E & Hs & (p & t0 & g0 & Hp & Ed)) Lo]. cbn [item_path] in E. injection E as E.
    destruct (Lo _ eq_refl) as (j & E'). rewrite <- E, E' in Hs. rewrite E' in E. clear E. rename E' into E.
    assert (Hd : doc_of (pe_world x) a (fn_doc f)). { rewrite Ed. cbn [fn_doc]. apply read_doc_of; [exact Hn|]. now apply (fn_parse_doc _ _ p t0). }
    assert (K : each (told x (segs (m_name m)) k) (match i with IFunction l => l | IMethod _ l => l end)).
    { apply (fn_each _ _ _ _ _ Hi). intros t d Hd1 Ht. cbn [told]. exists (m_name m), j, a. split; [reflexivity|]. split; [exact Hs|]. cbn [pt_ctx g_cfg] in Ht. rewrite Hc in Ht.
      destruct (fn_generate_inv _ _ _ _ _ Hi Hd1) as (name & id & preps & tys & rt & pb & dd & pos & kw & Hname & _ & _ & _ & _ & _ & _ & _ & _ & _ & _ & _ & _ & Hb).
      rewrite E in Hname. apply snoc_path_name in Hname as ->. rewrite Hb. destruct (Hty f Hin) as [-> | ->]; (split; [reflexivity|]; now exists (fn_doc f)). }
    destruct i as [l'|]; [|discriminate]. injection Hl as <-. exact K. }
  apply each_app. { apply (each_when _ _ _ _ _ (po_props _ _ _ HP)). intros p l Hin Hl _. unfold prop_frags in Hl. apply bind_Ok in Hl as (i & Hi & Hl).
    destruct (Hit (AProperty p) Hin) as [(n & j0 & a & E & Hs & (q & r & Hp & Ed)) Lo]. cbn [item_path] in E. injection E as E.
    destruct (Lo _ eq_refl) as (j & E'). rewrite <- E, E' in Hs. rewrite E' in E. clear E. rename E' into E.
    assert (D : pr_doc p = None /\ pr_setter_doc p = None). { rewrite Ed. cbn [pr_doc pr_setter_doc]. unfold prop_parse in Hp. apply bind_Ok in Hp as (ty & _ & Hp). injection Hp as <-. now split. }
    destruct D as [D1 D2].
    assert (K : each (told x (segs (m_name m)) k) (match i with IFunction l => l | IMethod _ l => l end)).
    { apply (prop_each _ _ _ _ _ Hi).
      - intros s d nm Hnm Hb Ht. rewrite D1 in Ht. cbn [told]. exists (m_name m), j, a. split; [reflexivity|]. split; [exact Hs|]. rewrite Hb. rewrite E in Hnm. apply snoc_path_name in Hnm as ->. now split.
      - intros s d nm v _ Hnm Hb Ht. rewrite D2 in Ht. cbn [told]. exists (m_name m), j, a. split; [reflexivity|]. split; [exact Hs|]. rewrite Hb. rewrite E in Hnm. apply snoc_path_name in Hnm as ->. now split. }
    destruct i as [l'|]; [|discriminate]. injection Hl as <-. exact K. }
  apply (each_when _ _ _ _ _ (po_subs _ _ _ HP)). intros s l Hin Hl _. destruct (Hsub s Hin) as [S1 (i & S2)]. apply (module_told x X s); auto.
  intros i' (q & E). rewrite S2 in E |- *. now apply app_inj_tail in E as [_ ->].
Qed.

Lemma sub_within : forall k m s, within k m -> In s (m_subs k) -> within s m.
Proof. intros k m s H Hs. induction H as [|m t Ht H IH]; [apply (within_sub s k s Hs); constructor|now apply (within_sub s m t)]. Qed.
Section output.
  Variables (x : penv) (numpy : bool) (fuel : nat) (l : list request) (c : codegen) (out : list frag).
  Hypothesis Ho : order_ok (pe_ord x).
  Hypothesis Hw : honest (pe_uni x) (pe_world x).
  Hypothesis Hn : none_prints (pe_world x).
  Hypothesis Hl : asked_modules (pe_world x) l.
  Hypothesis Hc : asks x fuel l cg_new = Ok c.
  Hypothesis Hout : cg_generate x numpy fuel c = Ok out.
  (** The scopes of the output and their paths *)
  Lemma scope_at : forall ms ns k, final_modules x fuel c = Ok ms -> at_path out ns k ->
    (ns = [] /\ k = out) \/ (exists ex, k = [GPub; GUseSuper ex]) \/
    exists m k' P, In m ms /\ within k' m /\ segs (m_name k') = ns /\ parts_of (gen_ctx x numpy ms) k' P /\ k = pt_body k' P.
  Proof.
    intros ms ns k Hf Hk. destruct (output_named x numpy fuel c out ms Hf Hout ns k Hk) as [[-> _]|[K|(ch & k' & P & Hr & M & HP & ->)]].
    - left. split; [reflexivity|]. now inversion Hk.
    - right. now left.
    - right. right. destruct (reach_within _ _ _ Hr) as (m & Hm & Hk'). exists m, k', P. split; [exact Hm|]. split; [exact Hk'|]. split; [|now split].
      destruct (final_linked x Ho Hw fuel l c ms Hl Hc Hf ch (ex_intro _ k' Hr)) as [L (n & q & E & H1)].
      destruct (reach_last _ _ _ Hr) as (d & Ed). rewrite Ed in M, L. symmetry. apply (mirrors_linked d ns (m_name k') L M).
      intros n' r' E'. rewrite <- Ed, E in E'. injection E' as <- <-. exact H1.
  Qed.
  Lemma sub_extends : forall ms m k s, final_modules x fuel c = Ok ms -> In m ms -> within k m -> In s (m_subs k) -> extends (m_name k) (m_name s).
  Proof.
    intros ms m k s Hf Hm Hk Hs. destruct (within_reach k m Hk ms Hm) as [ch Hr].
    assert (Hr2 : reach ms (ch ++ [m_name s]) s).
    { clear - Hr Hs. induction Hr as [l0 m Hl|l0 m ch k Hl Hr IH]; [apply reach_down; [exact Hl|]; now apply reach_here|]. cbn. apply reach_down; auto. }
    destruct (final_linked x Ho Hw fuel l c ms Hl Hc Hf _ (ex_intro _ s Hr2)) as [L _]. destruct (reach_last _ _ _ Hr) as (d & Ed). rewrite Ed, <- app_assoc in L. cbn [app] in L.
    clear - L. induction d as [|a d IH]; [cbn in L; tauto|]. apply IH. destruct d; cbn in *; tauto.
  Qed.
  Lemma output_told : forall ns k t y, at_path out ns k -> In (t, y) (described [] k) -> told x ns k t y.
  Proof.
    intros ns k t y Hk. destruct (final_modules x fuel c) as [ms| | |] eqn:Hf; [|unfold cg_generate in Hout; rewrite Hf in Hout; discriminate..].
    destruct (scope_at ms ns k Hf Hk) as [[-> ->]|[(ex & ->)|(m & k' & P & Hm & Hk' & <- & HP & ->)]].
    - intros Hy. unfold cg_generate in Hout. rewrite Hf in Hout. cbn [obind] in Hout. apply bind_Ok in Hout as (ls & Hls & H). injection H as <-.
      refine (proj2 (each_concat (told x [] (concat ls)) ls _) t y Hy). intros lm Hlm. destruct (mapM_In _ _ _ _ Hls Hlm) as (m & Hm & E).
      apply (module_told x (gen_ctx x numpy ms) m); auto; [exact (final_sound_module x fuel l c ms Ho Hw Hl Hc Hf m m Hm (within_here m))|].
      intros i (q & Eq). destruct (final_linked x Ho Hw fuel l c ms Hl Hc Hf [m_name m]) as [_ (p & r & Ep & Hlen)]; [exists m; now apply reach_here|]. injection Ep as <- <-.
      rewrite Eq in Hlen |- *. rewrite app_length in Hlen. destruct q as [|? [|]]; [reflexivity|discriminate..].
    - intros [E|[]]. injection E as <- <-. reflexivity.
    - destruct (final_typed x fuel l c ms Ho Hc Hf m k' Hm Hk') as (T1 & T2 & T3).
      refine (proj2 (body_told x (gen_ctx x numpy ms) k' P Hn eq_refl HP T3 _ _ _) t y).
      + intros p Hp. now apply T2.
      + intros it Hit. split; [exact (final_sound x fuel l c ms Ho Hw Hl Hc Hf m k' it Hm Hk' Hit)|]. exact (final_located x Ho Hw fuel l c ms Hl Hc Hf m k' it Hm Hk' Hit).
      + intros s Hs. split; [apply (final_sound_module x fuel l c ms Ho Hw Hl Hc Hf m s Hm); now apply (sub_within k')|]. now apply (sub_extends ms m k').
  Qed.
End output.
