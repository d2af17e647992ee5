(** * Lemmas: what private names add to a module *)
From Coq Require Import Permutation.
From Verif Require Import Base Model_Ident Model_Path Model_Import Model_Text Model_Config Model_Type Model_IntoRs Model_World Model_Out
  Model_Function Model_Property Model_Class Model_Module Model_Parse Model_Codegen Spec_Path Spec_Names Spec_Call Spec_Items Spec_Tree Spec_Api Spec_Safe Spec_Out Spec_Privacy Spec_Attr
  Proof_Base Proof_Ident Proof_Path Proof_Text Proof_IntoRs Proof_Call Proof_Function Proof_Fresh Proof_Method Proof_Kind Proof_Items Proof_Module
  Proof_Parse Proof_Forest Proof_Err Proof_Api Proof_Honest Proof_Calm Proof_Rooted Proof_Deps Proof_Attr Proof_Order Proof_Hash Proof_Acts Proof_Switch Proof_Block Proof_Open Model_Class Spec_Block Spec_Open Spec_Added.

Lemma private_starts : forall s, starts_with [c_us] s = true -> private s.
Proof. intros s H. apply starts_with_iff in H as (t & ->). now exists t. Qed.
Lemma allowed_private : forall cfg i m, is_attr_allowed cfg i m = false -> is_attr_allowed (with_private cfg) i m = true -> private (as_py i) \/ exists s, In s (components m) /\ private s.
Proof.
  intros cfg i m H H'. unfold is_attr_allowed in *. cbn [include_private blocklist_names with_private negb andb] in H'. apply negb_true_iff in H'. apply negb_false_iff in H.
  rewrite !orb_false_iff in H'. destruct H' as ((((H1 & _) & H2) & H3) & H4). rewrite H1, H2, H3, H4 in H. rewrite !orb_false_r in H. cbn [orb] in H. apply andb_true_iff in H as [_ H].
  apply orb_true_iff in H as [H|H]; [left; now apply private_starts|right]. apply existsb_exists in H as (j & Hj & H). exists (as_py j). split; [now apply in_map|now apply private_starts].
Qed.
Lemma segments_private : forall cfg l before, segments_allowed cfg before l = false -> segments_allowed (with_private cfg) before l = true -> exists s, In s (map as_py (before ++ l)) /\ private s.
Proof.
  intros cfg. induction l as [|i l IH]; intros before; [easy|]. cbn [segments_allowed]. intros H H'. apply andb_true_iff in H' as [A B]. apply andb_false_iff in H as [H|H].
  - destruct (allowed_private _ _ _ H A) as [K|(s & Hs & K)]; [exists (as_py i); split; [rewrite map_app; apply in_or_app; right; now left|exact K]|].
    exists s. split; [rewrite map_app; apply in_or_app; now left|exact K].
  - destruct (IH _ H B) as (s & Hs & K). exists s. split; [now rewrite <- app_assoc in Hs|exact K].
Qed.
Lemma each_two : forall {S} e o (R : S -> S -> Prop) (al al' : attr -> bool) (step step' : S -> attr -> outcome S),
  (forall a, al a = true -> al' a = true) ->
  (forall s a st st' st1 st1', read_attr e o s = Ok (Some a) -> al' a = true -> R st st' -> step' st' a = Ok st1' -> (if al a then step st a else Ok st) = Ok st1 -> R st1 st1') ->
  forall names st st' st1 st1', R st st' -> each_attr e o al step names st = Ok st1 -> each_attr e o al' step' names st' = Ok st1' -> R st1 st1'.
Proof.
  intros S e o R al al' step step' Hal Hst. induction names as [|s r IH]; intros st st' st1 st1' HR H H'; cbn [each_attr] in *; [injection H as <-; now injection H' as <-|].
  apply bind_Ok in H as (a & Ha & H). rewrite Ha in H'. cbn [obind] in H'. apply bind_Ok in H as (st2 & H2 & H). apply bind_Ok in H' as (st2' & H2' & H').
  refine (IH st2 st2' st1 st1' _ H H'). destruct a as [a|]; [|injection H2 as <-; now injection H2' as <-].
  destruct (al' a) eqn:E'; [exact (Hst s a st st' st2 st2' Ha E' HR H2' H2)|]. destruct (al a) eqn:E; [apply Hal in E; congruence|]. injection H2 as <-. now injection H2' as <-.
Qed.

Section added.
  Variable h : hash_order.
  Variable x : penv.
  Let U := pe_uni x.
  Let w := pe_world x.
  Let y := open_run h x.
  Definition back_found (o : oid) (name : path) (st st' : found) : Prop :=
    incl (fd_subs st) (fd_subs st') /\ forall it', f_has st' it' -> (exists it, f_has st it /\ open_item it it') \/ private_item U w o name it'.
  Lemma step_back : forall o name s a st st' st1 st1', read_attr (pe_env x) o s = Ok (Some a) -> is_attr_allowed (pe_cfg y) (at_name a) (at_module a) = true -> back_found o name st st' ->
    module_step y name st' a = Ok st1' -> (if is_attr_allowed (pe_cfg x) (at_name a) (at_module a) then module_step x name st a else Ok st) = Ok st1 -> back_found o name st1 st1'.
  Proof.
    intros o name s a st st' st1 st1' Ha Hal [E7 Hb] H' H. apply read_attr_inv in Ha as (_ & A2 & A3). change (e_world (pe_env x)) with w in A2, A3. change (e_uni (pe_env x)) with U in A3.
    assert (New : forall it, is_attr_allowed (pe_cfg x) (at_name a) (at_module a) = false -> item_path it = Some (path_snoc name (at_name a)) -> private_item U w o name it).
    { intros it E Ep. exists (at_name a), (at_obj a). split; [exact A2|]. split; [exact Ep|]. destruct (allowed_private _ _ _ E Hal) as [K|K]; [now left|right; left]. now rewrite <- A3. }
    destruct (is_attr_allowed (pe_cfg x) (at_name a) (at_module a)).
    - assert (Sm : forall (it it' : item) sx sx', incl (fd_subs sx) (fd_subs sx') -> open_item it it' -> (forall z, f_has st z \/ z = it -> f_has sx z) -> (forall z, f_has sx' z -> f_has st' z \/ z = it') -> back_found o name sx sx').
      { intros it it' sx sx' S0 S1 S2 S3. split; [exact S0|]. intros z Hz. destruct (S3 z Hz) as [K| ->]; [|left; exists it; split; [apply S2; now right|exact S1]].
        destruct (Hb z K) as [(z0 & K1 & K2)|K1]; [left; exists z0; split; [apply S2; now left|exact K2]|now right]. }
      destruct st as [im cf cl tv fn pr sb], st' as [ims cfs cls tvs fns prs sbs]. cbn [fd_subs] in E7.
      assert (In1 : forall (A : Type) (l : list A) b z, In z (l ++ [b]) <-> In z l \/ z = b) by (intros A l b z; rewrite in_app_iff; cbn [In]; intuition congruence).
      cbn [module_step] in *. change (pe_env y) with (pe_env x) in *. apply bind_Ok in H as (v & Hv & H). rewrite Hv in H'. cbn [obind] in H'. destruct v.
      + apply bind_Ok in H as (i & Hi & H). apply bind_Ok in H' as (i' & Hi' & H'). injection H as <-. injection H' as <-.
        destruct i' as [i'|].
        2:{ destruct (read_import_open _ _ _ _ _ Hi') as (r & Hr & D). rewrite Hr in Hi. injection Hi as <-. assert (r = None) as -> by (destruct D; assumption). now split. }
        destruct (mem_str (at_name a) sbs) eqn:Em.
        { split; [now destruct i as [i|], (mem_str (at_name a) sb)|]. intros z Hz. destruct (Hb z) as [(z0 & K1 & K2)|K1]; [now destruct z|left; exists z0; split; [|exact K2]|now right].
          destruct i as [i|]; [|exact K1]. destruct (mem_str (at_name a) sb); [now destruct z0|]. destruct z0; try exact K1. cbn [f_has fd_imports] in *. apply In1. now left. }
        assert (Es2 : mem_str (at_name a) sb = false) by (apply mem_str_notIn; apply mem_str_notIn in Em; intros K; apply Em, E7, K). rewrite Es2.
        destruct i as [i|].
        { destruct (read_import_open _ _ _ _ _ Hi') as (r & Hr & D). rewrite Hr in Hi. injection Hi as ->. destruct D as [D|D]; [discriminate|]. injection D as ->.
          apply (Sm (AnImport i') (AnImport i')); [exact E7|reflexivity|..]; intros z; destruct z; cbn [f_has fd_imports fd_classes fd_typevars fd_functions fd_properties]; rewrite ?In1; intuition congruence. }
        split; [exact E7|]. intros z Hz. assert (D : f_has (mk_found ims cfs cls tvs fns prs sbs) z \/ z = AnImport i') by (destruct z; cbn [f_has fd_imports fd_classes fd_typevars fd_functions fd_properties] in *; rewrite ?In1 in Hz; intuition congruence).
        destruct D as [D| ->]; [now apply Hb|right]. exists (at_name a), (at_obj a). split; [exact A2|]. unfold read_import in Hi, Hi'. change (import_origin y a) with (import_origin x a) in Hi'.
        apply bind_Ok in Hi as (og & Hog & Hi). rewrite Hog in Hi'. cbn [obind] in Hi'. destruct (path_eqb og _); [discriminate|]. change (pe_cfg y) with (with_private (pe_cfg x)) in Hi'.
        destruct (segments_allowed (with_private (pe_cfg x)) [] (segs og)) eqn:S'; [|discriminate]. cbn [negb] in Hi'. destruct (segments_allowed (pe_cfg x) [] (segs og)) eqn:S0; cbn [negb] in Hi.
        { destruct (import_new og _); discriminate. }
        unfold import_new in Hi'. destruct (import_type_from_paths _ _) as [ty| | |]; try discriminate. cbn in Hi'. injection Hi' as <-. split; [reflexivity|]. right. right.
        destruct (segments_private _ _ _ S0 S') as (t & Ht & Hp). eexists. exists t. split; [reflexivity|]. now split.
      + injection H as <-. injection H' as <-. split; [|exact Hb]. cbn [fd_subs]. intros i Hi. apply insert_In. apply insert_In in Hi as [Hi|Hi]; [left; now apply E7|now right].
      + apply bind_Ok in H as (c & Hc & H). apply bind_Ok in H' as (c' & Hc' & H'). injection H as <-. injection H' as <-. change (pe_cfg y) with (with_private (pe_cfg x)) in Hc'.
        destruct (class_open _ _ _ _ _ Hc') as (c2 & Hc2 & Oc). rewrite Hc2 in Hc. injection Hc as <-.
        apply (Sm (AClass c2) (AClass c')); [exact E7|exact Oc|..]; intros z; destruct z; cbn [f_has fd_imports fd_classes fd_typevars fd_functions fd_properties]; rewrite ?In1; intuition congruence.
      + apply bind_Ok in H as (f & Hf & H). rewrite Hf in H'. cbn [obind] in H'. injection H as <-. injection H' as <-.
        apply (Sm (AFunction f) (AFunction f)); [exact E7|reflexivity|..]; intros z; destruct z; cbn [f_has fd_imports fd_classes fd_typevars fd_functions fd_properties]; rewrite ?In1; intuition congruence.
      + injection H as <-. injection H' as <-. now split.
      + apply bind_Ok in H as (f & Hf & H). rewrite Hf in H'. cbn [obind] in H'. injection H as <-. injection H' as <-.
        apply (Sm (AFunction f) (AFunction f)); [exact E7|reflexivity|..]; intros z; destruct z; cbn [f_has fd_imports fd_classes fd_typevars fd_functions fd_properties]; rewrite ?In1; intuition congruence.
      + injection H as <-. injection H' as <-.
        apply (Sm (ATypeVar (path_snoc name (at_name a))) (ATypeVar (path_snoc name (at_name a)))); [exact E7|reflexivity|..]; intros z; destruct z; cbn [f_has fd_imports fd_classes fd_typevars fd_functions fd_properties]; rewrite ?In1; intuition congruence.
      + apply bind_Ok in H as (f & Hf & H). rewrite Hf in H'. cbn [obind] in H'. injection H as <-. injection H' as <-.
        apply (Sm (AProperty f) (AProperty f)); [exact E7|reflexivity|..]; intros z; destruct z; cbn [f_has fd_imports fd_classes fd_typevars fd_functions fd_properties]; rewrite ?In1; intuition congruence.
    - injection H as <-.
      assert (Sm : forall it' sx', incl (fd_subs st') (fd_subs sx') -> item_path it' = Some (path_snoc name (at_name a)) -> (forall z, f_has sx' z -> f_has st' z \/ z = it') -> back_found o name st sx').
      { intros it' sx' S0 S1 S3. split; [intros i Hi; now apply S0, E7|]. intros z Hz. destruct (S3 z Hz) as [K| ->]; [now apply Hb|right; now apply New]. }
      destruct st' as [ims cfs cls tvs fns prs sbs].
      assert (In1 : forall (A : Type) (l : list A) b z, In z (l ++ [b]) <-> In z l \/ z = b) by (intros A l b z; rewrite in_app_iff; cbn [In]; intuition congruence).
      cbn [module_step] in *. change (pe_env y) with (pe_env x) in *. apply bind_Ok in H' as (v & Hv & H'). destruct v.
      + apply bind_Ok in H' as (i' & Hi' & H'). injection H' as <-. destruct i' as [i'|]; [|now split]. destruct (mem_str (at_name a) sbs).
        { split; [exact E7|]. intros z Hz. apply Hb. now destruct z. }
        apply (Sm (AnImport i')); [apply incl_refl|..].
        * unfold read_import in Hi'. apply bind_Ok in Hi' as (og & _ & Hi'). destruct (path_eqb og _); [discriminate|]. destruct (negb _); [discriminate|]. unfold import_new in Hi'.
          destruct (import_type_from_paths _ _); try discriminate. cbn in Hi'. now injection Hi' as <-.
        * intros z; destruct z; cbn [f_has fd_imports fd_classes fd_typevars fd_functions fd_properties]; rewrite ?In1; intuition congruence.
      + injection H' as <-. split; [cbn [fd_subs]; intros i Hi; apply insert_In; left; now apply E7|exact Hb].
      + apply bind_Ok in H' as (c' & Hc' & H'). injection H' as <-. apply (Sm (AClass c')); [apply incl_refl|cbn [item_path]; now rewrite (class_called _ _ _ _ _ Hc')|].
        intros z; destruct z; cbn [f_has fd_imports fd_classes fd_typevars fd_functions fd_properties]; rewrite ?In1; intuition congruence.
      + apply bind_Ok in H' as (c' & Hc' & H'). injection H' as <-. apply (Sm (AFunction c')); [apply incl_refl|cbn [item_path]; now rewrite (fn_called _ _ _ _ _ Hc')|].
        intros z; destruct z; cbn [f_has fd_imports fd_classes fd_typevars fd_functions fd_properties]; rewrite ?In1; intuition congruence.
      + injection H' as <-. now split.
      + apply bind_Ok in H' as (c' & Hc' & H'). injection H' as <-. apply (Sm (AFunction c')); [apply incl_refl|cbn [item_path]; now rewrite (fn_called _ _ _ _ _ Hc')|].
        intros z; destruct z; cbn [f_has fd_imports fd_classes fd_typevars fd_functions fd_properties]; rewrite ?In1; intuition congruence.
      + injection H' as <-. apply (Sm (ATypeVar (path_snoc name (at_name a)))); [apply incl_refl|reflexivity|].
        intros z; destruct z; cbn [f_has fd_imports fd_classes fd_typevars fd_functions fd_properties]; rewrite ?In1; intuition congruence.
      + apply bind_Ok in H' as (c' & Hc' & H'). injection H' as <-. apply (Sm (AProperty c')); [apply incl_refl|cbn [item_path]; now rewrite (prop_called _ _ _ _ _ Hc')|].
        intros z; destruct z; cbn [f_has fd_imports fd_classes fd_typevars fd_functions fd_properties]; rewrite ?In1; intuition congruence.
  Qed.
  Hypothesis Hw : honest U w.
  Hypothesis Hs : own_submodules w.
  Lemma open_added : forall fuel o m m', is_module w o -> mod_parse x fuel o = Ok m -> mod_parse y fuel o = Ok m' -> forall it', (forall i, it' <> AnExport i) -> has m' it' ->
    (exists it, has m it /\ open_item it it') \/ private_item U w o (m_name m) it'.
  Proof.
    intros [|fuel] o m m' Hm E H it' Hne Hit; [discriminate|]. cbn [mod_parse] in *. rewrite body_split in *. unfold before_subs in *.
    change (module_path y o) with (module_path x o) in H. change (pe_world y) with w in H. change (generate_preludes (pe_cfg y)) with (generate_preludes (pe_cfg x)) in H.
    change (traverse_submodules (pe_cfg y)) with (traverse_submodules (pe_cfg x)) in H. change (pe_env y) with (pe_env x) in H. change (pe_uni y) with U in H. change (pe_ord y) with h in H. fold U in E. fold w in E.
    apply bind_Ok in H as ([[[name pre] pk] st'] & H0 & H). apply bind_Ok in H0 as (nm & Hn & H0). apply bind_Ok in H0 as (pr & Hpre & H0).
    apply bind_Ok in H0 as (sbs' & Hsb & H0). apply bind_Ok in H0 as (s0 & Hst & H0). injection H0 as <- <- <- <-. rewrite Hn in E. cbn [obind] in E.
    apply bind_Ok in E as ([[[name2 pre2] pk2] st2] & E0 & E). apply bind_Ok in E0 as (pr2 & Epre & E0). set (isp := match w_getattr w o (u "__path__") with Some _ => true | None => false end) in *.
    apply bind_Ok in E0 as (sbs & Esb & E0). apply bind_Ok in E0 as (s2 & Est & E0). injection E0 as <- <- <- <-.
    assert (Isb : incl sbs sbs').
    { destruct isp; [destruct (submodules_open h x o sbs' Hsb) as (l & El & Il); rewrite Esb in El; now injection El as ->|injection Esb as <-; intros i []]. }
    assert (Dsb : sbs' = [] \/ extract_submodules y o = Ok sbs') by (destruct isp; [now right|left; now injection Hsb as <-]).
    destruct (attrs_open h x Hw Hs o nm sbs sbs' s0 Hm Hn Dsb Isb Hst) as (st & Est2 & Lc & Lc' & _). fold U in Est2. fold w in Est2. rewrite Est in Est2. injection Est2 as <-.
    assert (B0 : back_found o nm (mk_found [] [] [] [] [] [] sbs) (mk_found [] [] [] [] [] [] sbs')) by (split; [exact Isb|intros z Hz; now destruct z]).
    pose proof (each_two (pe_env x) o (back_found o nm) (fun a => is_attr_allowed (pe_cfg x) (at_name a) (at_module a)) (fun a => is_attr_allowed (pe_cfg y) (at_name a) (at_module a)) (module_step x nm) (module_step y nm)
      (fun a => allowed_open _ _ _) (step_back o nm) _ _ _ _ _ B0 Est Hst) as [_ K].
    rewrite Lc' in H. rewrite Lc in E. apply bind_Ok in H as (r' & Hr' & H). apply bind_Ok in E as (r & Hr & E). unfold after_subs in *. apply bind_Ok in H as (doc & _ & H). apply bind_Ok in E as (doc2 & _ & E).
    assert (Er' : concat (map fst r') = []) by (destruct (traverse_submodules (pe_cfg x)); [now apply plain_acts in Hr'|now injection Hr' as <-]).
    assert (Er : concat (map fst r) = []) by (destruct (traverse_submodules (pe_cfg x)); [now apply plain_acts in Hr|now injection Hr as <-]).
    rewrite Er' in H. rewrite Er in E. cbn [retargets fold_left] in *. injection H as <-. injection E as <-. cbn [m_name].
    assert (G : f_has s0 it') by (destruct it' as [i|i|c|p|f|p]; [destruct (Hne i eq_refl)|exact Hit..]).
    destruct (K it' G) as [(it & K1 & K2)|K1]; [left; exists it; split; [|exact K2]; destruct it; [destruct K1|exact K1..]|now right].
  Qed.
End added.

Lemma class_added : forall e cfg o name c c', class_parse e cfg o name = Ok c -> class_parse e (with_private cfg) o name = Ok c' ->
  (forall f, In f (cl_methods c') -> In f (cl_methods c) \/ private_member (e_uni e) (e_world e) o name (fn_name f)) /\
  (forall p, In p (cl_props c') -> In p (cl_props c) \/ private_member (e_uni e) (e_world e) o name (pr_name p)).
Proof.
  intros e cfg o name c c' H H'. unfold class_parse in *. apply bind_Ok in H as ([ms ps] & H1 & H). apply bind_Ok in H as (doc & _ & H). injection H as <-. apply bind_Ok in H' as ([ms' ps'] & H1' & H'). apply bind_Ok in H' as (doc' & _ & H'). injection H' as <-.
  set (R := fun (st st' : list func * list property) => (forall f, In f (fst st') -> In f (fst st) \/ private_member (e_uni e) (e_world e) o name (fn_name f)) /\
    (forall p, In p (snd st') -> In p (snd st) \/ private_member (e_uni e) (e_world e) o name (pr_name p))).
  refine (each_two e o R (class_attr_allowed cfg) (class_attr_allowed (with_private cfg)) (class_step e name) (class_step e name) _ _ _ ([], []) ([], []) (ms, ps) (ms', ps') _ H1 H1').
  - intros a. unfold class_attr_allowed. rewrite !orb_true_iff. intros [K|K]; [left; now apply allowed_open|now right].
  - intros s a [fs qs] [fs' qs'] st1 st1' Ha Hal [E1 E2] Hs' Hs. cbn [fst snd] in E1, E2. apply read_attr_inv in Ha as (_ & A2 & A3).
    assert (New : class_attr_allowed cfg a = false -> private_member (e_uni e) (e_world e) o name (path_snoc name (at_name a))).
    { intros E. exists (at_name a), (at_obj a). split; [exact A2|]. split; [reflexivity|]. rewrite <- A3. unfold class_attr_allowed in *. apply orb_false_iff in E as [E E3]. rewrite E3, orb_false_r in Hal. exact (allowed_private _ _ _ E Hal). }
    unfold class_step in *. apply bind_Ok in Hs' as (v & Hv & Hs'). rewrite Hv in Hs. cbn [obind] in Hs.
    destruct v; try (injection Hs' as <-; destruct (class_attr_allowed cfg a); injection Hs as <-; now split);
      apply bind_Ok in Hs' as (f & Hf & Hs'); injection Hs' as <-; rewrite Hf in Hs; cbn [obind] in Hs; destruct (class_attr_allowed cfg a); injection Hs as <-; (split; [intros g Hg|intros g Hg]); cbn [fst snd] in *;
      try (apply in_app_or in Hg as [Hg|[<-|[]]]); rewrite ?in_app_iff; try (destruct (E1 g Hg); tauto); try (destruct (E2 g Hg); tauto); try (left; right; now left);
      right; rewrite ?(fn_called _ _ _ _ _ Hf), ?(prop_called _ _ _ _ _ Hf); now apply New.
  - split; intros f [].
Qed.
