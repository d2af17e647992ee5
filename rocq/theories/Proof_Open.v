(** * Lemmas: including private names (C81) *)
From Coq Require Import Permutation.
From Verif Require Import Base Model_Ident Model_Path Model_Import Model_Text Model_Config Model_Type Model_IntoRs Model_World Model_Out
  Model_Function Model_Property Model_Class Model_Module Model_Parse Model_Codegen Spec_Path Spec_Names Spec_Call Spec_Items Spec_Tree Spec_Api Spec_Safe Spec_Out Spec_Privacy Spec_Attr
  Proof_Base Proof_Ident Proof_Path Proof_Text Proof_IntoRs Proof_Call Proof_Function Proof_Fresh Proof_Method Proof_Kind Proof_Items Proof_Module
  Proof_Parse Proof_Forest Proof_Err Proof_Api Proof_Honest Proof_Calm Proof_Rooted Proof_Deps Proof_Attr Proof_Order Proof_Hash Proof_Acts Proof_Switch Proof_Block Model_Class Spec_Block Spec_Open.

Lemma allowed_open : forall cfg i m, is_attr_allowed cfg i m = true -> is_attr_allowed (with_private cfg) i m = true.
Proof.
  intros cfg i m. unfold is_attr_allowed. cbn [include_private blocklist_names with_private negb andb]. set (a1 := mem_str _ _). set (a2 := negb (include_private cfg) && _). set (a4 := existsb _ (blocklist_names cfg)).
  set (a5 := existsb _ (segs m)). set (a6 := existsb _ (segs m)). clearbody a1 a2 a4 a5 a6. destruct a1, a2, a4, a5, a6; easy.
Qed.
Lemma segments_open : forall cfg l before, segments_allowed cfg before l = true -> segments_allowed (with_private cfg) before l = true.
Proof.
  intros cfg. induction l as [|i l IH]; intros before; [easy|]. cbn [segments_allowed]. rewrite !andb_true_iff. intros [A B]. split; [now apply allowed_open|now apply IH].
Qed.
Lemma incl_snoc : forall {A} (l l' : list A) a, incl l l' -> incl (l ++ [a]) (l' ++ [a]).
Proof. intros A l l' a H b Hb. apply in_app_or in Hb as [Hb|Hb]; apply in_or_app; [left; now apply H|now right]. Qed.
Lemma incl_skip : forall {A} (l l' : list A) a, incl l l' -> incl l (l' ++ [a]).
Proof. intros A l l' a H b Hb. apply in_or_app. left. now apply H. Qed.

(** ** Classes *)
Lemma class_open : forall e cfg o name c', class_parse e (with_private cfg) o name = Ok c' -> exists c, class_parse e cfg o name = Ok c /\ open_class c c'.
Proof.
  intros e cfg o name c' H. unfold class_parse in *. apply bind_Ok in H as ([ms ps] & H1 & H). apply bind_Ok in H as (doc & H2 & H). injection H as <-.
  set (R := fun (_ : list str) (st st' : list func * list property) => incl (fst st) (fst st') /\ incl (snd st) (snd st') /\
    forall f q i, In f (fst st') -> segs (fn_name f) = q ++ [i] -> as_py i = u "__init__" \/ as_py i = u "__call__" -> In f (fst st)).
  destruct (each_less e o R (class_attr_allowed cfg) (class_attr_allowed (with_private cfg)) (class_step e name) (class_step e name)) with (names := unique_names (e_uni e) [] (w_dir (e_world e) o))
    (st := ([] : list func, [] : list property)) (st' := ([] : list func, [] : list property)) (st1' := (ms, ps)) as ([fs qs] & K1 & K2 & K3 & K4).
  - intros s r st st' K. exact K.
  - intros a. unfold class_attr_allowed. rewrite !orb_true_iff. intros [K|K]; [left; now apply allowed_open|now right].
  - intros pre s r a [fs qs] [fs' qs'] st1' _ (E1 & E2 & E3) Ha Hal Hs. cbn [fst snd] in E1, E2, E3. unfold class_step in *. apply bind_Ok in Hs as (v & Hv & Hs). rewrite Hv. cbn [obind] in *.
    assert (New : forall f, fn_name f = path_snoc name (at_name a) -> class_attr_allowed cfg a = false ->
      forall g q i, In g (fs' ++ [f]) -> segs (fn_name g) = q ++ [i] -> as_py i = u "__init__" \/ as_py i = u "__call__" -> In g fs).
    { intros f Ef Ea g q i Hg Eg Hi. apply in_app_or in Hg as [Hg|[<-|[]]]; [exact (E3 g q i Hg Eg Hi)|]. exfalso. rewrite Ef in Eg. cbn [path_snoc segs] in Eg. apply app_inj_tail in Eg as [_ <-].
      unfold class_attr_allowed in Ea. apply orb_false_iff in Ea as [_ Ea]. destruct Hi as [Hi|Hi]; rewrite Hi in Ea; discriminate. }
    assert (Both : forall f g q i, In g (fs' ++ [f]) -> segs (fn_name g) = q ++ [i] -> as_py i = u "__init__" \/ as_py i = u "__call__" -> In g (fs ++ [f])).
    { intros f g q i Hg Eg Hi. apply in_or_app. apply in_app_or in Hg as [Hg|Hg]; [left; exact (E3 g q i Hg Eg Hi)|now right]. }
    destruct v; try (injection Hs as <-; destruct (class_attr_allowed cfg a); [eexists; split; [reflexivity|]|]; (split; [|split]); assumption);
      apply bind_Ok in Hs as (f & Hf & Hs); injection Hs as <-; rewrite Hf; cbn [obind];
      (destruct (class_attr_allowed cfg a) eqn:Ea; [eexists; split; [reflexivity|]|]); (split; [|split]); cbn [fst snd]; try assumption; try ((apply incl_snoc || apply incl_skip); assumption);
      try exact (Both f); exact (New f (fn_called _ _ _ _ _ Hf) eq_refl).
  - split; [|split]; [intros a []..|intros f q i []].
  - exact H1.
  - rewrite K1. cbn [obind]. rewrite H2. cbn [obind]. eexists. split; [reflexivity|]. split; [reflexivity|]. split; [reflexivity|]. split; [exact K2|]. now split.
Qed.

(** ** Modules *)
Section opening.
  Variable h : hash_order.
  Variable x : penv.
  Let U := pe_uni x.
  Let w := pe_world x.
  Let y := open_run h x.

  Definition open_found (st st' : found) : Prop :=
    fd_conflicts st = [] /\ fd_conflicts st' = [] /\ incl (fd_imports st) (fd_imports st') /\ (forall c, In c (fd_classes st) -> exists c', In c' (fd_classes st') /\ open_class c c') /\
    incl (fd_typevars st) (fd_typevars st') /\ incl (fd_functions st) (fd_functions st') /\ incl (fd_properties st) (fd_properties st') /\ incl (fd_subs st) (fd_subs st').
  Lemma read_import_open : forall a full r', read_import y a full = Ok r' -> exists r, read_import x a full = Ok r /\ (r = None \/ r = r').
  Proof.
    intros a full i H. unfold read_import in *. apply bind_Ok in H as (og & Ho & H). change (import_origin y a) with (import_origin x a) in Ho. rewrite Ho. cbn [obind].
    destruct (path_eqb og full); [exists None; split; [reflexivity|now left]|]. change (pe_cfg y) with (with_private (pe_cfg x)) in H.
    destruct (segments_allowed (pe_cfg x) [] (segs og)) eqn:E; cbn [negb]; [|exists None; split; [reflexivity|now left]]. apply segments_open in E. rewrite E in H. exists i. split; [exact H|now right].
  Qed.
  Lemma step_open : forall name a st st' st1', open_found st st' -> module_step y name st' a = Ok st1' ->
    (mem_str (at_name a) (fd_subs st') = true -> determine (pe_env x) (at_obj a) (at_module a) name true = Ok VImport -> read_import y a (path_snoc name (at_name a)) = Ok None) ->
    open_found st st1' /\ exists st1, module_step x name st a = Ok st1 /\ open_found st1 st1'.
  Proof.
    intros name a [im cf cl tv fn pr sb] [ims cfs cls tvs fns prs sbs] st1' (E0 & E1 & E2 & E3 & E4 & E5 & E6 & E7) H Hid.
    cbn [fd_imports fd_conflicts fd_classes fd_typevars fd_functions fd_properties fd_subs] in *. subst cf cfs.
    assert (Ec : forall c c', open_class c c' -> forall d, In d (cl ++ [c]) -> exists d', In d' (cls ++ [c']) /\ open_class d d').
    { intros c c' Oc d Hd. apply in_app_or in Hd as [Hd|[<-|[]]]; [destruct (E3 d Hd) as (d' & A & B); exists d'; split; [apply in_or_app; now left|exact B]|exists c'; split; [apply in_or_app; right; now left|exact Oc]]. }
    assert (Es : forall c' d, In d cl -> exists d', In d' (cls ++ [c']) /\ open_class d d') by (intros c' d Hd; destruct (E3 d Hd) as (d' & A & B); exists d'; split; [apply in_or_app; now left|exact B]).
    cbn [module_step] in *. change (pe_env y) with (pe_env x) in *. apply bind_Ok in H as (v & Hv & H). rewrite Hv. cbn [obind]. destruct v.
    - apply bind_Ok in H as (i & Hi & H). destruct (read_import_open _ _ _ Hi) as (r & Hr & D). rewrite Hr. cbn [obind].
      destruct (mem_str (at_name a) sbs) eqn:Em.
      + rewrite (Hid eq_refl Hv) in Hi. injection Hi as <-. assert (r = None) as -> by (destruct D; assumption). injection H as <-. split; [|eexists; split; [reflexivity|]]; repeat split; assumption.
      + assert (Es2 : mem_str (at_name a) sb = false) by (apply mem_str_notIn; apply mem_str_notIn in Em; intros K; apply Em, E7, K). rewrite Es2.
        destruct i as [i|]; injection H as <-; (split; [|destruct D as [->| ->]; (eexists; split; [reflexivity|])]); repeat split;
          cbn [fd_imports fd_conflicts fd_classes fd_typevars fd_functions fd_properties fd_subs]; try assumption; (apply incl_snoc || apply incl_skip); assumption.
    - injection H as <-. split; [|eexists; split; [reflexivity|]]; repeat split; cbn [fd_imports fd_conflicts fd_classes fd_typevars fd_functions fd_properties fd_subs]; try assumption.
      + intros i Hi. apply insert_In. left. now apply E7.
      + intros i Hi. apply insert_In. apply insert_In in Hi as [Hi|Hi]; [left; now apply E7|now right].
    - apply bind_Ok in H as (c' & Hc & H). injection H as <-. change (pe_cfg y) with (with_private (pe_cfg x)) in Hc. destruct (class_open _ _ _ _ _ Hc) as (c & Hc2 & Oc). rewrite Hc2. cbn [obind].
      split; [|eexists; split; [reflexivity|]]; repeat split; cbn [fd_imports fd_conflicts fd_classes fd_typevars fd_functions fd_properties fd_subs]; try assumption; [apply Es|now apply Ec].
    - apply bind_Ok in H as (c & Hc & H). injection H as <-. rewrite Hc. cbn [obind].
      split; [|eexists; split; [reflexivity|]]; repeat split; cbn [fd_imports fd_conflicts fd_classes fd_typevars fd_functions fd_properties fd_subs]; try assumption; (apply incl_snoc || apply incl_skip); assumption.
    - injection H as <-. split; [|eexists; split; [reflexivity|]]; repeat split; assumption.
    - apply bind_Ok in H as (c & Hc & H). injection H as <-. rewrite Hc. cbn [obind].
      split; [|eexists; split; [reflexivity|]]; repeat split; cbn [fd_imports fd_conflicts fd_classes fd_typevars fd_functions fd_properties fd_subs]; try assumption; (apply incl_snoc || apply incl_skip); assumption.
    - injection H as <-.
      split; [|eexists; split; [reflexivity|]]; repeat split; cbn [fd_imports fd_conflicts fd_classes fd_typevars fd_functions fd_properties fd_subs]; try assumption; (apply incl_snoc || apply incl_skip); assumption.
    - apply bind_Ok in H as (c & Hc & H). injection H as <-. rewrite Hc. cbn [obind].
      split; [|eexists; split; [reflexivity|]]; repeat split; cbn [fd_imports fd_conflicts fd_classes fd_typevars fd_functions fd_properties fd_subs]; try assumption; (apply incl_snoc || apply incl_skip); assumption.
  Qed.

  Lemma submodules_open : forall o l', extract_submodules y o = Ok l' -> exists l, extract_submodules x o = Ok l /\ incl l l'.
  Proof.
    intros o l' H. unfold extract_submodules in *. change (module_path y o) with (module_path x o) in H. apply bind_Ok in H as (name & Hn & H). rewrite Hn. cbn [obind].
    apply bind_Ok in H as (ids & Hi & H). change (pe_dbg y) with (pe_dbg x) in *. change (pe_uni y) with (pe_uni x) in *. change (pe_world y) with (pe_world x) in *. rewrite Hi. cbn [obind].
    injection H as <-. eexists. split; [reflexivity|]. intros i Hin.
    destruct (insert_fold (filter (fun i => is_attr_allowed (pe_cfg x) i name) ids) [] (NoDup_nil _)) as [_ B]. apply B in Hin as [[]|Hin]. apply filter_In in Hin as [Hin Ha].
    destruct (insert_fold (filter (fun i => is_attr_allowed (pe_cfg y) i name) ids) [] (NoDup_nil _)) as [_ B']. apply B'. right. apply filter_In. split; [exact Hin|now apply allowed_open].
  Qed.
  Lemma prelude_open : forall o name l', extract_prelude y o name = Ok l' -> exists l, extract_prelude x o name = Ok l /\ incl l l'.
  Proof.
    intros o name l' H. unfold extract_prelude in *. change (pe_dbg y) with (pe_dbg x) in *. change (pe_uni y) with (pe_uni x) in *. change (pe_world y) with (pe_world x) in *.
    apply bind_Ok in H as (index & Hi & H). rewrite Hi. cbn [obind]. apply bind_Ok in H as (names & Hn & H). rewrite Hn. cbn [obind].
    destruct (same_set _ _); [exists []; split; [reflexivity|intros i []]|]. change (generate_dependencies (pe_cfg y)) with (generate_dependencies (pe_cfg x)) in H.
    change (is_reexported y o name) with (is_reexported x o name) in H. apply bind_Ok in H as (kp & Hk & H). rewrite Hk. cbn [obind]. injection H as <-. eexists. split; [reflexivity|].
    intros i Hin. apply filter_In in Hin as [Hin Ha]. apply filter_In. split; [exact Hin|]. unfold prelude_allowed in *. change (pe_world y) with (pe_world x). destruct (w_getattr _ o _); [now apply allowed_open|exact Ha].
  Qed.

  Hypothesis Ho : order_ok (pe_ord x).
  Hypothesis Ho' : order_ok h.
  Hypothesis Hw : honest U w.
  Hypothesis Hs : own_submodules w.

  Lemma attrs_open : forall o name sbs sbs' st1', is_module w o -> module_path x o = Ok name -> (sbs' = [] \/ extract_submodules y o = Ok sbs') -> incl sbs sbs' ->
    each_attr (pe_env x) o (fun a => is_attr_allowed (pe_cfg y) (at_name a) (at_module a)) (module_step y name) (unique_names U [] (w_dir w o)) (mk_found [] [] [] [] [] [] sbs') = Ok st1' ->
    exists st1, each_attr (pe_env x) o (fun a => is_attr_allowed (pe_cfg x) (at_name a) (at_module a)) (module_step x name) (unique_names U [] (w_dir w o))
      (mk_found [] [] [] [] [] [] sbs) = Ok st1 /\ open_found st1 st1'.
  Proof.
    intros o name sbs sbs' st1' Hm Hn Hsb Hinc H.
    set (R := fun (l : list str) st st' => open_found st st' /\ forall s, In s l -> In (ident_from_py U s) (fd_subs st') -> In (ident_from_py U s) sbs').
    destruct (each_less (pe_env x) o R (fun a => is_attr_allowed (pe_cfg x) (at_name a) (at_module a)) (fun a => is_attr_allowed (pe_cfg y) (at_name a) (at_module a)) (module_step x name) (module_step y name))
      with (names := unique_names U [] (w_dir w o)) (st := mk_found [] [] [] [] [] [] sbs) (st' := mk_found [] [] [] [] [] [] sbs') (st1' := st1') as (st1 & K1 & K2 & _).
    - intros s r st st' [A B]. split; [exact A|]. intros t Ht. apply B. now right.
    - intros a. apply allowed_open.
    - intros pre s r a st st' st2' E [A B] Ha Hal Hst. pose proof (read_attr_inv _ _ _ _ Ha) as (A1 & _ & _). change (e_uni (pe_env x)) with U in A1.
      assert (L : forall t, In t r -> In (ident_from_py U t) (fd_subs st2') -> In (ident_from_py U t) sbs').
      { intros t Ht Hi. apply step_subs in Hst as [Es|(Es & _)]; rewrite Es in Hi; [now apply (B t); [right|]|]. apply insert_In in Hi as [Hi|Hi]; [now apply (B t); [right|]|].
        exfalso. destruct (unique_names_nodup U (w_dir w o) []) as [Nd _]. rewrite E, map_app in Nd. cbn [map] in Nd. apply NoDup_remove_2 in Nd. apply Nd. apply in_or_app. right.
        rewrite <- A1, <- Hi. now apply in_map. }
      destruct (step_open name a st st' st2' A Hst) as [P (st1 & Q1 & Q2)].
      + intros Em Hv. apply mem_str_In in Em. rewrite A1 in Em. apply (B s (or_introl eq_refl)) in Em. destruct Hsb as [->|Hsb]; [easy|].
        destruct (read_import y a (path_snoc name (at_name a))) as [rr|e|e|] eqn:Er;
          [f_equal; refine (unhidden y Hw Hs o s a sbs' name Hm Hn Hsb Ha _ Hv rr Er); now rewrite A1|..];
          exfalso; destruct st' as [ims cfs cls tvs fns prs sb2]; cbn [module_step] in Hst; change (pe_env y) with (pe_env x) in Hst; rewrite Hv in Hst; cbn [obind] in Hst; rewrite Er in Hst; discriminate.
      + destruct (is_attr_allowed (pe_cfg x) _ _); [exists st1; split; [exact Q1|now split]|now split].
    - split; [|intros s _ K; exact K]. split; [reflexivity|]. split; [reflexivity|]. repeat split; try (intros i []). exact Hinc.
    - exact H.
    - exists st1. now split.
  Qed.

  Theorem parse_open : forall fuel o m', is_module w o -> mod_parse y fuel o = Ok m' -> exists m, mod_parse x fuel o = Ok m /\ opens m m'.
  Proof.
    induction fuel as [|fuel IH]; intros o m' Hm H; [discriminate|]. cbn [mod_parse] in *. rewrite body_split in *. unfold before_subs in *.
    change (module_path y o) with (module_path x o) in H. change (pe_world y) with w in H. change (generate_preludes (pe_cfg y)) with (generate_preludes (pe_cfg x)) in H.
    change (traverse_submodules (pe_cfg y)) with (traverse_submodules (pe_cfg x)) in H. change (pe_env y) with (pe_env x) in H. change (pe_uni y) with U in H. change (pe_ord y) with h in H. fold U. fold w.
    apply bind_Ok in H as ([[[name pre] pk] st'] & H0 & H). apply bind_Ok in H0 as (nm & Hn & H0). apply bind_Ok in H0 as (pr & Hpre & H0).
    apply bind_Ok in H0 as (sbs' & Hsb & H0). apply bind_Ok in H0 as (s0 & Hst & H0). injection H0 as <- <- <- <-. rewrite Hn. cbn [obind].
    assert (Epre : exists pr2, (if generate_preludes (pe_cfg x) then extract_prelude x o nm else Ok []) = Ok pr2 /\ incl pr2 pr).
    { destruct (generate_preludes (pe_cfg x)); [now apply prelude_open|exists []; split; [reflexivity|intros i []]]. }
    destruct Epre as (pr2 & Epre & Ipre). rewrite Epre. cbn [obind]. set (isp := match w_getattr w o (u "__path__") with Some _ => true | None => false end) in *.
    assert (Esb : exists sbs, (if isp then extract_submodules x o else Ok []) = Ok sbs /\ incl sbs sbs').
    { destruct isp; [now apply submodules_open|exists []; split; [reflexivity|intros i []]]. }
    destruct Esb as (sbs & Esb & Isb). rewrite Esb. cbn [obind]. assert (Dsb : sbs' = [] \/ extract_submodules y o = Ok sbs') by (destruct isp; [now right|left; now injection Hsb as <-]).
    destruct (attrs_open o nm sbs sbs' s0 Hm Hn Dsb Isb Hst) as (st & Est & Lc & Lc' & L1 & L2 & L3 & L4 & L5 & L6). rewrite Est. cbn [obind]. rewrite Lc' in H. rewrite Lc.
    pose proof (subs_children y Hw o nm sbs' s0 Hm Hn Dsb Hst) as Hch. apply bind_Ok in H as (r' & Hr' & H). unfold after_subs in *. change (pe_world y) with w in H. apply bind_Ok in H as (doc & Hdoc & H).
    assert (Er' : concat (map fst r') = []) by (destruct (traverse_submodules (pe_cfg x)); [now apply plain_acts in Hr'|now injection Hr' as <-]).
    rewrite Er' in H. cbn [retargets fold_left] in H. injection H as <-.
    assert (K : exists r, (if traverse_submodules (pe_cfg x) then mapM (act x (mod_parse x fuel) o nm []) (ho (pe_ord x) (fd_subs st)) else Ok []) = Ok r /\ concat (map fst r) = [] /\
      (forall s, In s (concat (map snd r)) -> exists s', In s' (concat (map snd r')) /\ opens s s')).
    { destruct (traverse_submodules (pe_cfg x)).
      2:{ exists []. repeat split; intros s []. }
      destruct (plain_acts _ _ _ _ _ _ Hr') as [_ Q'].
      assert (Sub : forall i t, In i (fd_subs st) -> find_submodule x o (path_snoc nm i) i = Some t ->
        exists s' s, mod_parse y fuel t = Ok s' /\ mod_parse x fuel t = Ok s /\ opens s s').
      { intros i t Hi Hf. apply L6 in Hi. destruct (found_child y Hw o nm i t Hm Hn (Hch i Hi) Hf) as [T1 T2].
        assert (Hi2 : In i (ho h (fd_subs s0))) by (apply (Permutation_in i (Permutation_sym (Ho' _ _)) Hi)).
        destruct (mapM_In_l _ _ _ _ Hr' Hi2) as (e & _ & He). unfold act in He. cbn [find_path find] in He. change (find_submodule y o (path_snoc nm i) i) with (find_submodule x o (path_snoc nm i) i) in He.
        rewrite Hf in He. apply bind_Ok in He as (s' & Hs' & _). destruct (IH t s' T1 Hs') as (s & Hp & Hl). now exists s', s. }
      destruct (mapM_total (act x (mod_parse x fuel) o nm []) (ho (pe_ord x) (fd_subs st))) as (r & Hr).
      { intros i Hi. apply (Permutation_in i (Ho _ _)) in Hi. unfold act. cbn [find_path find]. destruct (find_submodule x o (path_snoc nm i) i) as [t|] eqn:Ef; [|eauto].
        destruct (Sub i t Hi Ef) as (s' & s & _ & E & _). rewrite E. cbn [obind]. eauto. }
      exists r. split; [exact Hr|]. destruct (plain_acts _ _ _ _ _ _ Hr) as [Q0 Q]. split; [exact Q0|].
      intros s Hin. apply Q in Hin as (i & t & Hi & Hf & Hp). apply (Permutation_in i (Ho _ _)) in Hi. destruct (Sub i t Hi Hf) as (s' & s2 & E1 & E2 & L). rewrite E2 in Hp. injection Hp as ->.
      exists s'. split; [|exact L]. apply Q'. exists i, t. split; [apply (Permutation_in i (Permutation_sym (Ho' _ _))); now apply L6|now split]. }
    destruct K as (r & Hr & Q0 & Q1). rewrite Hr. cbn [obind]. fold w. rewrite Hdoc. cbn [obind]. rewrite Q0. cbn [retargets fold_left]. eexists. split; [reflexivity|].
    constructor; try reflexivity; assumption.
  Qed.
End opening.

(** ** Items and places *)
Lemma open_class_refl : forall c, open_class c c.
Proof. intros c. split; [reflexivity|]. split; [reflexivity|]. split; [apply incl_refl|]. split; [apply incl_refl|]. now intros f q i Hf _ _. Qed.
Lemma has_open : forall m m', opens m m' -> forall it, has m it -> exists it', has m' it' /\ open_item it it'.
Proof.
  intros m m' L it H. destruct L as [m m' _ _ _ _ Lp Li Lc Lt Lf Lq _]. destruct it as [i|i|c|p|f|p]; cbn [has] in H.
  - exists (AnExport i). split; [now apply Lp|reflexivity].
  - exists (AnImport i). split; [now apply Li|reflexivity].
  - destruct (Lc c H) as (c' & A & B). now exists (AClass c').
  - exists (ATypeVar p). split; [now apply Lt|reflexivity].
  - exists (AFunction f). split; [now apply Lf|reflexivity].
  - exists (AProperty p). split; [now apply Lq|reflexivity].
Qed.
Lemma open_name : forall m m', opens m m' -> m_name m = m_name m'.
Proof. now intros m m' [? ? En]. Qed.
Lemma reach_open : forall l ch k, reach l ch k -> forall l', (forall s, In s l -> exists s', In s' l' /\ opens s s') -> exists k', reach l' ch k' /\ opens k k'.
Proof.
  intros l ch k R. induction R as [l m Hm|l m ch k Hm R IH]; intros l' S; destruct (S m Hm) as (m' & Hm' & L); rewrite (open_name _ _ L).
  - exists m'. split; [now apply reach_here|exact L].
  - destruct (IH (m_subs m')) as (k' & R' & L'); [destruct L as [? ? _ _ _ _ _ _ _ _ _ _ L]; exact L|]. exists k'. split; [now apply reach_down|exact L'].
Qed.
Lemma vis_open : forall m m' ch q, opens m m' -> vis [m] ch q -> exists q', vis [m'] ch q' /\ match q with Some it => exists it', q' = Some it' /\ open_item it it' | None => q' = None end.
Proof.
  intros m m' ch q L (k & R & H). destruct (reach_open _ _ _ R [m']) as (k' & R' & L'); [intros s [<-|[]]; exists m'; split; [now left|exact L]|].
  destruct q as [it|].
  - destruct (has_open _ _ L' it H) as (it' & H' & E). exists (Some it'). split; [now exists k'|]. now exists it'.
  - exists None. split; [now exists k'|reflexivity].
Qed.
Lemma within_open : forall k m m', opens m m' -> within k m -> exists k', within k' m' /\ opens k k'.
Proof.
  intros k m m' L H. destruct (within_reach k m H [m] (or_introl eq_refl)) as (ch & R). destruct (reach_open _ _ _ R [m']) as (k' & R' & L'); [intros s [<-|[]]; exists m'; split; [now left|exact L]|].
  apply Proof_Api.reach_within in R' as (m2 & [<-|[]] & Wi). now exists k'.
Qed.

(** The second run may differ in what it excludes and whether it reads submodules. *)
Definition altered (t : bool) (bl : list str) (p : bool) (cfg : config) : config :=
  mk_config t (generate_preludes cfg) (generate_imports cfg) (generate_classes cfg) (generate_type_vars cfg) (generate_functions cfg)
    (generate_properties cfg) (generate_docs cfg) bl p (generate_dependencies cfg) (suppress_python_stdout cfg) (suppress_python_stderr cfg).
Section forests.
  Variables (trav priv : bool) (blk : list str) (h : hash_order) (x : penv).
  Let U := pe_uni x.
  Let w := pe_world x.
  Let y := mk_penv (pe_env x) (altered trav blk priv (pe_cfg x)) h.
  Hypothesis Ho : order_ok (pe_ord x).
  Hypothesis Ho' : order_ok h.
  Hypothesis Hw : honest U w.
  Hypothesis Hpar : forall fuel o m', is_module w o -> mod_parse y fuel o = Ok m' -> exists m, mod_parse x fuel o = Ok m /\ opens m m'.
  Hypothesis Hexc : forall o, excluded y o -> excluded x o.

  Lemma requested_open : forall fuel l c c', asked_modules w l -> asks y fuel l cg_new = Ok c' -> asks x fuel l cg_new = Ok c -> Forall2 opens (cg_modules c) (cg_modules c').
  Proof.
    intros fuel l c c' Hl Hc' Hc. apply asks_state in Hc', Hc. change (pe_world y) with w in Hc'. fold w in Hc.
    assert (M : forall o, In (Some o) (flat_map (asked w) l) -> is_module w o) by (intros o H; apply in_flat_map in H as (q & Hq & H); exact (Hl q o Hq H)).
    revert M. generalize dependent (cg_modules c). induction Hc' as [|q m' qs ms' (o & Eq & Hp) F IH]; intros ms F2 M; inversion F2 as [|? m ? ms2 (o2 & Eq2 & Hp2) F3]; subst; constructor.
    - injection Eq2 as <-. destruct (Hpar fuel o m' (M o (or_introl eq_refl)) Hp) as (m2 & E & L). rewrite E in Hp2. now injection Hp2 as <-.
    - apply IH; [exact F3|]. intros p H. apply M. now right.
  Qed.
  Lemma cg_module_open : forall fuel o c d c', is_module w o -> cg_module y fuel o c' = Ok c -> exists c2, cg_module x fuel o d = Ok c2.
  Proof.
    intros fuel o c d c' Hm H. unfold cg_module in *. apply bind_Ok in H as (m & Hp & _). destruct (Hpar fuel o m Hm Hp) as (m2 & E & _).
    rewrite E. cbn [obind]. eauto.
  Qed.
  Lemma ask_open : forall fuel r c c' d, (forall o, In (Some o) (asked w r) -> is_module w o) -> ask y fuel r c' = Ok c -> exists c2, ask x fuel r d = Ok c2.
  Proof.
    intros fuel r c c' d M H. destruct r as [o|n|l|l|src n o]; cbn [ask asked] in *.
    - apply (cg_module_open fuel o c d c'); [apply M; now left|exact H].
    - unfold cg_module_name in *. change (pe_world y) with w in H. fold w. destruct (w_import w n) as [o|]; [|discriminate]. apply (cg_module_open fuel o c d c'); [apply M; now left|exact H].
    - revert c' d H. induction l as [|o l IH]; intros c' d H; cbn [cg_modules_all] in *; [eauto|]. apply bind_Ok in H as (c1 & H1 & H).
      destruct (cg_module_open fuel o c1 d c') as (d1 & E); [apply M; now left|exact H1|]. rewrite E. cbn [obind]. apply (IH (fun p Hp => M p (or_intror Hp)) c1 d1 H).
    - revert c' d H. induction l as [|n l IH]; intros c' d H; cbn [cg_module_names] in *; [eauto|]. apply bind_Ok in H as (c1 & H1 & H).
      assert (E : exists d1, cg_module_name x fuel n d = Ok d1).
      { unfold cg_module_name in *. change (pe_world y) with w in H1. fold w. destruct (w_import w n) as [o|] eqn:Ei; [|discriminate]. apply (cg_module_open fuel o c1 d c'); [apply M; left; exact Ei|exact H1]. }
      destruct E as (d1 & E). rewrite E. cbn [obind]. apply (IH (fun p Hp => M p (or_intror Hp)) c1 d1 H).
    - unfold cg_module_from_str in *. destruct o as [o|]; [|discriminate]. exact (cg_module_open fuel o c _ _ (M o (or_introl eq_refl)) H).
  Qed.
  Lemma asks_open : forall fuel l c c' d, asked_modules w l -> asks y fuel l c' = Ok c -> exists c2, asks x fuel l d = Ok c2.
  Proof.
    intros fuel. induction l as [|r l IH]; intros c c' d Hl H; cbn [asks] in *; [eauto|]. apply bind_Ok in H as (c1 & H1 & H).
    destruct (ask_open fuel r c1 c' d) as (d1 & E); [intros o Hin; exact (Hl r o (or_introl eq_refl) Hin)|exact H1|]. rewrite E. cbn [obind].
    apply (IH c c1 d1); [intros r0 o0 Hr0; apply Hl; now right|exact H].
  Qed.
  Lemma requests_open : forall fuel l c', asked_modules w l -> asks y fuel l cg_new = Ok c' -> exists c, asks x fuel l cg_new = Ok c /\ Forall2 opens (cg_modules c) (cg_modules c').
  Proof. intros fuel l c' Hl H. destruct (asks_open fuel l c' cg_new cg_new Hl H) as (c & E). exists c. split; [exact E|]. exact (requested_open fuel l c c' Hl H E). Qed.
  Lemma inputs_open : forall fuel l c c' inp inp', asked_modules w l -> (generate_dependencies (pe_cfg x) = true -> names_differ w) ->
    asks y fuel l cg_new = Ok c' -> asks x fuel l cg_new = Ok c -> all_inputs y fuel c' inp' -> all_inputs x fuel c inp -> forall m, In m inp -> exists m', In m' inp' /\ opens m m'.
  Proof.
    intros fuel l c c' inp inp' Hl Hd Hc' Hc Hi' Hi m Hm. pose proof (requested_open fuel l c c' Hl Hc' Hc) as F. destruct (generate_dependencies (pe_cfg x)) eqn:Eg.
    - specialize (Hd eq_refl). apply (inputs_iff x Hw Hd) in Hi as [Hi _]. apply (inputs_iff y Hw Hd) in Hi' as [Hi' Hi2].
      apply Hi in Hm as [Hm|(_ & o & (m0 & k & i & Hm0 & Hk & Hik & Ht & Hh) & Hex & Hp)].
      + destruct (forall2_in_l _ _ _ _ F Hm) as (m' & Hm' & L). exists m'. split; [apply Hi'; now left|exact L].
      + destruct (forall2_in_l _ _ _ _ F Hm0) as (m0' & Hm0' & L0). destruct (within_open k m0 m0' L0 Hk) as (k' & Hk' & L).
        assert (Hik' : In i (m_imports k')) by (destruct L as [? ? _ _ _ _ _ Li _ _ _ _ _]; now apply Li).
        assert (Hf : imported_from w (cg_modules c') o) by (exists m0', k', i; auto).
        assert (Hex' : ~ excluded y o) by (intros K; exact (Hex (Hexc o K))).
        destruct (Hi2 Eg o Hf Hex') as (m' & Hp'). exists m'. split; [apply Hi'; right; split; [exact Eg|]; now exists o|].
        destruct (Hpar fuel o m' (home_module x Hw (im_origin i) o Hh) Hp') as (m2 & E & L2). rewrite E in Hp. now injection Hp as <-.
    - destruct Hi as [_ Hi], Hi' as [_ Hi']. change (generate_dependencies (pe_cfg y)) with (generate_dependencies (pe_cfg x)) in Hi'. rewrite Eg in Hi, Hi'. injection Hi as <-. injection Hi' as <-.
      exact (forall2_in_l _ _ _ _ F Hm).
  Qed.
  Theorem forest_open : forall fuel l c c' ms ms', asked_modules w l -> (generate_dependencies (pe_cfg x) = true -> names_differ w) ->
    asks x fuel l cg_new = Ok c -> final_modules x fuel c = Ok ms -> asks y fuel l cg_new = Ok c' -> final_modules y fuel c' = Ok ms' ->
    forall ch, (present ms ch -> present ms' ch) /\ forall it, holds ms ch it -> exists it', holds ms' ch it' /\ open_item it it'.
  Proof.
    intros fuel l c c' ms ms' Hl Hd Hc Hf Hc' Hf'. destruct (final_vis y Ho' fuel c' ms' Hf') as (inp' & Hi' & V'). destruct (final_vis x Ho fuel c ms Hf) as (inp & Hi & V).
    pose proof (inputs_open fuel l c c' inp inp' Hl Hd Hc' Hc Hi' Hi) as A.
    assert (K : forall ch q, vis ms ch q -> exists q', vis ms' ch q' /\ match q with Some it => exists it', q' = Some it' /\ open_item it it' | None => q' = None end).
    { intros ch q H. destruct (proj1 (V ch q) H) as (m & Hm & H2). destruct (A m Hm) as (m' & Hm' & L). rewrite (open_name _ _ L) in H2. destruct H2 as [(d & -> & H2)|(-> & H2)].
      - destruct (vis_open m m' d q L H2) as (q' & Q1 & Q2). exists q'. split; [|exact Q2]. apply (proj2 (V' _ q')). exists m'. split; [exact Hm'|]. left. now exists d.
      - exists None. split; [|reflexivity]. apply (proj2 (V' _ None)). exists m'. split; [exact Hm'|]. now right. }
    intros ch. split.
    + intros (m & R). destruct (K ch None) as (q' & (m' & R' & _) & _); [now exists m|]. now exists m'.
    + intros it H. destruct (K ch (Some it) H) as (q' & H' & it' & -> & E). now exists it'.
  Qed.
End forests.

Lemma open_excluded : forall h x o, excluded (open_run h x) o -> excluded x o.
Proof.
  intros h x o K. unfold excluded, hidden in *. change (include_private (pe_cfg (open_run h x))) with true in K. change (pe_world (open_run h x)) with (pe_world x) in K. change (pe_uni (open_run h x)) with (pe_uni x) in K.
  change (blocklist_names (pe_cfg (open_run h x))) with (blocklist_names (pe_cfg x)) in K. intuition discriminate.
Qed.

(** ** Submodules *)
Section deep.
  Variables (h : hash_order) (x : penv).
  Let y := deep_run h x.
  Hypothesis Ht : traverse_submodules (pe_cfg x) = false.
  Lemma parse_deep : forall fuel o m', mod_parse y fuel o = Ok m' -> exists m, mod_parse x fuel o = Ok m /\ opens m m' /\ m_prelude m = m_prelude m' /\ m_subs m = [].
  Proof.
    intros [|fuel] o m' H; [discriminate|]. cbn [mod_parse] in *. rewrite body_split in *. unfold before_subs in *.
    change (module_path y o) with (module_path x o) in H. change (pe_world y) with (pe_world x) in H. change (generate_preludes (pe_cfg y)) with (generate_preludes (pe_cfg x)) in H.
    change (traverse_submodules (pe_cfg y)) with true in H. change (pe_env y) with (pe_env x) in H. change (pe_uni y) with (pe_uni x) in H. rewrite Ht.
    change (extract_prelude y o) with (extract_prelude x o) in H. change (extract_submodules y o) with (extract_submodules x o) in H.
    apply bind_Ok in H as ([[[name pre] pk] st'] & H0 & H). apply bind_Ok in H0 as (nm & Hn & H0). apply bind_Ok in H0 as (pr & Hpre & H0).
    apply bind_Ok in H0 as (sbs & Hsb & H0). apply bind_Ok in H0 as (s0 & Hst & H0). injection H0 as <- <- <- <-. rewrite Hn. cbn [obind]. rewrite Hpre. cbn [obind]. rewrite Hsb. cbn [obind].
    rewrite (same_each _ o (fun a => is_attr_allowed (pe_cfg x) (at_name a) (at_module a)) (fun a => is_attr_allowed (pe_cfg y) (at_name a) (at_module a)) (module_step x nm) (module_step y nm)) in Hst;
      [|reflexivity|intros s a; apply same_step; reflexivity].
    rewrite Hst. cbn [obind map concat]. apply bind_Ok in H as (r' & Hr' & H). unfold after_subs in *. change (pe_world y) with (pe_world x) in H. apply bind_Ok in H as (doc & Hdoc & H). rewrite Hdoc. cbn [obind]. injection H as <-.
    eexists. split; [reflexivity|]. cbn [retargets fold_left]. split; [|split; reflexivity].
    assert (G : forall it, f_has s0 it -> f_has (retargets (concat (map fst r')) s0) it) by (intros it Hit; apply retargets_has; now left).
    constructor; try reflexivity; cbn [m_prelude m_imports m_classes m_typevars m_functions m_properties m_subs].
    - apply incl_refl.
    - intros i Hi. exact (G (AnImport i) Hi).
    - intros d Hd. exists d. split; [exact (G (AClass d) Hd)|apply open_class_refl].
    - intros i Hi. exact (G (ATypeVar i) Hi).
    - intros i Hi. exact (G (AFunction i) Hi).
    - intros i Hi. exact (G (AProperty i) Hi).
    - intros s [].
  Qed.
End deep.
Lemma parse_opened : forall h x, traverse_submodules (pe_cfg x) = false -> forall fuel o m', is_module (pe_world x) o -> mod_parse (deep_run h x) fuel o = Ok m' -> exists m, mod_parse x fuel o = Ok m /\ opens m m'.
Proof. intros h x Ht fuel o m' _ H. destruct (parse_deep h x Ht fuel o m' H) as (m & E & L & _). now exists m. Qed.
Lemma deep_excluded : forall h x o, excluded (deep_run h x) o -> excluded x o.
Proof. intros h x o K. exact K. Qed.
