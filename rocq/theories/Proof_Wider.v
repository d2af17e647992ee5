(** * Lemmas: what becomes of the bindings if dependencies are generated *)
From Coq Require Import Permutation Lia.
From Verif Require Import Base Model_Ident Model_Path Model_Import Model_Text Model_Config Model_Type Model_IntoRs Model_World Model_Out
  Model_Function Model_Property Model_Class Model_Module Model_Parse Model_Codegen Spec_Path Spec_Names Spec_Rust Spec_Call Spec_Items Spec_Tree Spec_Api Spec_Attr Spec_Safe Spec_Out Spec_Use Spec_Hash Spec_More Spec_Wider
  Proof_Base Proof_Ident Proof_Path Proof_Text Proof_IntoRs Proof_Function Proof_Fresh Proof_Items Proof_Module Proof_Parse Proof_Forest Proof_Err Proof_Api Proof_Honest Proof_Calm Proof_Rooted
  Proof_Parts Proof_Switch Proof_Embed Proof_Attr Proof_Distinct Proof_Doc Proof_Use Proof_Full Proof_Order Proof_Hash Proof_Deps Proof_Term Proof_Scope Proof_Twin Proof_More.
Import Model_Class.

(** ** Reading a module *)
Definition widens (r r' : outcome module) : Prop :=
  match r with Ok m => exists m', r' = Ok m' /\ wider m m' | Err _ => exists e, r' = Err e | _ => True end.
Lemma retarget_wider : forall c m m' st, wider m m' -> retarget c m st = retarget c m' st.
Proof. intros c m m' st W. destruct W as [m m' _ _ _ _ Ei Ec Et Ef Eq _ _]. unfold retarget. now rewrite Ei, Ec, Et, Ef, Eq. Qed.
Lemma filterM_incl : forall {A} (f : A -> outcome bool) l k, filterM f l = Ok k -> incl k l.
Proof.
  intros A f. induction l as [|a l IH]; intros k H; cbn [filterM] in H; [injection H as <-; easy|]. apply bind_Ok in H as (b & _ & H). apply bind_Ok in H as (r & Hr & H).
  injection H as <-. apply IH in Hr. destruct b; [apply incl_cons; [now left|]|]; now apply incl_tl.
Qed.
Section reading.
  Variable x : penv.
  Let x' := wide_run x.
  Lemma prelude_wider : forall o name l, extract_prelude x o name = Ok l -> exists l', extract_prelude x' o name = Ok l' /\ incl l l'.
  Proof.
    intros o name l H. unfold extract_prelude in *. change (pe_dbg x') with (pe_dbg x). change (pe_uni x') with (pe_uni x). change (pe_world x') with (pe_world x).
    apply bind_Ok in H as (index & Hi & H). rewrite Hi. cbn [obind]. apply bind_Ok in H as (names & Hn & H). rewrite Hn. cbn [obind].
    destruct (same_set _ _); [injection H as <-; now exists []|]. change (generate_dependencies (pe_cfg x')) with true. cbn iota. cbn [obind]. eexists. split; [reflexivity|].
    apply bind_Ok in H as (kept & Hk & H). injection H as <-. change (prelude_allowed x' o name) with (prelude_allowed x o name).
    assert (I : incl kept index) by (destruct (generate_dependencies _); [injection Hk as <-; apply incl_refl|exact (filterM_incl _ _ _ Hk)]).
    intros i Hin. apply filter_In in Hin as [Hin Ha]. apply filter_In. split; [now apply I|exact Ha].
  Qed.
  Variables rec rec' : oid -> outcome module.
  Hypothesis Hrec : forall o, widens (rec o) (rec' o).
  Definition pairs (r r' : outcome (found * list module)) : Prop :=
    match r with Ok (st, l) => exists l', r' = Ok (st, l') /\ Forall2 wider l l' | Err _ => exists e, r' = Err e | _ => True end.
  Lemma sub_wider : forall o name st l l' i, Forall2 wider l l' -> pairs (sub_step x rec o name (st, l) i) (sub_step x' rec' o name (st, l') i).
  Proof.
    intros o name st l l' i F. unfold sub_step. change (pe_world x') with (pe_world x). change (find_submodule x' o (path_snoc name i) i) with (find_submodule x o (path_snoc name i) i).
    destruct (find_path im_target (path_snoc name i) (fd_conflicts st)) as [c|].
    - destruct (w_import _ _) as [s|]; [|now exists l']. specialize (Hrec s). destruct (rec s) as [m|e|k|]; cbn [widens] in Hrec; [| |exact I..].
      + destruct Hrec as (m' & -> & W). rewrite (retarget_wider c m m' st W). now exists l'.
      + destruct Hrec as (e' & ->). now exists l'.
    - destruct (find_submodule _ _ _ _) as [s|]; [|now exists l']. specialize (Hrec s). destruct (rec s) as [m|e|k|]; cbn [widens obind] in *; [| |exact I..].
      + destruct Hrec as (m' & -> & W). cbn [obind]. eexists. split; [reflexivity|]. apply Forall2_app; [exact F|]. constructor; [exact W|constructor].
      + destruct Hrec as (e' & ->). now exists e'.
  Qed.
  Lemma subs_wider : forall o name k st l l', Forall2 wider l l' -> pairs (sub_steps x rec o name (st, l) k) (sub_steps x' rec' o name (st, l') k).
  Proof.
    intros o name. induction k as [|i k IH]; intros st l l' F; cbn [sub_steps]; [now exists l'|]. pose proof (sub_wider o name st l l' i F) as S.
    destruct (sub_step x rec o name (st, l) i) as [[st1 l1]|e|z|]; cbn [pairs obind] in *; [| |exact I..].
    - destruct S as (l1' & -> & F1). cbn [obind]. now apply IH.
    - destruct S as (e' & ->). now exists e'.
  Qed.
  Lemma body_wider : forall o, widens (mod_parse_body x rec o) (mod_parse_body x' rec' o).
  Proof.
    intros o. unfold mod_parse_body. change (pe_world x') with (pe_world x). change (module_path x' o) with (module_path x o). change (generate_preludes (pe_cfg x')) with (generate_preludes (pe_cfg x)).
    change (traverse_submodules (pe_cfg x')) with (traverse_submodules (pe_cfg x)). change (pe_env x') with (pe_env x). change (pe_uni x') with (pe_uni x). change (pe_ord x') with (pe_ord x).
    change (extract_submodules x' o) with (extract_submodules x o).
    destruct (module_path x o) as [name|e|k|]; cbn [obind widens]; [|now exists e|exact I..].
    assert (P : match (if generate_preludes (pe_cfg x) then extract_prelude x o name else Ok []) with
      Ok p => exists p', (if generate_preludes (pe_cfg x) then extract_prelude x' o name else Ok []) = Ok p' /\ incl p p' | Err _ => False | _ => True end).
    { destruct (generate_preludes _); [|exists []; split; [reflexivity|apply incl_refl]]. destruct (extract_prelude x o name) as [p|e|k|] eqn:E; [now apply prelude_wider| |exact I..]. now apply prelude_no_err in E. }
    destruct (if generate_preludes (pe_cfg x) then extract_prelude x o name else Ok []) as [p|e|k|]; cbn [obind widens]; [|easy|exact I..]. destruct P as (p' & -> & Ip). cbn [obind].
    destruct (if match w_getattr _ _ _ with Some _ => true | None => false end then extract_submodules x o else Ok []) as [sbs|e|k|]; cbn [obind widens]; [|now exists e|exact I..].
    rewrite (same_each (pe_env x) o (fun a => is_attr_allowed (pe_cfg x) (at_name a) (at_module a)) (fun a => is_attr_allowed (pe_cfg x') (at_name a) (at_module a)) (module_step x name) (module_step x' name));
      [|reflexivity|apply same_step; reflexivity].
    destruct (each_attr _ _ _ _ _ _) as [st|e|k|]; cbn [obind widens]; [|now exists e|exact I..].
    assert (S : pairs (if traverse_submodules (pe_cfg x) then sub_steps x rec o name (st, []) (ho (pe_ord x) (fd_subs st)) else Ok (st, []))
      (if traverse_submodules (pe_cfg x) then sub_steps x' rec' o name (st, []) (ho (pe_ord x) (fd_subs st)) else Ok (st, []))).
    { destruct (traverse_submodules _); [apply subs_wider; constructor|]. exists []. split; [reflexivity|constructor]. }
    destruct (if traverse_submodules (pe_cfg x) then sub_steps x rec o name (st, []) (ho (pe_ord x) (fd_subs st)) else Ok (st, [])) as [[st1 l1]|e|k|]; cbn [obind widens pairs] in *; [| |exact I..].
    - destruct S as (l1' & -> & F). cbn [obind]. destruct (read_docstring _ _) as [d|e|k|]; cbn [obind]; [|now exists e|exact I..]. eexists. split; [reflexivity|]. now constructor.
    - destruct S as (e' & ->). now exists e'.
  Qed.
End reading.
Lemma parse_widens : forall x fuel o, widens (mod_parse x fuel o) (mod_parse (wide_run x) fuel o).
Proof. intros x. induction fuel as [|f IH]; intros o; cbn [mod_parse]; [exact I|]. now apply body_wider. Qed.
Lemma parse_wider : forall x fuel o m, mod_parse x fuel o = Ok m -> exists m', mod_parse (wide_run x) fuel o = Ok m' /\ wider m m'.
Proof. intros x fuel o m H. pose proof (parse_widens x fuel o) as K. now rewrite H in K. Qed.

(** ** Items and places *)
Lemma wider_name : forall m m', wider m m' -> m_name m = m_name m'.
Proof. now intros m m' [? ? En]. Qed.
Lemma wider_subs : forall m m', wider m m' -> Forall2 wider (m_subs m) (m_subs m').
Proof. now intros m m' [? ? _ _ _ _ _ _ _ _ _ _ F]. Qed.
Lemma wider_has : forall m m' it, wider m m' -> has m it -> has m' it.
Proof. intros m m' it W. destruct W as [m m' _ _ _ _ Ei Ec Et Ef Eq Ip _]. destruct it; cbn [has]; [apply Ip|now rewrite ?Ei, ?Ec, ?Et, ?Ef, ?Eq..]. Qed.
Lemma wider_back : forall m m' it, wider m m' -> (forall i, it <> AnExport i) -> has m' it -> has m it.
Proof. intros m m' it W N. destruct W as [m m' _ _ _ _ Ei Ec Et Ef Eq Ip _]. destruct it as [i| | | | |]; cbn [has]; [now destruct (N i)|now rewrite ?Ei, ?Ec, ?Et, ?Ef, ?Eq..]. Qed.
Lemma reach_wider : forall l ch k, reach l ch k -> forall l', Forall2 wider l l' -> exists k', reach l' ch k' /\ wider k k'.
Proof.
  intros l ch k R. induction R as [l m Hm|l m ch k Hm R IH]; intros l' F; destruct (Forall2_left _ _ _ _ F Hm) as (m' & Hm' & W); rewrite (wider_name _ _ W).
  - exists m'. split; [now apply reach_here|exact W].
  - destruct (IH (m_subs m') (wider_subs _ _ W)) as (k' & R' & W'). exists k'. split; [now apply reach_down|exact W'].
Qed.
Lemma vis_wider : forall m m' ch q, wider m m' -> vis [m] ch q -> vis [m'] ch q.
Proof.
  intros m m' ch q W (k & R & H). destruct (reach_wider _ _ _ R [m']) as (k' & R' & W'); [constructor; [exact W|constructor]|]. exists k'. split; [exact R'|].
  destruct q; [now apply (wider_has k)|exact I].
Qed.

(** ** Forests *)
Section forests.
  Variables (x : penv) (fuel : nat) (l : list request) (c c' : codegen) (ms ms' : list module).
  Let U := pe_uni x.
  Let w := pe_world x.
  Let x' := wide_run x.
  Hypothesis Hoff : generate_dependencies (pe_cfg x) = false.
  Hypothesis Ho : order_ok (pe_ord x).
  Hypothesis Hw : honest U w.
  Hypothesis Hd : names_differ w.
  Hypothesis Hl : asked_modules w l.
  Hypothesis Hc : asks x fuel l cg_new = Ok c.
  Hypothesis Hf : final_modules x fuel c = Ok ms.
  Hypothesis Hc' : asks x' fuel l cg_new = Ok c'.
  Hypothesis Hf' : final_modules x' fuel c' = Ok ms'.
  Lemma wd_asked : Forall2 wider (cg_modules c) (cg_modules c').
  Proof.
    pose proof (asks_state x fuel l c Hc) as F. pose proof (asks_state x' fuel l c' Hc') as F2. change (pe_world x') with (pe_world x) in F2. revert F2. generalize (cg_modules c'). clear - F.
    induction F as [|q m qs ms (o & Eq & Hp) F IH]; intros ms' F2; inversion F2 as [|? m' ? ms2 (o2 & Eq2 & Hp2) F3]; subst; constructor.
    - injection Eq2 as <-. destruct (parse_wider x fuel o m Hp) as (m2 & E & W). unfold x' in Hp2. rewrite E in Hp2. now injection Hp2 as <-.
    - now apply IH.
  Qed.
  Lemma wd_vis : forall ch q, vis ms ch q -> vis ms' ch q.
  Proof.
    intros ch q H. destruct (final_vis x Ho fuel c ms Hf) as (inp & Hin & V). destruct (final_vis x' Ho fuel c' ms' Hf') as (inp' & Hin' & V').
    destruct (inputs_iff x' Hw Hd fuel c' inp' Hin') as [I1' _]. destruct Hin as [_ Hin]. rewrite Hoff in Hin. injection Hin as <-.
    destruct (proj1 (V ch q) H) as (m & Hm & Hq). destruct (Forall2_left _ _ _ _ wd_asked Hm) as (m' & Hm' & W). refine (proj2 (V' ch q) _). exists m'. split; [apply I1'; now left|].
    rewrite <- (wider_name _ _ W). destruct Hq as [(d & E & Hq)|Hq]; [left; exists d; split; [exact E|now apply (vis_wider m)]|right; exact Hq].
  Qed.
  Lemma wd_forest : more_forest ms ms'.
  Proof.
    intros ch. split.
    - intros (m & R). assert (H : vis ms ch None) by now exists m. apply wd_vis in H as (m' & R' & _). now exists m'.
    - intros it (m & R & Hi). assert (H : vis ms ch (Some it)) by now exists m. apply wd_vis in H as (m' & R' & Hi'). now exists m'.
  Qed.
  Lemma wd_back : forall ch it it', (forall i, it' <> AnExport i) -> holds ms ch it -> holds ms' ch it' -> holds ms ch it'.
  Proof.
    intros ch it it' Ne H H'. destruct (item_parsed x fuel Ho Hw l c ms Hl Hc Hf ch it H) as (d & _ & n & t & k & E & Ht & Hp & _ & K & _).
    destruct (item_parsed x' fuel Ho Hw l c' ms' Hl Hc' Hf' ch it' H') as (d' & _ & n' & t' & k' & E' & Ht' & Hp' & Hi' & _ & _). rewrite E in E'. apply app_inj_tail in E' as [_ E'].
    destruct (parse_wider x n t k Hp) as (k2 & Hp2 & W). rewrite (wider_name _ _ W) in E'.
    assert (k2 = k') as <- by exact (same_parse x' Ho Hw Hd t t' k2 k' Ht Ht' n n' Hp2 Hp' E').
    apply K. now apply (wider_back k k2).
  Qed.
End forests.

(** ** Outputs *)
Lemma concat_same : forall {A B} (f g : A -> outcome (list B)) l, (forall a, In a l -> f a = g a) -> concatM f l = concatM g l.
Proof. intros A B f g l H. unfold concatM. assert (E : mapM f l = mapM g l); [|now rewrite E]. induction l as [|a l IH]; [reflexivity|]. cbn [mapM]. rewrite (H a (or_introl eq_refl)), IH; [reflexivity|]. intros z Hz. apply H. now right. Qed.
Lemma gen_wide : forall x numpy ms m, mod_generate (gen_ctx (wide_run x) numpy ms) m = mod_generate (gen_ctx x numpy ms) m.
Proof. intros x numpy ms. apply module_nested_ind. intros m IH. rewrite (mod_generate_eq (gen_ctx (wide_run x) numpy ms)), (mod_generate_eq (gen_ctx x numpy ms)). cbv zeta. rewrite (concat_same _ _ (m_subs m) IH). reflexivity. Qed.
Section outputs.
  Variables (x : penv) (numpy : bool) (fuel : nat) (l : list request) (c c' : codegen) (ms ms' : list module) (out out' : list frag).
  Let U := pe_uni x.
  Let w := pe_world x.
  Let x' := wide_run x.
  Hypothesis HU : uni_ok U.
  Hypothesis Hoff : generate_dependencies (pe_cfg x) = false.
  Hypothesis Ho : order_ok (pe_ord x).
  Hypothesis Hw : honest U w.
  Hypothesis Hd : names_differ w.
  Hypothesis Hl : asked_modules w l.
  Hypothesis Hc : asks x fuel l cg_new = Ok c.
  Hypothesis Hf : final_modules x fuel c = Ok ms.
  Hypothesis Hg : cg_generate x numpy fuel c = Ok out.
  Hypothesis Hc' : asks x' fuel l cg_new = Ok c'.
  Hypothesis Hf' : final_modules x' fuel c' = Ok ms'.
  Hypothesis Hg' : cg_generate x' numpy fuel c' = Ok out'.
  Hypothesis Hsp : forall m k, In m ms' -> within k m -> forall j, In j (m_prelude k) -> counterpart k j -> rust_ident U j.
  Hypothesis Ht : traverse_submodules (pe_cfg x) = true.
  Hypothesis Hv : forall m k, In m ms' -> within k m -> one_meaning U (all_types ms') k.
  Let X := gen_ctx x numpy ms.
  Let X' := gen_ctx x numpy ms'.
  Let Y := gen_ctx x' numpy ms'.
  Let wd_more : more_forest ms ms' := wd_forest x fuel l c c' ms ms' Hoff Ho Hw Hd Hc Hf Hc' Hf'.
  Lemma wd_sib : siblings_differ ms.
  Proof. exact (final_siblings x Ho Hw fuel l c ms Hl Hc Hf). Qed.
  Lemma wd_sib' : siblings_differ ms'.
  Proof. exact (final_siblings x' Ho Hw fuel l c' ms' Hl Hc' Hf'). Qed.
  Section pair.
    Variables (ch : list path) (m k : module) (P P' : parts).
    Hypothesis R : reach ms ch m.
    Hypothesis R' : reach ms' ch k.
    Hypothesis HP : parts_of X m P.
    Hypothesis HP' : parts_of X' k P'.
    Lemma wd_name : m_name m = m_name k.
    Proof. destruct (reach_last _ _ _ R) as (d & E). destruct (reach_last _ _ _ R') as (d' & E'). rewrite E in E'. now apply app_inj_tail in E' as [_ E']. Qed.
    Lemma wd_item : forall it, has m it -> has k it.
    Proof. intros it H. assert (Q : holds ms ch it) by now exists m. apply (proj2 (wd_more ch)) in Q as (k' & Q & Hi). now rewrite <- (reach_once _ _ _ R' wd_sib' k' Q). Qed.
    Lemma wd_same : forall it it', (forall i, it' <> AnExport i) -> has m it -> has k it' -> has m it'.
    Proof.
      intros it it' Ne H H'. assert (Q : holds ms ch it) by now exists m. assert (Q' : holds ms' ch it') by now exists k.
      destruct (wd_back x fuel l c c' ms ms' Ho Hw Hd Hl Hc Hf Hc' Hf' ch it it' Ne Q Q') as (m' & Q2 & Hi). now rewrite <- (reach_once _ _ _ R wd_sib m' Q2).
    Qed.
    Lemma wd_sub : forall s, In s (m_subs m) -> exists s', In s' (m_subs k) /\ m_name s' = m_name s.
    Proof.
      intros s Hs. assert (Q : present ms (ch ++ [m_name s])) by (exists s; now apply (reach_next ms ch m)). apply (proj1 (wd_more _)) in Q as (s' & Q). destruct (reach_back _ _ _ _ Q (reach_ne _ _ _ R)) as (k' & Q' & Hs' & En).
      rewrite (reach_once _ _ _ R' wd_sib' k' Q') in Hs'. now exists s'.
    Qed.
    Lemma wd_fine : forall t, In t (module_types k) -> fine U (pt_lt P) (pt_lt P') t.
    Proof.
      intros t Hin. destruct (Proof_Api.reach_within _ _ _ R') as (k0 & H0 & Hk). destruct (Hv k0 k H0 Hk t Hin) as [G M]. split; [exact G|]. intros s Hs q Hq v E.
      refine (table_grown (pe_dbg x) U m k (all_types ms) (all_types ms') _ _ q (po_lt _ _ _ HP) (po_lt _ _ _ HP') wd_name _ (types_more _ _ wd_more) _ v E); [intros i; exact (wd_item (AnImport i))|].
      intros p p' S1 S2. exact (M s q p p' Hs Hq S1 S2).
    Qed.
    Lemma wd_source : forall s, m_source m = Some s -> m_source k = Some s.
    Proof.
      intros s Hs. pose proof wd_name as En. pose proof R as Q. pose proof R' as Q'. inversion Q as [l1 m1 Hm1 E1 E2 E3|l1 m1 c1 k1 Hm1 Hr E1 E2 E3]; subst l1.
      - subst m1. rewrite <- E2 in Q'. inversion Q' as [l2 m2 Hm2 F1 F2 F3|l2 m2 c2 k2 Hm2 Hr F1 F2 F3]; [subst l2 m2|inversion Hr; congruence].
        rewrite (proj1 (final_source x fuel l c ms Hc Hf m Hm1)) in Hs. rewrite (proj1 (final_source x' fuel l c' ms' Hc' Hf' k Hm2)), <- En. exact Hs.
      - exfalso. subst k1. destruct (final_source x fuel l c ms Hc Hf m1 Hm1) as [_ S1]. destruct (Proof_Api.reach_within _ _ _ Hr) as (s0 & Hs0 & Ws). rewrite (S1 s0 Hs0 m Ws) in Hs. discriminate.
    Qed.
    Lemma wd_counterpart : forall i, counterpart m i -> counterpart k i.
    Proof.
      intros i [(s & Hs & E)|(it & p & Hit & Ep & Hi & Hn)].
      - left. destruct (wd_sub s Hs) as (s' & Hs' & En). exists s'. split; [exact Hs'|]. now rewrite En.
      - right. exists it, p. split; [now apply wd_item|]. now repeat split.
    Qed.
    Lemma wd_prelude : forall n ex, In (GMod n [GPub; GUseSuper ex]) (pt_prelude P) -> exists n' ex', In (GMod n' [GPub; GUseSuper ex']) (pt_prelude P') /\ incl ex ex' /\ (n' = n \/ exists b, In (GMod n b) (pt_subs P')).
    Proof.
      intros n ex E. destruct (Proof_Api.reach_within _ _ _ R) as (m0 & Hm0 & Hm). destruct (Proof_Api.reach_within _ _ _ R') as (k0 & Hk0 & Hk).
      pose proof (final_items_named x Ho Hw fuel l c ms Hl Hc Hf m0 m Hm0 Hm) as Nm. pose proof (final_items_named x' Ho Hw fuel l c' ms' Hl Hc' Hf' k0 k Hk0 Hk) as Nk.
      pose proof (po_prelude _ _ _ HP) as H. pose proof (po_prelude _ _ _ HP') as H'. change (mx_cfg X') with (mx_cfg X) in H'. change (mx_uni X') with U in H'. change (mx_uni X) with U in H.
      destruct (generate_preludes _); cbn [when] in H, H'; [|injection H as H; now rewrite <- H in E].
      destruct (prelude_shape _ _ _ H) as [K|(id & ex0 & K & Hgp)]; [now rewrite K in E|]. destruct (prelude_made U m _ HU Nm Hgp) as [[K' _]|(cc & ex1 & j & K' & Iff & Hr & Ecc & Hu & Hj)]; [now rewrite K' in E|].
      rewrite K' in E. destruct E as [E|[E|[]]]; [discriminate|]. injection E as -> ->.
      assert (Nex : exists i, In i ex).
      { destruct ex as [|i r]; [|exists i; now left]. exfalso. rewrite K' in Hgp. clear - Hgp. unfold gen_prelude in Hgp. destruct (m_prelude m); [discriminate|]. apply bind_Ok in Hgp as (kp & _ & Hgp). apply bind_Ok in Hgp as (e & _ & Hgp).
        destruct e; [discriminate|]. apply bind_Ok in Hgp as (z & _ & Hgp). apply bind_Ok in Hgp as (z' & _ & Hgp). discriminate. }
      destruct Nex as (i0 & Hi0). pose proof (proj1 (Iff i0) Hi0) as [Hp0 Hc0].
      assert (Sp : forall j, In j (m_prelude k) -> counterpart k j -> rust_ident U j) by exact (Hsp k0 k Hk0 Hk).
      destruct (prelude_total U k HU Nk Sp) as (lk & Hlk). rewrite Hlk in H'. injection H' as H'. rewrite <- H'.
      destruct (prelude_made U k _ HU Nk Hlk) as [[_ K2]|(cc' & ex' & j' & K2 & Iff' & _ & Ecc' & Hu' & Hj')].
      - destruct (K2 i0); [exact (wd_item (AnExport i0) Hp0)|now apply wd_counterpart].
      - exists cc', ex'. split; [rewrite K2; right; now left|]. split; [intros i Hi; apply Iff' ; apply Iff in Hi as [Hi1 Hi2]; split; [exact (wd_item (AnExport i) Hi1)|now apply wd_counterpart]|].
        destruct (Nat.lt_trichotomy j j') as [L|[->|L]]; [|left; congruence|].
        + right. specialize (Hj' j L). rewrite <- Ecc in Hj'.
          assert (Q : exists s, In s (m_subs k) /\ ends (m_name s) n).
          { destruct Hj' as [[Hs|(it & p & Hit & Ep & Hi & Hn)]|(im & Him & Ei)]; [exact Hs|destruct Hu..].
            - left. right. exists it, p. split; [refine (wd_same (AnExport i0) it _ Hp0 Hit); intros j0 ->; discriminate Ep|]. now repeat split.
            - right. exists im. split; [refine (wd_same (AnExport i0) (AnImport im) _ Hp0 Him); discriminate|exact Ei]. }
          destruct Q as (s & Hs & Es). destruct (when_In _ _ _ _ (po_subs _ _ _ HP') Ht s Hs) as (fr & Efr & Inc). destruct (module_in X' s fr Efr) as (Q' & n' & _ & Hn' & Hin').
          rewrite (ends_unique _ _ _ Hn' Es) in Hin'. eexists. apply Inc. exact Hin'.
        + destruct Hu'. specialize (Hj j' L). rewrite <- Ecc' in Hj. destruct Hj as [Hj|(im & Him & Ei)]; [left; now apply wd_counterpart|right]. exists im. split; [exact (wd_item (AnImport im) Him)|exact Ei].
    Qed.
    Lemma wd_body : forall y, In y (pt_body m P) -> leads y = false ->
      (exists n ex n' ex', y = GMod n [GPub; GUseSuper ex] /\ In (GMod n' [GPub; GUseSuper ex']) (pt_body k P') /\ incl ex ex' /\ (n' = n \/ exists b, In (GMod n b) (pt_body k P'))) \/ exists y', In y' (pt_body k P') /\ kept y y'.
    Proof.
      intros y Hy Hlead. destruct (Proof_Api.reach_within _ _ _ R) as (m0 & Hm0 & Hm). pose proof (final_typed x fuel l c ms Ho Hc Hf m0 m Hm0 Hm) as T.
      assert (Ty : forall f, In f (m_functions m) -> fn_typ f = FFunction \/ fn_typ f = FClosure) by apply T. clear T.
      destruct (body_frag X m P y HP Ty Hy) as [E|[(a & b & s & -> & E)|[(v & -> & E)|[(n & b & -> & E)|[(n & -> & E)|[E|[(d & -> & _ & E)|[(d & -> & _ & E)|(n & b & -> & E)]]]]]]]]; [congruence|..].
      - right. eexists. split; [|apply kp_same]. unfold pt_body. apply in_or_app. left. unfold gen_embed in E |- *. destruct (m_source m) as [src|] eqn:Es; [|easy]. rewrite (wd_source src Es), <- wd_name. exact E.
      - right. eexists. split; [|apply kp_same]. unfold pt_body. apply in_or_app. right. apply in_or_app. left.
        destruct (when_from _ _ _ _ _ (po_imports _ _ _ HP) E) as (B & i & fr & Hi & Ei & Hin). apply filter_In in Hi as [Hi He].
        destruct (when_In _ _ _ _ (po_imports _ _ _ HP') B i) as (fr' & Ei' & Inc); [apply filter_In; split; [exact (wd_item (AnImport i) Hi)|exact (exists_more ms ms' _ wd_more He)]|].
        apply Inc. change (mx_uni X') with (mx_uni X) in Ei'. rewrite Ei in Ei'. now injection Ei' as <-.
      - left. pose proof (po_prelude _ _ _ HP) as Hpre. destruct (generate_preludes _); [|injection Hpre as Hpre; now rewrite <- Hpre in E]. cbn in Hpre.
        apply prelude_shape in Hpre as [Ep|(id & ex & Ep & _)]; pose proof E as E0; rewrite Ep in E; [easy|]. destruct E as [E|[E|[]]]; [discriminate|]. injection E as <- <-.
        destruct (wd_prelude id ex E0) as (n' & ex' & Hin & Hinc & Hne). exists id, ex, n', ex'. split; [reflexivity|]. split; [unfold pt_body; do 2 (apply in_or_app; right); apply in_or_app; now left|]. split; [exact Hinc|].
        destruct Hne as [Hne|(b & Hb)]; [now left|right]. exists b. unfold pt_body. do 7 (apply in_or_app; right). exact Hb.
      - right. eexists. split; [|apply kp_same]. unfold pt_body. do 3 (apply in_or_app; right). apply in_or_app. left.
        destruct (when_from _ _ _ _ _ (po_vars _ _ _ HP) E) as (B & i & fr & Hi & Ei & Hin). destruct (when_In _ _ _ _ (po_vars _ _ _ HP') B i (wd_item (ATypeVar i) Hi)) as (fr' & Ei' & Inc).
        apply Inc. change (mx_uni X') with (mx_uni X) in Ei'. rewrite Ei in Ei'. now injection Ei' as <-.
      - right. destruct (when_from _ _ _ _ _ (po_classes _ _ _ HP) E) as (B & i & fr & Hi & Ei & Hin). destruct (when_In _ _ _ _ (po_classes _ _ _ HP') B i (wd_item (AClass i) Hi)) as (fr' & Ei' & Inc).
        assert (F : Forall2 kept fr fr').
        { refine (class_grown _ _ _ _ _ _ _ i fr fr' _ Ei Ei'). intros t Hin'. apply wd_fine. unfold module_types. apply in_or_app. left. apply in_flat_map. exists i. split; [exact (wd_item (AClass i) Hi)|exact Hin']. }
        destruct (Forall2_left _ _ _ y F Hin) as (y' & Hy' & K). exists y'. split; [|exact K]. unfold pt_body. do 4 (apply in_or_app; right). apply in_or_app. left. now apply Inc.
      - right. destruct (when_from _ _ _ _ _ (po_fns _ _ _ HP) E) as (B & i & fr & Hi & Ei & Hin). destruct (when_In _ _ _ _ (po_fns _ _ _ HP') B i (wd_item (AFunction i) Hi)) as (fr' & Ei' & Inc).
        assert (F : Forall2 kept fr fr').
        { unfold fn_frags in Ei, Ei'. apply bind_Ok in Ei as (im & Em & Ei). apply bind_Ok in Ei' as (im' & Em' & Ei').
          assert (K : kept_impl im im').
          { refine (fn_grown _ _ _ _ _ _ _ _ _ i im im' (or_intror (Ty i Hi)) _ Em Em'). intros t Hin'. apply wd_fine. unfold module_types. apply in_or_app. right. apply in_or_app. left. apply in_flat_map. exists i. split; [exact (wd_item (AFunction i) Hi)|exact Hin']. }
          destruct im as [fr0|], im' as [fr0'|]; try easy. injection Ei as <-. injection Ei' as <-. exact K. }
        destruct (Forall2_left _ _ _ _ F Hin) as (y' & Hy' & K). exists y'. split; [|exact K]. unfold pt_body. do 5 (apply in_or_app; right). apply in_or_app. left. now apply Inc.
      - right. destruct (when_from _ _ _ _ _ (po_props _ _ _ HP) E) as (B & i & fr & Hi & Ei & Hin). destruct (when_In _ _ _ _ (po_props _ _ _ HP') B i (wd_item (AProperty i) Hi)) as (fr' & Ei' & Inc).
        assert (F : Forall2 kept fr fr').
        { unfold prop_frags in Ei, Ei'. apply bind_Ok in Ei as (im & Em & Ei). apply bind_Ok in Ei' as (im' & Em' & Ei').
          assert (N : forall z, name_taken (pt_scope P) z = name_taken (pt_scope P') z).
          { apply (scope_names _ _ _ _ (po_scope _ _ _ HP) (po_scope _ _ _ HP')). intros f. split; [exact (wd_item (AFunction f))|apply (wd_same (AProperty i) (AFunction f)); [discriminate|exact Hi]]. }
          assert (K : kept_impl im im').
          { refine (prop_grown _ _ _ _ _ _ _ _ _ i im im' (taken_access _ _ _ _ N) _ Em Em'). apply wd_fine. unfold module_types. do 2 (apply in_or_app; right). apply in_map. exact (wd_item (AProperty i) Hi). }
          destruct im as [fr0|], im' as [fr0'|]; try easy. injection Ei as <-. injection Ei' as <-. exact K. }
        destruct (Forall2_left _ _ _ _ F Hin) as (y' & Hy' & K). exists y'. split; [|exact K]. unfold pt_body. do 6 (apply in_or_app; right). apply in_or_app. left. now apply Inc.
      - right. destruct (when_from _ _ _ _ _ (po_subs _ _ _ HP) E) as (B & s & fr & Hs & Es & Hin). destruct (wd_sub s Hs) as (s' & Hs' & En).
        destruct (when_In _ _ _ _ (po_subs _ _ _ HP') B s' Hs') as (fr' & Es' & Inc). destruct (generated_mods X s fr n b Es Hin) as (Q & _ & Hn & _). destruct (module_in X' s' fr' Es') as (Q' & n' & _ & Hn' & Hin').
        apply path_name_ends in Hn. rewrite En in Hn'. rewrite (ends_unique _ _ _ Hn' Hn) in Hin'. eexists. split; [|apply kp_mod]. unfold pt_body. do 7 (apply in_or_app; right). apply Inc. exact Hin'.
    Qed.
  End pair.
  Lemma wd_parts : forall k P, parts_of Y k P -> parts_of X' k P.
  Proof.
    intros k P H. constructor; try apply H. pose proof (po_subs _ _ _ H) as K. unfold Y, x' in K. rewrite (concat_same _ _ (m_subs k) (fun m _ => gen_wide x numpy ms' m)) in K. exact K.
  Qed.
  Lemma wd_output : forall ns k y, at_path out ns k -> In y k -> leads y = false ->
    (exists ex, y = GUseSuper ex) \/ exists k', at_path out' ns k' /\ ((exists y', In y' k' /\ kept y y') \/
      exists n ex n' ex', y = GMod n [GPub; GUseSuper ex] /\ In (GMod n' [GPub; GUseSuper ex']) k' /\ incl ex ex' /\ (n' = n \/ exists b, In (GMod n b) k')).
  Proof.
    intros ns b y Hb Hy Hlead. destruct (output_named x numpy fuel c out ms Hf Hg ns b Hb) as [[-> K]|[(ex & ->)|(ch & m & P & R & M & HP & ->)]].
    - right. destruct (K y Hy) as [E|(n & b0 & ->)]; [congruence|]. assert (b = out) as -> by now inversion Hb. exists out'.
      destruct (output_from x numpy fuel c out ms Hf Hg _ Hy) as (m & lm & Hm & Em & Hin). destruct (generated_mods X m lm n b0 Em Hin) as (Q & _ & Hn & _). apply path_name_ends in Hn.
      assert (Z : present ms [m_name m]) by (exists m; now apply reach_here). apply (proj1 (wd_more _)) in Z as (k & Z). pose proof (wd_name [m_name m] m k (reach_here ms m Hm) Z) as En.
      assert (Hk : In k ms') by (inversion Z as [l2 m2 Hm2 F1 F2|l2 m2 c2 k2 Hm2 Hr F1 F2]; subst; [exact Hm2|inversion Hr]).
      destruct (output_of x' numpy fuel c' out' ms' Hf' Hg' k Hk) as (lk & Ek & Il). destruct (module_in Y k lk Ek) as (Q' & n' & _ & Hn' & Hin'). rewrite <- En in Hn'. rewrite (ends_unique _ _ _ Hn' Hn) in Hin'.
      split; [constructor|]. left. eexists. split; [apply Il; exact Hin'|apply kp_mod].
    - left. destruct Hy as [<-|[<-|[]]]; [discriminate|now exists ex].
    - right. assert (Z : present ms ch) by now exists m. apply (proj1 (wd_more _)) in Z as (k & R').
      destruct (output_reached x' numpy fuel c' out' ms' Hf' Hg' ch k (or_introl Ht) R') as (ns' & P' & M' & HP' & A'). rewrite (mirrors_once ch ns' ns M' M) in A'. apply wd_parts in HP'.
      destruct (wd_body ch m k P P' R R' HP HP' y Hy Hlead) as [(n & ex & n' & ex' & E & Hin & Hinc & Hne)|(y' & Hy' & Q)]; exists (pt_body k P'); (split; [exact A'|]); [right; now exists n, ex, n', ex'|left; now exists y'].
  Qed.
End outputs.
