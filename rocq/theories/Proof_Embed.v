(** * Lemmas: embedded source text, dependencies, hidden names *)
From Verif Require Import Base Model_Ident Model_Path Model_Import Model_Text Model_Config Model_Type Model_IntoRs Model_World Model_Out
  Model_Function Model_Property Model_Class Model_Module Model_Parse Model_Codegen Spec_Path Spec_Names Spec_Call Spec_Items Spec_Tree Spec_Api Spec_Safe Spec_Out Spec_Privacy
  Proof_Base Proof_Ident Proof_Path Proof_Text Proof_IntoRs Proof_Call Proof_Function Proof_Fresh Proof_Method Proof_Kind Proof_Items Proof_Module
  Proof_Parse Proof_Forest Proof_Err Proof_Api Proof_Honest Proof_Calm Proof_Rooted Proof_Parts Proof_Scope.

(** ** Only roots are given a text *)
Definition sourceless (m : module) : Prop := forall k, within k m -> m_source k = None.
Lemma sourceless_iff : forall m, sourceless m <-> m_source m = None /\ forall s, In s (m_subs m) -> sourceless s.
Proof.
  intros m. split.
  - intros H. split; [apply H; constructor|]. intros s Hs k Hk. apply H. now apply (within_sub k m s).
  - intros [H1 H2] k Hk. inversion Hk as [|m' s Hs Hk']; subst; [exact H1|]. now apply (H2 s Hs).
Qed.
Lemma body_source : forall x rec o m, mod_parse_body x rec o = Ok m -> m_source m = None.
Proof.
  intros x rec o m H. unfold mod_parse_body in H. apply bind_Ok in H as (name & _ & H). apply bind_Ok in H as (pre & _ & H). apply bind_Ok in H as (sbs & _ & H).
  apply bind_Ok in H as (st & _ & H). apply bind_Ok in H as ([st' subs] & _ & H). apply bind_Ok in H as (doc & _ & H). now injection H as <-.
Qed.
Lemma parsed_sourceless : forall x fuel o m, mod_parse x fuel o = Ok m -> sourceless m.
Proof.
  intros x. apply (mod_parse_ind sourceless x). intros rec o m IH H. apply sourceless_iff. split; [exact (body_source _ _ _ _ H)|].
  destruct (module_path x o) as [name| | |] eqn:En; [|unfold mod_parse_body in H; rewrite En in H; discriminate..].
  destruct (mod_body_inv (fun _ => True) sourceless x rec o m name En) as (_ & K & _); auto. intros s k i _ Hk. now apply (IH s).
Qed.
Lemma embed_sourceless : forall x full i m m', sourceless m -> embed_in x full i m = Ok m' -> sourceless m'.
Proof.
  intros x full. induction i as [|i IH]; intros m m' H E; [now injection E as <-|]. cbn [embed_in] in E. apply bind_Ok in E as (p & Hp & E).
  apply (IH _ _) in E; [exact E|]. unfold or_unreachable in Hp. destruct (mod_empty x _) as [p'| | |] eqn:Ep; try discriminate. injection Hp as ->.
  unfold mod_empty in Ep. destruct (w_import _ _); [|discriminate]. apply bind_Ok in Ep as (doc & _ & Ep). injection Ep as <-.
  apply sourceless_iff. split; [reflexivity|]. intros s [<-|[]]. exact H.
Qed.
Lemma merge_sourceless : forall x fuel R m, (forall k, In k R -> sourceless k) -> merge_modules x fuel R = Ok m -> sourceless m.
Proof.
  intros x. induction fuel as [|f IH]; intros R m HR H; [discriminate|]. cbn [merge_modules] in H. destruct R as [|a R]; [discriminate|].
  apply bind_Ok in H as (subs & Hs & H). injection H as <-. apply sourceless_iff. split; [exact (HR a (or_introl eq_refl) a (within_here a))|].
  cbn [m_subs]. intros s Hin. unfold merge_siblings in Hs. destruct (mapM_In _ _ _ _ Hs Hin) as (run & Hrun & E).
  assert (K : forall k, In k run -> sourceless k).
  { intros k Hk. assert (Hk' : In k (flat_map m_subs (a :: R))).
    { apply sort_In. rewrite <- (spans_concat (sort_modules _)). apply in_concat. now exists run. }
    apply in_flat_map in Hk' as (b & Hb & Hk'). specialize (HR b Hb). apply sourceless_iff in HR. now apply HR. }
  unfold merge_run in E. destruct run as [|k [|k2 run]]; [now apply (IH [])|injection E as <-; apply K; now left|now apply (IH _ _ K E)].
Qed.
Lemma canonicalize_sourceless : forall x l k, (forall m, In m l -> sourceless m) -> canonicalize x l = Ok k -> forall m, In m k -> sourceless m.
Proof.
  intros x l k Hl H m Hm. unfold canonicalize in H. apply bind_Ok in H as (c & Hc & H).
  assert (K : forall a, In a c -> sourceless a).
  { intros a Ha. destruct (mapM_In _ _ _ _ Hc Ha) as (b & Hb & E). apply (embed_sourceless _ _ _ _ _ (Hl b Hb) E). }
  unfold merge_duplicates, merge_siblings in H. destruct (mapM_In _ _ _ _ H Hm) as (run & Hrun & E).
  assert (Kr : forall b, In b run -> sourceless b).
  { intros b Hb. apply K. apply sort_In. rewrite <- (spans_concat (sort_modules _)). apply in_concat. now exists run. }
  unfold merge_run in E. destruct run as [|b [|b2 run]]; [exact (merge_sourceless x _ _ m Kr E)|injection E as <-; apply Kr; now left|exact (merge_sourceless x _ _ m Kr E)].
Qed.
Lemma final_source : forall x fuel l c ms, asks x fuel l cg_new = Ok c -> final_modules x fuel c = Ok ms ->
  forall m, In m ms -> m_source m = given l (to_rs (m_name m)) /\ forall s, In s (m_subs m) -> sourceless s.
Proof.
  intros x fuel l c ms Hc Hf m Hm. destruct (final_inv x fuel c ms Hf) as (inp & k & Hin & Hk & ->). apply in_map_iff in Hm as (m1 & <- & Hm1).
  assert (K : sourceless m1).
  { apply (canonicalize_sourceless x inp k); [|exact Hk|exact Hm1]. intros a Ha. destruct (inputs_parsed x fuel l c inp Hc Hin a Ha) as [o Ho]. now apply (parsed_sourceless x fuel o). }
  apply sourceless_iff in K as [K1 K2]. unfold with_source. rewrite (asks_sources x fuel l c _ Hc).
  destruct (given l (to_rs (m_name m1))) as [src|] eqn:E; cbn [m_source m_name m_subs]; (split; [|exact K2]); [now rewrite E|now rewrite K1, E].
Qed.

(** ** In the output *)
Lemma embeds_app : forall a b, embeds (a ++ b) = embeds a ++ embeds b.
Proof. intros a b. apply filter_app. Qed.
Lemma embeds_none : forall l, (forall f, In f l -> forall a b s, f <> GEmbed a b s) -> embeds l = [].
Proof.
  induction l as [|f l IH]; intros H; [reflexivity|]. cbn. destruct f; cbn; try (apply IH; intros g Hg; apply H; now right).
  now destruct (H _ (or_introl eq_refl) m file src).
Qed.
Lemma class_no_embed : forall g c l f, class_generate g c = Ok l -> In f l -> forall a b s, f <> GEmbed a b s.
Proof.
  intros g c l f H Hin a b s ->. unfold class_generate in H. apply bind_Ok in H as (docs & Hd & H). apply bind_Ok in H as (name & _ & H).
  destruct (struct_ident _ _); [|injection H as <-; easy]. apply bind_Ok in H as (sc & _ & H). apply bind_Ok in H as (ms & _ & H). apply bind_Ok in H as (ps & _ & H).
  apply bind_Ok in H as (tid & _ & H). injection H as <-. apply in_app_or in Hin as [Hin|Hin]; [destruct (doc_only _ _ _ Hd _ Hin) as [t E]; discriminate|].
  cbn in Hin. repeat (destruct Hin as [Hin|Hin]; [discriminate|]). easy.
Qed.
Lemma body_embeds : forall x m P, parts_of x m P -> (forall f, In f (m_functions m) -> fn_typ f = FFunction \/ fn_typ f = FClosure) ->
  embeds (pt_body m P) = match m_source m with Some s => [GEmbed (to_rs (m_name m)) (to_rs (m_name m) ++ u "/__init__.py") s] | None => [] end.
Proof.
  intros x m P HP Hty. unfold pt_body. rewrite embeds_app, (embeds_none (_ ++ _)).
  - rewrite app_nil_r. unfold gen_embed. now destruct (m_source m).
  - intros f Hin a b s ->.
    assert (Hin' : In (GEmbed a b s) (pt_body m P)) by (unfold pt_body; apply in_or_app; now right).
    apply in_app_or in Hin as [Hin|Hin].
    { destruct (when_from _ _ _ _ _ (po_imports _ _ _ HP) Hin) as (_ & i & k & _ & Hk & Hin2). apply use_shape in Hk as [->|(v & -> & _)]; [easy|].
      destruct Hin2 as [E|[E|[]]]; discriminate. }
    apply in_app_or in Hin as [Hin|Hin].
    { pose proof (po_prelude _ _ _ HP) as Hpre. destruct (generate_preludes _); [|injection Hpre as E; now rewrite <- E in Hin]. cbn in Hpre.
      apply prelude_shape in Hpre as [E|(id & ex & E & _)]; rewrite E in Hin; [easy|]. destruct Hin as [Hin|[Hin|[]]]; discriminate. }
    apply in_app_or in Hin as [Hin|Hin].
    { destruct (when_from _ _ _ _ _ (po_vars _ _ _ HP) Hin) as (_ & i & k & _ & Hk & Hin2). apply var_shape in Hk as (v & _ & _ & ->). destruct Hin2 as [E|[E|[]]]; discriminate. }
    apply in_app_or in Hin as [Hin|Hin].
    { destruct (when_from _ _ _ _ _ (po_classes _ _ _ HP) Hin) as (_ & i & k & _ & Hk & Hin2). now apply (class_no_embed _ _ _ _ Hk Hin2 a b s). }
    apply in_app_or in Hin as [Hin|Hin].
    { destruct (when_from _ _ _ _ _ (po_fns _ _ _ HP) Hin) as (_ & i & k & Hi & Hk & Hin2). destruct (fn_part_frag _ _ _ _ _ Hk Hin2 (Hty i Hi)) as [E|(d & E & _)]; discriminate. }
    apply in_app_or in Hin as [Hin|Hin].
    { destruct (when_from _ _ _ _ _ (po_props _ _ _ HP) Hin) as (_ & i & k & _ & Hk & Hin2). destruct (prop_part_frag _ _ _ _ _ Hk Hin2) as [E|(d & E & _)]; discriminate. }
    destruct (when_from _ _ _ _ _ (po_subs _ _ _ HP) Hin) as (_ & i & k & _ & Hk & Hin2). destruct (mod_lead_or_mod _ _ _ _ Hk Hin2) as [E|(n & bb & E)]; discriminate.
Qed.
Lemma reach_within : forall l c k, reach l c k -> exists m, In m l /\ within k m.
Proof.
  intros l c k H. induction H as [l m Hm|l m c k Hm H (s & Hs & Hk)]; [exists m; split; [exact Hm|apply within_here]|].
  exists m. split; [exact Hm|]. now apply (within_sub k m s).
Qed.
Lemma single_to_rs : forall n, to_rs (mk_path false [n]) = n.
Proof. intros n. reflexivity. Qed.
Lemma output_embeds : forall x numpy fuel l c out, order_ok (pe_ord x) -> honest (pe_uni x) (pe_world x) -> asked_modules (pe_world x) l ->
  asks x fuel l cg_new = Ok c -> cg_generate x numpy fuel c = Ok out -> forall ns k, at_path out ns k ->
  embeds k = match ns with [n] => match given l n with Some s => [GEmbed n (n ++ u "/__init__.py") s] | None => [] end | _ => [] end \/
  exists ex, k = [GPub; GUseSuper ex].
Proof.
  intros x numpy fuel l c out Ho Hw Hl Hc Hout ns k Hk.
  destruct (final_modules x fuel c) as [ms| | |] eqn:Hf; [|unfold cg_generate in Hout; rewrite Hf in Hout; discriminate..].
  destruct (output_named x numpy fuel c out ms Hf Hout ns k Hk) as [[-> K]|[K|(ch & k' & P & Hr & M & HP & ->)]]; [left|now right|left].
  - apply embeds_none. intros f Hin a b s ->. destruct (K _ Hin) as [E|(n & b' & E)]; discriminate.
  - destruct (reach_within _ _ _ Hr) as (m & Hm & Hk'). destruct (final_typed x fuel l c ms Ho Hc Hf m k' Hm Hk') as (_ & _ & T3).
    rewrite (body_embeds _ _ _ HP T3). inversion Hr as [l1 m1 Hm1|l1 m1 c1 k1 Hm1 Hr1]; subst.
    + inversion M as [|p n ps ns' En F]; subst. inversion F; subst. destruct (final_source x fuel l c ms Hc Hf k' Hm1) as [E _].
      destruct (final_linked x Ho Hw fuel l c ms Hl Hc Hf [m_name k']) as [_ (p & r & Ep & Hlen)]; [now exists k'|]. injection Ep as <- <-.
      assert (En' : m_name k' = mk_path false [n]).
      { destruct En as (q & Eq). rewrite Eq, app_length in Hlen. destruct q as [|y q]; [|destruct q; discriminate]. cbn in Eq.
        assert (Hlead : leading_colon (m_name k') = false) by (apply (final_rooted x Ho (honest_named _ _ Hw) fuel l c ms Hl Hc Hf k' k' Hm1 (within_here k'))).
        destruct (m_name k') as [lc sg]. cbn in Eq, Hlead. now subst. }
      rewrite E, En', single_to_rs. reflexivity.
    + destruct (reach_within _ _ _ Hr1) as (s & Hs & Hks). destruct (final_source x fuel l c ms Hc Hf m1 Hm1) as [_ E]. rewrite (E s Hs k' Hks).
      inversion M as [|p n ps ns' En F]; subst. destruct ns'; [inversion F; subst; inversion Hr1|reflexivity].
Qed.

(** ** A given text is embedded. *)
Lemma given_some : forall l src n o, In (AddSource src n o) l -> exists s, given l n = Some s.
Proof.
  induction l as [|r l IH]; intros src n o H; [easy|]. destruct H as [->|H].
  - cbn. destruct (given l n); [now eexists|]. rewrite (proj2 (str_eqb_eq n n) eq_refl). now eexists.
  - destruct (IH _ _ _ H) as (s & E). destruct r; cbn; try (now exists s). rewrite E. now exists s.
Qed.
Lemma asked_parsed : forall x fuel l c o, asks x fuel l cg_new = Ok c -> In (Some o) (flat_map (asked (pe_world x)) l) -> exists m, In m (cg_modules c) /\ mod_parse x fuel o = Ok m.
Proof.
  intros x fuel l c o Hc H. pose proof (asks_state x fuel l c Hc) as F. clear Hc. revert H. generalize (flat_map (asked (pe_world x)) l) F. clear.
  intros q F. induction F as [|a m q ms (o' & -> & Hp) F IH]; [easy|]. intros [E|H].
  - injection E as <-. exists m. split; [now left|exact Hp].
  - destruct (IH H) as (m' & Hm & Hp'). exists m'. split; [now right|exact Hp'].
Qed.
Lemma one_component : forall U n, component n -> path_from_py U n = mk_path false [ident_from_py U n].
Proof. intros U n H. apply (named_segs U [n]). now intros s [<-|[]]. Qed.
Lemma source_embedded : forall x numpy fuel l c out src n o, order_ok (pe_ord x) -> honest (pe_uni x) (pe_world x) -> asked_modules (pe_world x) l ->
  asks x fuel l cg_new = Ok c -> cg_generate x numpy fuel c = Ok out -> In (AddSource src n (Some o)) l -> w_name (pe_world x) o = n -> component n -> ident_from_py (pe_uni x) n = n ->
  exists k s, given l n = Some s /\ at_path out [n] k /\ embeds k = [GEmbed n (n ++ u "/__init__.py") s].
Proof.
  intros x numpy fuel l c out src n o Ho Hw Hl Hc Hout Hr Hn Hcomp Hid.
  destruct (final_modules x fuel c) as [ms| | |] eqn:Hf; [|unfold cg_generate in Hout; rewrite Hf in Hout; discriminate..].
  destruct (given_some _ _ _ _ Hr) as (s & Es).
  destruct (asked_parsed x fuel l c o Hc) as (m & Hm & Hp). { apply in_flat_map. eexists. split; [exact Hr|]. now left. }
  assert (Mo : is_module (pe_world x) o) by (apply (Hl _ o Hr); now left).
  assert (En : m_name m = mk_path false [n]).
  { rewrite (parsed_name x Ho Hw fuel o m Mo Hp), Hn, (one_component _ _ Hcomp). now rewrite Hid. }
  assert (V : vis ms [m_name m] None).
  { pose proof (final_requested x Ho fuel c ms Hf m Hm [m_name m] None) as V. replace (parents (m_name m)) with (@nil path) in V by now rewrite En. apply V. exists m. split; [apply reach_here; now left|exact I]. }
  destruct V as (k' & Hr' & _). destruct (output_reached x numpy fuel c out ms Hf Hout [m_name m] k') as (ns & P & M & HP & A); [now right|exact Hr'|].
  assert (Ek : In k' ms /\ m_name k' = m_name m).
  { clear - Hr'. inversion Hr' as [l1 m1 Hm1 E1|l1 m1 c1 k1 Hm1 Hr1]; subst; [now split|inversion Hr1]. }
  destruct Ek as [Hk' Ek]. assert (ns = [n]) as ->.
  { inversion M as [|p i ps is Hi F]; subst. inversion F; subst. f_equal. apply (ends_unique (m_name m)); [exact Hi|]. rewrite En. now exists []. }
  exists (pt_body k' P), s. split; [exact Es|]. split; [exact A|].
  destruct (final_typed x fuel l c ms Ho Hc Hf k' k' Hk' (within_here k')) as (_ & _ & T3). rewrite (body_embeds _ _ _ HP T3).
  destruct (final_source x fuel l c ms Hc Hf k' Hk') as [E _]. now rewrite E, Ek, En, single_to_rs, Es.
Qed.
(** ** Each top-level module is written once. *)
Lemma generated_once : forall X m l, mod_generate X m = Ok l -> exists n, ends (m_name m) n /\ mod_names l = [n].
Proof.
  intros X m l H. apply mod_generate_inv in H as (P & n & HP & Hn & Hd & ->). exists n. split; [now apply path_name_ends|].
  unfold mod_names. rewrite !flat_map_app. cbn. 
  assert (Z : forall q, (forall f, In f q -> leads f = true) -> flat_map (fun f => match f with GMod i _ => [i] | _ => [] end) q = []).
  { clear. induction q as [|f q IH]; intros H; [reflexivity|]. cbn. rewrite IH; [|intros g Hg; apply H; now right]. specialize (H f (or_introl eq_refl)). now destruct f. }
  rewrite !Z; [reflexivity|intros f Hf; destruct (doc_only _ _ _ (po_docs _ _ _ HP) _ Hf) as [t ->]; reflexivity|].
  unfold pt_top. destruct (in_dec _ _ _); [intros f [<-|[]]; reflexivity|easy].
Qed.
Lemma roots_once : forall x numpy fuel l c out, order_ok (pe_ord x) -> honest (pe_uni x) (pe_world x) -> asked_modules (pe_world x) l ->
  asks x fuel l cg_new = Ok c -> cg_generate x numpy fuel c = Ok out -> NoDup (mod_names out).
Proof.
  intros x numpy fuel l c out Ho Hw Hl Hc Hout.
  destruct (final_modules x fuel c) as [ms| | |] eqn:Hf; [|unfold cg_generate in Hout; rewrite Hf in Hout; discriminate..].
  pose proof (proj1 (final_siblings x Ho Hw fuel l c ms Hl Hc Hf)) as N.
  assert (R : forall m, In m ms -> exists n, m_name m = mk_path false [n]).
  { intros m Hm. destruct (final_linked x Ho Hw fuel l c ms Hl Hc Hf [m_name m]) as [_ (p & r & Ep & Hlen)]; [exists m; now apply reach_here|]. injection Ep as <- <-.
    assert (Hlead : leading_colon (m_name m) = false) by (apply (final_rooted x Ho (honest_named _ _ Hw) fuel l c ms Hl Hc Hf m m Hm (within_here m))).
    destruct (m_name m) as [lc sg]. cbn in Hlen, Hlead. destruct sg as [|a [|b sg]]; try discriminate. exists a. now subst. }
  unfold cg_generate in Hout. rewrite Hf in Hout. cbn [obind] in Hout. apply bind_Ok in Hout as (ls & Hls & H). injection H as <-.
  clear Hf. revert ls Hls. generalize (gen_ctx x numpy ms). intros X. induction ms as [|m ms IH]; intros ls Hls.
  - injection Hls as <-. constructor.
  - cbn [mapM] in Hls. apply bind_Ok in Hls as (lm & Hlm & Hls). apply bind_Ok in Hls as (ls' & Hls' & Hls). injection Hls as <-.
    inversion N as [|? ? Nm N']; subst. destruct (generated_once _ _ _ Hlm) as (n & Hn & En). unfold mod_names at 1. cbn [concat]. rewrite flat_map_app. fold (mod_names lm) (mod_names (concat ls')). rewrite En.
    constructor; [|apply IH; auto; intros m' Hm'; apply R; now right]. intros Hin. apply in_flat_map in Hin as (f & Hf & Hin). destruct f; try easy. destruct Hin as [->|[]].
    apply in_concat in Hf as (lm' & Hlm' & Hf). destruct (mapM_In _ _ _ _ Hls' Hlm') as (m' & Hm' & E'). destruct (generated_once _ _ _ E') as (n' & Hn' & En').
    assert (n' = n). { assert (K : In n (mod_names lm')) by (apply in_flat_map; eexists; split; [exact Hf|now left]). rewrite En' in K. now destruct K. }
    subst n'. apply Nm. apply in_map_iff. exists m'. split; [|exact Hm']. destruct (R m (or_introl eq_refl)) as (a & Ea). destruct (R m' (or_intror Hm')) as (b & Eb).
    rewrite Ea, Eb in *. apply path_name_ends in Hn, Hn'. cbn in Hn, Hn'. congruence.
Qed.
