(** * Lemmas: hidden names and dependencies *)
From Verif Require Import Base Model_Ident Model_Path Model_Import Model_Text Model_Config Model_Type Model_IntoRs Model_World Model_Out
  Model_Function Model_Property Model_Class Model_Module Model_Parse Model_Codegen Spec_Path Spec_Names Spec_Call Spec_Items Spec_Tree Spec_Api Spec_Safe Spec_Out Spec_Privacy
  Proof_Base Proof_Ident Proof_Path Proof_Text Proof_IntoRs Proof_Call Proof_Function Proof_Fresh Proof_Method Proof_Kind Proof_Items Proof_Module
  Proof_Parse Proof_Forest Proof_Err Proof_Api Proof_Honest.

(** ** Hidden names *)
Lemma private_iff : forall s, starts_with [c_us] s = true <-> private s.
Proof. intros s. apply starts_with_iff. Qed.
Lemma mem_In : forall s l, mem_str s l = true <-> In s l.
Proof.
  intros s l. unfold mem_str. rewrite existsb_exists. split.
  - intros (t & Ht & E). apply str_eqb_eq in E. now subst.
  - intros H. exists s. split; [exact H|]. now apply str_eqb_eq.
Qed.
Lemma existsb_component : forall (f : str -> bool) p, existsb (fun i => f (as_py i)) (segs p) = true <-> exists s, In s (components p) /\ f s = true.
Proof.
  intros f p. rewrite existsb_exists. unfold components. split.
  - intros (i & Hi & E). exists (as_py i). split; [now apply in_map|exact E].
  - intros (s & Hs & E). apply in_map_iff in Hs as (i & <- & Hi). now exists i.
Qed.
Lemma hidden_iff : forall cfg n p, is_attr_allowed cfg n p = false <-> hidden cfg (as_py n) (components p).
Proof.
  intros cfg n p. unfold is_attr_allowed, hidden. rewrite Bool.negb_false_iff, !Bool.orb_true_iff, Bool.andb_true_iff, Bool.orb_true_iff, Bool.negb_true_iff.
  rewrite (existsb_component (starts_with [c_us])), (existsb_component (fun s => str_eqb s (u "__future__"))), (existsb_component (fun s => str_eqb s (u "typing"))), private_iff.
  rewrite mem_In. fold (mem_str (as_py n) (blocklist_names cfg)). rewrite mem_In.
  assert (E : forall t, (exists s, In s (components p) /\ str_eqb s t = true) <-> In t (components p)).
  { intros t. split; [intros (s & Hs & E); apply str_eqb_eq in E; now subst|]. intros H. exists t. split; [exact H|]. now apply str_eqb_eq. }
  rewrite !E.
  assert (E' : (exists s, In s (components p) /\ starts_with [c_us] s = true) <-> (exists s, In s (components p) /\ private s)).
  { split; intros (s & Hs & K); exists s; (split; [exact Hs|]); now apply private_iff. }
  rewrite E'. change forbidden_function_names with reserved. tauto.
Qed.
Lemma shown_iff : forall cfg n p, is_attr_allowed cfg n p = true <-> ~ hidden cfg (as_py n) (components p).
Proof. intros cfg n p. rewrite <- hidden_iff. destruct (is_attr_allowed cfg n p); split; congruence. Qed.

(** ** Dependencies *)
Lemma deepest_iff : forall w l o t, deepest w o l t <-> last_module w o l = t.
Proof.
  intros w. induction l as [|i l IH]; intros o t; cbn [last_module].
  - split; [intros H; now inversion H|intros ->; constructor].
  - split.
    + intros H. inversion H as [|o' i' r' a t' Ha Hm Hd|o' i' r' Hs]; subst; clear H.
      * rewrite Ha. unfold is_module in Hm. rewrite Hm. now apply IH.
      * destruct (w_getattr w t (as_py i)) as [a|] eqn:E; [|reflexivity]. specialize (Hs a eq_refl). unfold is_module in Hs. now destruct (tf_is_module (w_type w a)).
    + destruct (w_getattr w o (as_py i)) as [a|] eqn:E.
      * destruct (tf_is_module (w_type w a)) eqn:Em; intros H.
        -- apply (deepest_step w o i l a t E Em). now apply IH.
        -- subst. apply deepest_stop. intros b Hb. unfold is_module. congruence.
      * intros <-. apply deepest_stop. intros b Hb. congruence.
Qed.
Lemma home_iff : forall w p o, home w p o <-> dependency_module w p = Ok o.
Proof.
  intros w [lc sg] o. unfold home, dependency_module, path_root. cbn [segs leading_colon]. destruct sg as [|i r]; cbn.
  - split; [now intros (i & r & t & E & _)|discriminate].
  - split.
    + intros (i' & r' & t & E & Hi & Hd). injection E as <- <-. rewrite Hi. cbn. apply deepest_iff in Hd. now rewrite Hd.
    + destruct (w_import w _) as [t|] eqn:E; [|discriminate]. cbn. intros H. injection H as H. exists i, r, t. repeat split; [exact E|]. now apply deepest_iff.
Qed.
Lemma imports_of_In : forall m i, In i (imports_of m) <-> exists k, within k m /\ In i (m_imports k) /\ im_type i = ExternalImport.
Proof.
  intros m i. split.
  - intros H. enough (K : forall n m, depth m <= n -> In i (imports_of m) -> exists k, within k m /\ In i (m_imports k) /\ im_type i = ExternalImport) by now apply (K (depth m) m).
    clear m H. induction n as [|n IH]; intros m Hd H; [destruct m; cbn in Hd; lia|].
    destruct m as [a b c subs d e f g h j q]. cbn [imports_of m_imports m_subs] in H. cbn [depth m_subs] in Hd. apply in_app_or in H as [H|H].
    + apply filter_In in H as [H E]. eexists. split; [apply within_here|]. split; [exact H|]. unfold import_is_external in E. now destruct (im_type i).
    + apply in_flat_map in H as (s & Hs & H). destruct (IH s) as (k & Hk & K); [|exact H|].
      * assert (depth s <= list_max (map depth subs)); [|lia]. pose proof (proj1 (list_max_le (map depth subs) _) (le_n _)) as F. rewrite Forall_forall in F. apply F. now apply in_map.
      * exists k. split; [|exact K]. now apply (within_sub k _ s).
  - intros (k & Hk & Hi & Ht). induction Hk as [|m s Hs Hk IH].
    + destruct k as [a b c subs d e f g h j q]. cbn in *. apply in_or_app. left. apply filter_In. split; [exact Hi|]. unfold import_is_external. now rewrite Ht.
    + destruct m as [a b c subs d e f g h j q]. cbn in *. apply in_or_app. right. apply in_flat_map. now exists s.
Qed.
Lemma path_eqb_iff : forall a b, path_eqb a b = true <-> a = b.
Proof. intros a b. apply path_eqb_eq. Qed.
Lemma deps_all : forall x fuel l seen ms r, add_dependencies x fuel seen l ms = Ok r ->
  forall p, In p l -> exists o, dependency_module (pe_world x) p = Ok o /\
    (In (w_name (pe_world x) o) seen \/ exists p' o', In p' l /\ dependency_module (pe_world x) p' = Ok o' /\ w_name (pe_world x) o' = w_name (pe_world x) o /\
       (dependency_allowed x o' = Ok false \/ dependency_allowed x o' = Ok true /\ exists m, mod_parse x fuel o' = Ok m /\ In m r)).
Proof.
  intros x fuel. induction l as [|p l IH]; intros seen ms r H q Hq; [easy|]. cbn [add_dependencies] in H. apply bind_Ok in H as (o & Hp & H).
  destruct (mem_str _ seen) eqn:Es.
  - destruct Hq as [<-|Hq].
    + exists o. split; [exact Hp|]. left. now apply mem_In.
    + destruct (IH _ _ _ H q Hq) as (o' & H1 & [H2|(p' & o'' & H2 & H3)]); exists o'; (split; [exact H1|]); [now left|]. right. exists p', o''. split; [now right|exact H3].
  - apply bind_Ok in H as (b & Hb & H).
    assert (K : exists d, r = ms ++ d). { destruct b; [apply bind_Ok in H as (m & Hm & H)|]; apply dependencies_grow in H as (d & -> & _); eexists; [now rewrite <- app_assoc|reflexivity]. }
    assert (R : dependency_allowed x o = Ok false \/ dependency_allowed x o = Ok true /\ exists m, mod_parse x fuel o = Ok m /\ In m r).
    { destruct b; [right|now left]. split; [exact Hb|]. apply bind_Ok in H as (m & Hm & H). exists m. split; [exact Hm|].
      apply dependencies_grow in H as (d & -> & _). apply in_or_app. left. apply in_or_app. right. now left. }
    assert (H' : exists ms', add_dependencies x fuel (w_name (pe_world x) o :: seen) l ms' = Ok r).
    { destruct b; [apply bind_Ok in H as (m & Hm & H); now exists (ms ++ [m])|now exists ms]. }
    destruct Hq as [<-|Hq].
    + exists o. split; [exact Hp|]. right. exists p, o. repeat split; [now left|exact Hp|exact R].
    + destruct H' as (ms' & H'). destruct (IH _ _ _ H' q Hq) as (o' & H1 & [[H2|H2]|(p' & o'' & H2 & H3)]); exists o'; (split; [exact H1|]).
      * right. exists p, o. repeat split; [now left|exact Hp|exact H2|exact R].
      * now left.
      * right. exists p', o''. split; [now right|exact H3].
Qed.
Section deps.
  Variable x : penv.
  Let U := pe_uni x.
  Let w := pe_world x.
  Hypothesis Ho : order_ok (pe_ord x).
  Hypothesis Hw : honest U w.
  Hypothesis Hd : names_differ w.
  Lemma honest_raw : forall o, is_module w o -> starts_with (u "r#") (w_name w o) = false.
  Proof.
    intros o Hm. destruct (hn_name _ _ Hw o Hm) as (l & Hl & Hs & ->). destruct l as [|a l]; [easy|]. destruct (Hs a (or_introl eq_refl)) as [(_ & _ & Ha) _].
    destruct l as [|b l]; [exact Ha|]. change (join [c_dot] (a :: b :: l)) with (a ++ [c_dot] ++ join [c_dot] (b :: l)).
    destruct (starts_with (u "r#") (a ++ [c_dot] ++ join [c_dot] (b :: l))) eqn:E; [|reflexivity].
    apply starts_with_iff in E as (t & E). destruct a as [|a1 [|a2 a]]; [destruct (Hs [] (or_introl eq_refl)) as [(K & _) _]; easy|discriminate|].
    injection E as -> -> _. discriminate.
  Qed.
  Lemma allowed_iff : forall o b, is_module w o -> dependency_allowed x o = Ok b -> (b = false <-> excluded x o).
  Proof.
    intros o b Hm H. unfold dependency_allowed in H. apply bind_Ok in H as (n & Hn & H). apply bind_Ok in H as (p & Hp & H). injection H as <-.
    apply chk_ident in Hn as ->. apply chk_path in Hp as ->. rewrite hidden_iff. unfold excluded. cbn [e_world e_uni pe_env].
    rewrite as_py_from_py by now apply honest_raw. reflexivity.
  Qed.
  Lemma home_module : forall p o, home w p o -> is_module w o.
  Proof.
    intros p o (i & r & t & _ & Hi & Hdp). apply deepest_iff in Hdp as <-. apply last_module_is. now apply (hn_import _ _ Hw) in Hi.
  Qed.
  Lemma external_In : forall l p, In p (unique path_eqb (map im_origin (flat_map imports_of l))) <->
    exists m k i, In m l /\ within k m /\ In i (m_imports k) /\ im_type i = ExternalImport /\ p = im_origin i.
  Proof.
    intros l p. rewrite (unique_In path_eqb path_eqb_iff), in_map_iff. split.
    - intros (i & <- & Hi). apply in_flat_map in Hi as (m & Hm & Hi). apply imports_of_In in Hi as (k & Hk & Hi & Ht). now exists m, k, i.
    - intros (m & k & i & Hm & Hk & Hi & Ht & ->). exists i. split; [reflexivity|]. apply in_flat_map. exists m. split; [exact Hm|]. apply imports_of_In. now exists k.
  Qed.
  Lemma inputs_iff : forall fuel c inp, all_inputs x fuel c inp ->
    (forall m, In m inp <-> In m (cg_modules c) \/
       (generate_dependencies (pe_cfg x) = true /\ exists o, imported_from w (cg_modules c) o /\ ~ excluded x o /\ mod_parse x fuel o = Ok m)) /\
    (generate_dependencies (pe_cfg x) = true -> forall o, imported_from w (cg_modules c) o -> ~ excluded x o -> exists m, mod_parse x fuel o = Ok m).
  Proof.
    intros fuel c inp [_ H]. destruct (generate_dependencies (pe_cfg x)).
    2:{ injection H as <-. split; [|discriminate]. intros m. split; [now left|]. now intros [Hm|[K _]]. }
    assert (A : forall o, imported_from w (cg_modules c) o -> ~ excluded x o -> exists m, mod_parse x fuel o = Ok m /\ In m inp).
    { intros o (m & k & i & Hm & Hk & Hi & Ht & Hh) Hex.
      destruct (deps_all x fuel _ _ _ _ H (im_origin i)) as (o' & H1 & [[]|(p' & o'' & H2 & H3 & H4 & H5)]).
      { apply external_In. now exists m, k, i. }
      pose proof (home_module _ _ Hh) as M. apply home_iff in Hh. fold w in H1. rewrite Hh in H1. injection H1 as <-.
      apply home_iff in H3. pose proof (home_module _ _ H3) as M''. pose proof (Hd _ _ M'' M H4) as ->.
      destruct H5 as [H5|[_ H5]]; [|exact H5]. apply (allowed_iff o false M) in H5. now destruct Hex, H5; auto. }
    split; [|intros _ o K1 K2; destruct (A o K1 K2) as (m & Hm & _); now exists m].
    intros m. split.
    - intros Hm. apply dependencies_grow in H as (d & -> & K). apply in_app_or in Hm as [Hm|Hm]; [now left|right]. split; [reflexivity|].
      destruct (K m Hm) as (p & o & Hp & Hdm & Hal & Hpa). apply external_In in Hp as (m0 & k & i & Hm0 & Hk & Hi & Ht & ->). apply home_iff in Hdm.
      exists o. split; [now exists m0, k, i|]. split; [|exact Hpa]. intros E. apply (allowed_iff o true (home_module _ _ Hdm) Hal) in E. discriminate.
    - intros [Hm|(_ & o & Hi & He & Hp)].
      + apply dependencies_grow in H as (d & -> & _). apply in_or_app. now left.
      + destruct (A o Hi He) as (m' & Hp' & Hin). now rewrite Hp in Hp'; injection Hp' as <-.
  Qed.
  (** The final forest consists of the requested modules and the dependencies. *)
  Lemma final_contents : forall fuel l c ms, asked_modules w l -> asks x fuel l cg_new = Ok c -> final_modules x fuel c = Ok ms ->
    (forall ch it, holds ms ch it <-> exists m ch', (In m (cg_modules c) \/
        (generate_dependencies (pe_cfg x) = true /\ exists o, imported_from w (cg_modules c) o /\ ~ excluded x o /\ mod_parse x fuel o = Ok m)) /\
        ch = parents (m_name m) ++ ch' /\ holds [m] ch' it) /\
    (generate_dependencies (pe_cfg x) = true -> forall o, imported_from w (cg_modules c) o -> ~ excluded x o ->
       exists m, mod_parse x fuel o = Ok m /\ m_name m = path_from_py U (w_name w o) /\ forall ch, present [m] ch -> present ms (parents (m_name m) ++ ch)) /\
    (forall ch, present ms ch -> exists m, (In m (cg_modules c) \/
        (generate_dependencies (pe_cfg x) = true /\ exists o, imported_from w (cg_modules c) o /\ ~ excluded x o /\ mod_parse x fuel o = Ok m)) /\
        ((exists ch', ch = parents (m_name m) ++ ch' /\ present [m] ch') \/ exists j, 1 <= j < length (segs (m_name m)) /\ ch = firstn j (parents (m_name m)))).
  Proof.
    intros fuel l c ms Hl Hc Hf. destruct (final_vis x Ho fuel c ms Hf) as (inp & Hin & V). destruct (inputs_iff fuel c inp Hin) as [I1 I2].
    assert (P : forall k ch, present k ch <-> vis k ch None).
    { intros k ch. split; [intros (m & Hr); exists m; now split|intros (m & Hr & _); now exists m]. }
    split; [|split].
    - intros ch it. change (holds ms ch it) with (vis ms ch (Some it)). rewrite V. split.
      + intros (m & Hm & [(c' & E & Hv)|[E _]]); [|discriminate]. exists m, c'. split; [now apply I1|]. now split.
      + intros (m & c' & Hm & E & Hv). exists m. split; [now apply I1|]. left. now exists c'.
    - intros Hg o Hi He. destruct (I2 Hg o Hi He) as (m & Hm). exists m. split; [exact Hm|].
      assert (Mo : is_module w o) by (destruct Hi as (m0 & k & i & _ & _ & _ & _ & Hh); now apply (home_module (im_origin i))).
      split; [now apply (parsed_name x Ho Hw fuel)|]. intros ch Hch. apply P. apply V. exists m. split; [apply I1; right; split; [exact Hg|]; now exists o|].
      left. exists ch. split; [reflexivity|]. now apply P.
    - intros ch Hch. apply P, V in Hch as (m & Hm & K). exists m. split; [now apply I1|]. destruct K as [(c' & E & Hv)|[_ K]]; [left|now right].
      exists c'. split; [exact E|]. now apply P.
  Qed.
End deps.
