(** * Proofs about the arguments of the command line tool and of the macro *)
From Verif Require Import Base Model_Ident Model_Path Model_Config Model_World Model_Out Model_Function Model_Module Model_Parse
  Model_Codegen Model_Build Model_Args Model_Token Spec_Lex Spec_Api Spec_Args Proof_Base Proof_Io Proof_Lex.

(** ** One word at a time *)
Lemma value_word : forall a, value a -> a = u "-" \/ strip_prefix (u "-") a = None.
Proof.
  intros a [->|H]; [now left|right]. destruct (strip_prefix (u "-") a) as [t|] eqn:E; [|easy]. apply strip_prefix_Some in E. now destruct (H t).
Qed.
Lemma word_value : forall a, strip_prefix (u "-") a = None -> value a.
Proof. intros a H. right. intros r ->. now rewrite strip_prefix_app in H. Qed.
Lemma run_value : forall s a r, value a -> clap_run s (a :: r) =
  match k_wait s with
  | WNames vs => clap_run (mk_clap (k_names s) (k_out s) (WNames (vs ++ [a]))) r
  | WOutput => match set_output a s with Some s => clap_run s r | None => CRefuse end
  | WNone => CRefuse
  end.
Proof.
  intros s a r H. destruct (value_word a H) as [-> | E]; [reflexivity|]. cbn [clap_run].
  destruct (str_eqb a (u "--")) eqn:E1; [apply str_eqb_eq in E1; subst a; discriminate E|].
  destruct (strip_prefix (u "--") a) as [t|] eqn:E2; [apply strip_prefix_Some in E2; subst a; discriminate E|]. now rewrite E.
Qed.
Lemma run_values : forall vs n o w r, Forall value vs -> clap_run (mk_clap n o (WNames w)) (vs ++ r) = clap_run (mk_clap n o (WNames (w ++ vs))) r.
Proof.
  induction vs as [|v vs IH]; intros n o w r H; [now rewrite app_nil_r|]. inversion H as [|? ? H1 H2]; subst. cbn [app]. rewrite run_value by easy. cbn [k_wait k_names k_out].
  rewrite IH by easy. now rewrite <- app_assoc.
Qed.
Lemma run_module : forall s a r, module_option a -> clap_run s (a :: r) = clap_opt OModules None s (fun s => clap_run s r).
Proof. intros s a r [-> | ->]; reflexivity. Qed.
Lemma run_output : forall s a r, output_option a -> clap_run s (a :: r) = clap_opt OOutput None s (fun s => clap_run s r).
Proof. intros s a r [-> | ->]; reflexivity. Qed.
Lemma run_module_at : forall s a v r, attached (u "-m") (u "--module-name") a v -> clap_run s (a :: r) = clap_opt OModules (Some v) s (fun s => clap_run s r).
Proof.
  intros s a v r [-> | [-> | (-> & Hn & H)]]; try reflexivity. destruct v as [|c v]; [easy|]. cbn [u]. assert (E : (c =? ch "=")%N = false) by (apply N.eqb_neq; intros ->; now apply (H v)).
  change (clap_run s ((u "-m" ++ c :: v) :: r)) with (clap_opt OModules (Some (if (c =? ch "=")%N then v else c :: v)) s (fun s => clap_run s r)). now rewrite E.
Qed.
Lemma run_output_at : forall s a v r, attached (u "-o") (u "--output") a v -> clap_run s (a :: r) = clap_opt OOutput (Some v) s (fun s => clap_run s r).
Proof.
  intros s a v r [-> | [-> | (-> & Hn & H)]]; try reflexivity. destruct v as [|c v]; [easy|]. cbn [u]. assert (E : (c =? ch "=")%N = false) by (apply N.eqb_neq; intros ->; now apply (H v)).
  change (clap_run s ((u "-o" ++ c :: v) :: r)) with (clap_opt OOutput (Some (if (c =? ch "=")%N then v else c :: v)) s (fun s => clap_run s r)). now rewrite E.
Qed.

(** ** Whatever is said is understood *)
Lemma flush_wait : forall s s', flush s = Some s' -> k_wait s' = WNone.
Proof. intros [n o w] s' H. destruct w as [|[|v vs]|]; cbn in H; try easy; injection H as <-; reflexivity. Qed.
Lemma flush_idle : forall s, k_wait s = WNone -> flush s = Some s.
Proof. intros [n o w] H. cbn in H. now subst w. Qed.
Lemma end_of : forall s s', flush s = Some s' -> clap_end s = match k_names s' with [] => CRefuse | n :: q => CRun (n :: q) (k_out s') end.
Proof. intros s s' H. unfold clap_end. rewrite H. destruct s' as [[|n q] o w]; reflexivity. Qed.
Lemma out_inj : forall o o', out_list o = out_list o' -> o = o'.
Proof. intros [p|] [p'|] H; cbn in H; congruence. Qed.
Lemma understood : forall l ns os, says l ns os -> forall s s' o, flush s = Some s' -> out_list (k_out s') ++ os = out_list o ->
  clap_run s l = match k_names s' ++ ns with [] => CRefuse | n :: q => CRun (n :: q) o end.
Proof.
  induction 1 as [ | |a vs r ns os Ha Hn Hv Hs IH|a v r ns os Ha Hs IH|a v r ns os Ha Hv Hn Hs IH|a v r ns os Ha Hn Hs IH]; intros s s' o Hf Ho.
  - cbn [clap_run]. rewrite (end_of s s') by easy. rewrite app_nil_r in *. apply out_inj in Ho. now subst o.
  - change (clap_run s [u "--"]) with (clap_end s). rewrite (end_of s s') by easy. rewrite app_nil_r in *. apply out_inj in Ho. now subst o.
  - rewrite run_module by easy. unfold clap_opt. rewrite Hf, run_values by easy. cbn [app].
    assert (E : flush (mk_clap (k_names s') (k_out s') (WNames vs)) = Some (mk_clap (k_names s' ++ vs) (k_out s') WNone)) by (now destruct vs).
    rewrite (IH _ _ o E) by easy. cbn [k_names]. now rewrite <- app_assoc.
  - rewrite (run_module_at s a v r) by easy. unfold clap_opt. rewrite Hf. rewrite (IH _ (add_names [v] s') o) by easy. unfold add_names. cbn [k_names]. now rewrite <- app_assoc.
  - rewrite run_output by easy. unfold clap_opt. rewrite Hf, run_value by easy. cbn [k_wait]. unfold set_output. cbn [k_out k_names]. destruct v as [|c v]; [easy|].
    destruct (k_out s') as [p|] eqn:Ep; [destruct o; discriminate Ho|]. now rewrite (IH _ (mk_clap (k_names s') (Some (c :: v)) WNone) o).
  - rewrite (run_output_at s a v r) by easy. unfold clap_opt. rewrite Hf. unfold set_output. destruct v as [|c v]; [easy|].
    destruct (k_out s') as [p|] eqn:Ep; [destruct o; discriminate Ho|]. now rewrite (IH _ (mk_clap (k_names s') (Some (c :: v)) WNone) o).
Qed.

(** ** Whatever is understood was said *)
Definition meant (s : clap_state) (l ns : list str) (o : option str) : Prop :=
  match k_wait s with
  | WNone => exists ns' os', says l ns' os' /\ ns = k_names s ++ ns' /\ out_list o = out_list (k_out s) ++ os'
  | WNames vs => exists ws r ns' os', l = ws ++ r /\ Forall value ws /\ vs ++ ws <> [] /\ says r ns' os' /\ ns = k_names s ++ (vs ++ ws) ++ ns' /\
                   out_list o = out_list (k_out s) ++ os'
  | WOutput => exists v r ns' os', l = v :: r /\ value v /\ v <> [] /\ says r ns' os' /\ k_out s = None /\ ns = k_names s ++ ns' /\ out_list o = v :: os'
  end.
Lemma meant_flush : forall s s' l ns o, flush s = Some s' -> meant s' l ns o -> meant s l ns o.
Proof.
  intros [n p w] s' l ns o Hf H. destruct w as [|[|v vs]|]; cbn in Hf; try easy; injection Hf as <-; [exact H|].
  destruct H as (ns' & os' & H1 & H2 & H3). exists [], l, ns', os'. cbn [k_names k_out add_names app] in *. rewrite app_nil_r. rewrite <- app_assoc in H2. repeat split; easy.
Qed.
Lemma clap_end_meant : forall s l ns o, says l [] [] -> clap_end s = CRun ns o -> meant s l ns o.
Proof.
  intros s l ns o Hl H. unfold clap_end in H. destruct (flush s) as [s'|] eqn:E; [|easy]. apply (meant_flush s s'); [easy|]. pose proof (flush_wait s s' E) as Hw.
  destruct s' as [[|n q] p w]; [easy|]. cbn in Hw. subst w. injection H as <- <-. exists [], []. cbn [k_names k_out]. rewrite !app_nil_r. easy.
Qed.
Lemma at_equals_back : forall t n v, at_equals t = (n, v) -> t = n ++ match v with Some w => u "=" ++ w | None => [] end.
Proof.
  induction t as [|c t IH]; intros n v H; cbn [at_equals] in H; [injection H as <- <-; reflexivity|]. destruct (N.eqb_spec c (ch "=")) as [-> | _].
  - injection H as <- <-. reflexivity.
  - destruct (at_equals t) as [a w] eqn:E. injection H as <- <-. cbn [app]. f_equal. now apply IH.
Qed.
Lemma by_long_name : forall n o, by_long n = Some o -> o = OModules /\ n = u "module-name" \/ o = OOutput /\ n = u "output" \/ o = OHelp \/ o = OVersion.
Proof.
  intros n o H. unfold by_long in H. destruct (str_eqb n (u "module-name")) eqn:E1; [apply str_eqb_eq in E1; injection H as <-; now left|].
  destruct (str_eqb n (u "output")) eqn:E2; [apply str_eqb_eq in E2; injection H as <-; now (right; left)|].
  destruct (str_eqb n (u "help")); [injection H as <-; tauto|]. destruct (str_eqb n (u "version")); [injection H as <-; tauto|easy].
Qed.
(** An option with what is said after it *)
Definition opt_word (o : cli_opt) (v : option str) (a : str) : Prop :=
  match o, v with
  | OModules, None => module_option a
  | OModules, Some v => attached (u "-m") (u "--module-name") a v
  | OOutput, None => output_option a
  | OOutput, Some v => attached (u "-o") (u "--output") a v
  | _, _ => True
  end.
Lemma opt_meant : forall k v s a r ns o, opt_word k v a -> (forall s ns o, clap_run s r = CRun ns o -> meant s r ns o) ->
  clap_opt k v s (fun s => clap_run s r) = CRun ns o -> meant s (a :: r) ns o.
Proof.
  intros k v s a r ns o Ha IH H. unfold clap_opt in H. destruct (flush s) as [s'|] eqn:Ef; [|easy]. apply (meant_flush s s'); [easy|].
  pose proof (flush_wait s s' Ef) as Hw. unfold meant. rewrite Hw. destruct k, v as [v|]; try easy; cbn [opt_word] in Ha.
  - apply IH in H. destruct H as (ns' & os' & H1 & H2 & H3). exists (v :: ns'), os'. cbn [k_names k_out add_names] in *. rewrite <- app_assoc in H2.
    split; [now apply says_module|easy].
  - apply IH in H. destruct H as (ws & r' & ns' & os' & -> & H1 & H2 & H3 & H4 & H5). cbn [k_names k_out app] in *. exists (ws ++ ns'), os'. split; [now apply says_modules|easy].
  - destruct (set_output v s') as [s2|] eqn:Es; [|easy]. apply IH in H. unfold set_output in Es. destruct v as [|c v]; [easy|]. destruct (k_out s') as [p|] eqn:Ep; [easy|].
    injection Es as <-. destruct H as (ns' & os' & H1 & H2 & H3). cbn [k_names k_out out_list app] in *. exists ns', ((c :: v) :: os'). split; [now apply says_output_at|easy].
  - apply IH in H. destruct H as (w & r' & ns' & os' & -> & H1 & H2 & H3 & H4 & H5 & H6). cbn [k_names k_out] in *. rewrite H4. exists ns', (w :: os').
    split; [now apply says_output|easy].
Qed.
Lemma value_meant : forall s a r ns o, value a -> (forall s ns o, clap_run s r = CRun ns o -> meant s r ns o) -> clap_run s (a :: r) = CRun ns o -> meant s (a :: r) ns o.
Proof.
  intros s a r ns o Ha IH H. rewrite run_value in H by easy. unfold meant. destruct (k_wait s) as [|vs|]; [easy| |].
  - apply IH in H. destruct H as (ws & r' & ns' & os' & -> & H1 & H2 & H3 & H4 & H5). cbn [k_names k_out] in *. exists (a :: ws), r', ns', os'.
    rewrite <- app_assoc in H2. repeat split; try easy; [now constructor|]. rewrite H4, <- !app_assoc. reflexivity.
  - destruct (set_output a s) as [s2|] eqn:Es; [|easy]. apply IH in H. unfold set_output in Es. destruct a as [|c v]; [easy|]. destruct (k_out s) as [p|]; [easy|].
    injection Es as <-. destruct H as (ns' & os' & H1 & H2 & H3). now exists (c :: v), r, ns', os'.
Qed.
Lemma said : forall l s ns o, clap_run s l = CRun ns o -> meant s l ns o.
Proof.
  induction l as [|a r IH]; intros s ns o H; [apply clap_end_meant; [constructor|exact H]|].
  destruct (strip_prefix (u "-") a) as [t0|] eqn:Ea; [|apply value_meant; [now apply word_value|exact IH|exact H]].
  cbn [clap_run] in H. destruct (str_eqb a (u "--")) eqn:E1.
  { apply str_eqb_eq in E1. subst a. destruct r; [|easy]. apply clap_end_meant; [constructor|exact H]. }
  destruct (strip_prefix (u "--") a) as [t|] eqn:E2.
  - apply strip_prefix_Some in E2. subst a. destruct (at_equals t) as [n v] eqn:E3. apply at_equals_back in E3. subst t. destruct (by_long n) as [k|] eqn:E4; [|easy].
    refine (opt_meant k v s _ r ns o _ IH H). destruct (by_long_name n k E4) as [[-> ->] | [[-> ->] | [-> | ->]]]; destruct v as [v|]; cbn [opt_word]; try easy;
      [left; reflexivity|right; reflexivity|left; reflexivity|right; reflexivity].
  - rewrite Ea in H. apply strip_prefix_Some in Ea. subst a. destruct t0 as [|c t]; [now apply value_meant; [left|exact IH|]|].
    unfold by_short in H. destruct (N.eqb_spec c (ch "m")) as [-> | _].
    { refine (opt_meant OModules _ s _ r ns o _ IH H). destruct t as [|e w]; cbn [opt_word]; [left; reflexivity|]. destruct (N.eqb_spec e (ch "=")) as [-> | Hne].
      - right. left. reflexivity.
      - right. right. split; [reflexivity|]. split; [easy|]. intros q E. now injection E as ->. }
    destruct (N.eqb_spec c (ch "o")) as [-> | _].
    { refine (opt_meant OOutput _ s _ r ns o _ IH H). destruct t as [|e w]; cbn [opt_word]; [left; reflexivity|]. destruct (N.eqb_spec e (ch "=")) as [-> | Hne].
      - right. left. reflexivity.
      - right. right. split; [reflexivity|]. split; [easy|]. intros q E. now injection E as ->. }
    destruct (c =? ch "h")%N; [refine (opt_meant OHelp None s _ r ns o I IH H)|]. destruct (c =? ch "V")%N; [refine (opt_meant OHelp None s _ r ns o I IH H)|easy].
Qed.
Lemma run_names : forall l s ns o, clap_run s l = CRun ns o -> ns <> [].
Proof.
  assert (E : forall s ns o, clap_end s = CRun ns o -> ns <> []).
  { intros s ns o H. unfold clap_end in H. destruct (flush s) as [[[|n q] p w]|]; try easy. injection H as <- <-. easy. }
  assert (P : forall k v s r ns o, (forall s ns o, clap_run s r = CRun ns o -> ns <> []) -> clap_opt k v s (fun s => clap_run s r) = CRun ns o -> ns <> []).
  { intros k v s r ns o IH H. unfold clap_opt in H. destruct (flush s) as [s'|]; [|easy]. destruct k, v as [v|]; try easy; eauto.
    destruct (set_output v s'); [eauto|easy]. }
  induction l as [|a r IH]; intros s ns o H; cbn [clap_run] in H; [now apply E in H|].
  destruct (str_eqb a (u "--")); [destruct r; [now apply E in H|easy]|]. destruct (strip_prefix (u "--") a) as [t|].
  - destruct (at_equals t) as [n v]. destruct (by_long n); [now apply P in H|easy].
  - assert (V : match k_wait s with
              | WNames vs => clap_run (mk_clap (k_names s) (k_out s) (WNames (vs ++ [a]))) r
              | WOutput => match set_output a s with Some s => clap_run s r | None => CRefuse end
              | WNone => CRefuse
              end = CRun ns o -> ns <> []).
    { intros G. destruct (k_wait s); [easy|eauto|]. destruct (set_output a s); [eauto|easy]. }
    destruct (strip_prefix (u "-") a) as [[|c t]|]; [now apply V| |now apply V]. destruct (by_short c) as [[]|]; try easy; now apply P in H.
Qed.
Theorem clap_says : forall argv ns o, clap argv = CRun ns o <-> says (tl argv) ns (out_list o) /\ ns <> [].
Proof.
  intros argv ns o. unfold clap. split.
  - intros H. split; [|now apply run_names in H]. destruct (said _ _ _ _ H) as (ns' & os' & H1 & H2 & H3). cbn [k_names k_out out_list app] in *. now subst.
  - intros [H Hn]. rewrite (understood _ _ _ H _ (mk_clap [] None WNone) o) by reflexivity. cbn [k_names app]. now destruct ns.
Qed.

(** ** The tool *)
Lemma tool_runs : forall x numpy fuel h argv ns o, says (tl argv) ns (out_list o) -> ns <> [] -> cli_tool x numpy fuel h argv = Some (cli_main x numpy fuel h ns o).
Proof. intros. unfold cli_tool. now rewrite (proj2 (clap_says argv ns o)). Qed.
Lemma tool_acts : forall x numpy fuel h argv r ev, cli_tool x numpy fuel h argv = Some (r, ev) ->
  exists ns o, says (tl argv) ns (out_list o) /\ ns <> [] /\ cli_main x numpy fuel h ns o = (r, ev).
Proof.
  intros x numpy fuel h argv r ev H. unfold cli_tool in H. destruct (clap argv) as [ns o| |] eqn:E; try easy. apply clap_says in E. exists ns, o. now injection H as H.
Qed.
(** Two readings of the same arguments agree. *)
Lemma says_once : forall l ns o ns' o', ns <> [] -> ns' <> [] -> says l ns (out_list o) -> says l ns' (out_list o') -> ns = ns' /\ o = o'.
Proof.
  intros l ns o ns' o' Hn Hn' H H'. pose proof (proj2 (clap_says ([] :: l) ns o) (conj H Hn)) as E. pose proof (proj2 (clap_says ([] :: l) ns' o') (conj H' Hn')) as E'.
  rewrite E in E'. injection E' as <- <-. easy.
Qed.

(** ** The macro *)
Lemma lex_plain : forall U s acc, Forall easy_char s -> lex_run U (LString acc) (s ++ [c_quote]) = Some [TLit (acc ++ s)].
Proof.
  intros U. induction s as [|c s IH]; intros acc H; [now rewrite app_nil_r|]. inversion H as [|? ? (H1 & H2 & H3) H4]; subst. cbn [app lex_run lex_step].
  rewrite (proj2 (N.eqb_neq _ _) H1), (proj2 (N.eqb_neq _ _) H2), (proj2 (N.eqb_neq _ _) H3), IH by easy. cbn. now rewrite <- app_assoc.
Qed.
Lemma quote_starts : forall U, uni_ok U -> lex_start U c_quote = Some ([], LString []).
Proof. intros U HU. unfold lex_start. rewrite (small_word U HU) by reflexivity. reflexivity. Qed.
Lemma lex_quoted : forall U s, uni_ok U -> Forall easy_char s -> lex U (quoted s) = Some [TLit s].
Proof.
  intros U s HU H. unfold lex, quoted. cbn [lex_run lex_step]. rewrite (quote_starts U HU), lex_plain by easy. reflexivity.
Qed.
Lemma lex_escaped : forall U odd s, uni_ok U -> (forall c, odd c = true -> scalar c = true) -> lex U (c_quote :: escape odd s ++ [c_quote]) = Some [TLit s].
Proof.
  intros U odd s HU Ho. unfold lex. cbn [lex_run lex_step]. rewrite (quote_starts U HU), (run_escape U odd Ho). reflexivity.
Qed.
Lemma macro_bindings : forall x numpy fuel name, macro_import x numpy fuel name = cli_bindings x numpy fuel [name].
Proof. intros. unfold macro_import, cli_bindings, cli_modules. now destruct (or_panic (cg_module_name x fuel name cg_new)). Qed.
Lemma macro_reads : forall x numpy fuel input r, macro_tool x numpy fuel input = Some r <->
  exists name, lex (pe_uni x) input = Some [TLit name] /\ r = cli_bindings x numpy fuel [name].
Proof.
  intros x numpy fuel input r. unfold macro_tool. split.
  - intros H. destruct (lex (pe_uni x) input) as [l|]; [|easy]. destruct (macro_args l) as [name|] eqn:E; [|easy]. exists name. injection H as <-. split; [|apply macro_bindings].
    unfold macro_args in E. destruct l as [|[] []]; try easy. now injection E as ->.
  - intros (name & -> & ->). cbn [macro_args]. now rewrite macro_bindings.
Qed.
Lemma macro_plain : forall x numpy fuel name, uni_ok (pe_uni x) -> Forall easy_char name -> macro_tool x numpy fuel (quoted name) = Some (cli_bindings x numpy fuel [name]).
Proof. intros. apply macro_reads. exists name. now rewrite lex_quoted. Qed.
Lemma macro_escaped : forall x numpy fuel odd name, uni_ok (pe_uni x) -> (forall c, odd c = true -> scalar c = true) ->
  macro_tool x numpy fuel (quoted (escape odd name)) = Some (cli_bindings x numpy fuel [name]).
Proof. intros. apply macro_reads. exists name. split; [now apply lex_escaped|reflexivity]. Qed.
Lemma names_said : forall ns, ns <> [] -> Forall value ns -> says (u "-m" :: ns) ns [].
Proof. intros ns Hn H. pose proof (says_modules (u "-m") ns [] [] [] (or_introl eq_refl) Hn H says_nothing) as S'. now rewrite !app_nil_r in S'. Qed.
Lemma tool_done : forall x numpy fuel h argv ev, cli_tool x numpy fuel h argv = Some (Ok tt, ev) ->
  exists ns o c toks text, says (tl argv) ns (out_list o) /\ ns <> [] /\ asks x fuel (map AddName ns) cg_new = Ok c /\ cg_generate x numpy fuel c = Ok toks /\
    h_pretty h toks = Some text /\ last ev (EvStdout []) = match o with Some p => EvWrite p text | None => EvStdout text end /\ forall e, In e ev -> h_ok h e = true.
Proof.
  intros x numpy fuel h argv ev H. destruct (tool_acts _ _ _ _ _ _ _ H) as (ns & o & H1 & H2 & H3). destruct (cli_events _ _ _ _ _ _ _ _ H3) as [(_ & N & _)|(c & toks & text & E1 & E2 & E3 & E4 & E5)]; [easy|].
  exists ns, o, c, toks, text. repeat (split; [easy|]). split; [|now apply E5]. destruct o as [p|]; [|now subst ev]. destruct (h_parent h p); [|now subst ev].
  destruct E4 as [-> | [-> E]]; [easy|]. pose proof (proj1 E5 eq_refl _ (or_introl eq_refl)) as E'. congruence.
Qed.
