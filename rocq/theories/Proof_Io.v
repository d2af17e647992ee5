(** * Lemmas: output redirection and entry points *)
From Verif Require Import Base Model_Ident Model_Path Model_Config Model_World Model_Out Model_Function Model_Module Model_Parse
  Model_Codegen Model_Io Model_Build Spec_Api Spec_Io Proof_IntoRs.

Lemma not_suppressed : forall T (f : proc -> outcome T * proc) p, with_suppressed false false f p = f p.
Proof. reflexivity. Qed.

Lemma restored : forall T so se (f : proc -> outcome T * proc) p r q, with_suppressed so se f p = (Ok r, q) ->
  (so = true -> p_out q = p_out p) /\ (se = true -> p_err q = p_err p).
Proof.
  intros T so se f p r q H. unfold with_suppressed, suppressed_output in H.
  destruct so, se; cbn in H; try (split; discriminate);
  destruct (p_out p) as [oo|] eqn:Eo, (p_err p) as [oe|] eqn:Ee; try discriminate;
  match type of H with context [f ?z] => destruct (f z) as [[v|k|k|] q'] end; try discriminate;
  injection H as <- <-; cbn; split; intros; try discriminate; congruence.
Qed.

Lemma restored_all : forall T so se (f : proc -> outcome T * proc) p r q, keeps_streams f ->
  with_suppressed so se f p = (Ok r, q) -> p_out q = p_out p /\ p_err q = p_err p.
Proof.
  intros T so se f p r q K H. unfold with_suppressed, suppressed_output in H.
  destruct so, se; cbn in H;
    [| | |pose proof (K p) as E; rewrite H in E; exact E];
    destruct (p_out p) as [oo|] eqn:Eo, (p_err p) as [oe|] eqn:Ee; try discriminate;
    match type of H with context [f ?z] => pose proof (K z) as E; destruct (f z) as [[v|k|k|] q'] end; try discriminate;
    injection H as <- <-; cbn in *; destruct E; split; congruence.
Qed.

Lemma not_restored : forall T so se (f : proc -> outcome T * proc) p e q, keeps_streams f ->
  p_out p <> None -> p_err p <> None -> so || se = true ->
  with_suppressed so se f p = (e, q) -> (forall r, e <> Ok r) ->
  p_out q = (if so then Some OFunction else p_out p) /\ p_err q = (if se then Some OFunction else p_err p).
Proof.
  intros T so se f p e q K Ho He Hs H Hn. unfold with_suppressed, suppressed_output in H.
  destruct so, se; cbn in H; try discriminate;
  destruct (p_out p) as [oo|] eqn:Eo, (p_err p) as [oe|] eqn:Ee; try congruence;
    match type of H with context [f ?z] => pose proof (K z) as E; destruct (f z) as [[v|k|k|] q'] end;
    injection H as <- <-; try (exfalso; eapply Hn; reflexivity); cbn in *; destruct E; split; congruence.
Qed.

Lemma same_result : forall T so se (f : proc -> outcome T * proc) p r q,
  with_suppressed so se f p = (Ok r, q) -> exists p' q', f p' = (Ok r, q') /\ p_log q = p_log q' /\ p_log p' = p_log p /\
    (so = false -> p_out p' = p_out p /\ p_out q = p_out q') /\ (se = false -> p_err p' = p_err p /\ p_err q = p_err q').
Proof.
  intros T so se f p r q H. unfold with_suppressed, suppressed_output in H.
  destruct so, se; cbn in H;
    [| | |exists p, q; now auto 10];
    destruct (p_out p) as [oo|] eqn:Eo, (p_err p) as [oe|] eqn:Ee; try discriminate;
    match type of H with context [f ?z] => destruct (f z) as [[v|k|k|] q'] eqn:E end; try discriminate;
    injection H as <- <-; eexists _, _; (split; [exact E|cbn; repeat split; auto; discriminate]).
Qed.

Lemma print_streams : forall l p, p_out (snd (py_prints l p)) = p_out p /\ p_err (snd (py_prints l p)) = p_err p.
Proof.
  induction l as [|[t s] l IH]; intros p; [split; reflexivity|]. cbn.
  assert (K : p_out (snd (py_print t s p)) = p_out p /\ p_err (snd (py_print t s p)) = p_err p).
  { unfold py_print, py_write. destruct t; [destruct (p_out p) as [[n| |]|] eqn:E|destruct (p_err p) as [[n| |]|] eqn:E]; cbn; auto. }
  destruct (py_print t s p) as [[a|k|k|] q]; cbn in K; auto. destruct (IH q), K. split; congruence.
Qed.

(** With both streams suppressed no text gets through. *)
Lemma prints_log : forall l p, (p_out p = Some OFunction \/ texts_to ToOut l = []) -> (p_err p = Some OFunction \/ texts_to ToErr l = []) ->
  p_log (snd (py_prints l p)) = p_log p.
Proof.
  induction l as [|[t s] l IH]; intros p Ho He; [reflexivity|]. cbn.
  destruct t; unfold py_print, py_write.
  - destruct Ho as [Ho|Ho]; [|discriminate]. now rewrite Ho.
  - destruct He as [He|He]; [|discriminate]. now rewrite He.
Qed.
Lemma prints_stop : forall l p t s, In (t, s) l -> (match t with ToOut => p_out p | ToErr => p_err p end = Some OFunction) ->
  exists k, fst (py_prints l p) = Err k.
Proof.
  induction l as [|[t s] l IH]; intros p t' s' Hin Hf; [easy|]. cbn.
  destruct (py_print t s p) as [r q] eqn:E. pose proof (print_streams [(t, s)] p) as K. cbn in K. rewrite E in K.
  assert (Hr : (exists v, r = Ok v) \/ exists k, r = Err k).
  { unfold py_print, py_write in E. destruct t; [destruct (p_out p) as [[n| |]|]|destruct (p_err p) as [[n| |]|]]; injection E as <- <-; eauto. }
  destruct Hr as [[v ->]|[k ->]]; [|eexists; reflexivity]. cbn in K.
  destruct Hin as [[= -> ->]|Hin].
  - unfold py_print, py_write in E. destruct t'; rewrite Hf in E; discriminate.
  - apply (IH q t' s' Hin). destruct K, t'; congruence.
Qed.

Definition all_sup : proc -> proc := fun p => set_err (Some OFunction) (set_out (Some OFunction) p).
Lemma nothing_leaks : forall l p r q, with_suppressed true true (py_prints l) p = (r, q) -> p_log q = p_log p.
Proof.
  intros l p r q H. unfold with_suppressed, suppressed_output in H. cbn [negb andb] in H.
  destruct (p_out p) as [oo|], (p_err p) as [oe|]; try (injection H as <- <-; reflexivity).
  pose proof (prints_log l (all_sup p) (or_introl eq_refl) (or_introl eq_refl)) as K. unfold all_sup in K.
  destruct (py_prints l _) as [[v|k|k|] q']; injection H as <- <-; cbn in *; exact K.
Qed.
Lemma print_fails : forall l p so se, p_out p <> None -> p_err p <> None ->
  (so = true /\ texts_to ToOut l <> []) \/ (se = true /\ texts_to ToErr l <> []) ->
  exists k, fst (with_suppressed so se (py_prints l) p) = Err k.
Proof.
  intros l p so se Ho He H.
  assert (Hl : exists t s, In (t, s) l /\ match t with ToOut => so | ToErr => se end = true).
  { destruct H as [[-> H]|[-> H]]; unfold texts_to in H.
    - destruct (filter _ l) as [|[t s] r] eqn:E; [easy|]. assert (K : In (t, s) ((t, s) :: r)) by now left.
      rewrite <- E in K. apply filter_In in K. destruct K as [K1 K2], t; [|discriminate]. exists ToOut, s. auto.
    - destruct (filter _ l) as [|[t s] r] eqn:E; [easy|]. assert (K : In (t, s) ((t, s) :: r)) by now left.
      rewrite <- E in K. apply filter_In in K. destruct K as [K1 K2], t; [discriminate|]. exists ToErr, s. auto. }
  destruct Hl as (t & s & Hin & Ht). unfold with_suppressed, suppressed_output.
  replace (negb so && negb se) with false by (destruct t; rewrite Ht; now destruct so).
  destruct (p_out p) as [oo|]; [|easy]. destruct (p_err p) as [oe|]; [|easy].
  set (p2 := if se then _ else _).
  destruct (prints_stop l p2 t s Hin) as [k Hk]; [subst p2; destruct t; rewrite Ht; [destruct se|]; reflexivity|].
  destruct (py_prints l p2) as [r q]. cbn in Hk. subst r. exists k. reflexivity.
Qed.

(** ** Entry points *)
Lemma build_events : forall x numpy fuel h c out r ev, cg_build x numpy fuel h c out = (r, ev) ->
  (ev = [] /\ (forall t, cg_generate x numpy fuel c <> Ok t) /\ (forall v, r <> Ok v)) \/
  (exists toks, cg_generate x numpy fuel c = Ok toks /\ ev = [EvWrite out (h_show h toks)] /\
     r = if h_ok h (EvWrite out (h_show h toks)) then Ok tt else Err EIo).
Proof.
  intros x numpy fuel h c out r ev H. unfold cg_build in H.
  destruct (cg_generate x numpy fuel c) as [t|k|k|].
  - right. exists t. injection H as <- <-. auto.
  - left. injection H as <- <-. repeat split; discriminate.
  - left. injection H as <- <-. repeat split; discriminate.
  - left. injection H as <- <-. repeat split; discriminate.
Qed.

Lemma cli_asks : forall x fuel names c c', cli_modules x fuel names c = Ok c' <-> asks x fuel (map AddName names) c = Ok c'.
Proof.
  intros x fuel. induction names as [|n r IH]; intros c c'; [reflexivity|]. cbn [cli_modules map asks ask].
  destruct (cg_module_name x fuel n c) as [d|k|k|]; cbn [or_panic obind]; [apply IH| | |]; split; discriminate.
Qed.
Lemma or_panic_ok : forall A (m : outcome A) a, or_panic m = Ok a <-> m = Ok a.
Proof. intros A [b|k|k|] a; cbn; split; congruence. Qed.
Lemma cli_library : forall x numpy fuel names toks, cli_bindings x numpy fuel names = Ok toks <->
  exists c, asks x fuel (map AddName names) cg_new = Ok c /\ cg_generate x numpy fuel c = Ok toks.
Proof.
  intros x numpy fuel names toks. unfold cli_bindings. split.
  - destruct (cli_modules x fuel names cg_new) as [c|k|k|] eqn:E; try discriminate. cbn [obind]. intros H. exists c.
    split; [now apply cli_asks|now apply or_panic_ok].
  - intros (c & E & G). apply cli_asks in E. rewrite E. cbn [obind]. now apply or_panic_ok.
Qed.
Lemma macro_library : forall x numpy fuel name toks, macro_import x numpy fuel name = Ok toks <->
  exists c, asks x fuel [AddName name] cg_new = Ok c /\ cg_generate x numpy fuel c = Ok toks.
Proof.
  intros. rewrite <- (cli_library x numpy fuel [name] toks). unfold macro_import, cli_bindings. cbn [cli_modules].
  destruct (cg_module_name x fuel name cg_new) as [c|k|k|]; cbn [or_panic obind]; reflexivity.
Qed.

Lemma cli_events : forall x numpy fuel h names out r ev, cli_main x numpy fuel h names out = (r, ev) ->
  (ev = [] /\ r <> Ok tt /\ forall c toks, asks x fuel (map AddName names) cg_new = Ok c -> cg_generate x numpy fuel c = Ok toks ->
     h_pretty h toks = None) \/
  (exists c toks text, asks x fuel (map AddName names) cg_new = Ok c /\ cg_generate x numpy fuel c = Ok toks /\ h_pretty h toks = Some text /\
     match out with
     | None => ev = [EvStdout text]
     | Some p => match h_parent h p with
                 | None => ev = [EvWrite p text]
                 | Some d => ev = [EvMkdir d; EvWrite p text] \/ (ev = [EvMkdir d] /\ h_ok h (EvMkdir d) = false)
                 end
     end /\
     (r = Ok tt <-> forall e, In e ev -> h_ok h e = true)).
Proof.
  intros x numpy fuel h names out r ev H. unfold cli_main in H.
  pose proof (cli_library x numpy fuel names) as L.
  destruct (cli_bindings x numpy fuel names) as [toks|k|k|] eqn:E; cbn [obind] in H;
    try (left; injection H as <- <-; split; [reflexivity|split; [discriminate|intros c t A B; assert (K : exists c, asks x fuel (map AddName names) cg_new = Ok c /\ cg_generate x numpy fuel c = Ok t) by eauto; apply L in K; discriminate]]).
  destruct (proj1 (L toks) eq_refl) as (c & A & G).
  destruct (h_pretty h toks) as [text|] eqn:Ep; cbn [unwrap] in H.
  2: { left. injection H as <- <-. split; [reflexivity|]. split; [discriminate|]. intros c' t A' G'. congruence. }
  right. exists c, toks, text. split; [exact A|]. split; [exact G|]. split; [exact Ep|].
  unfold cli_output, perform in H. destruct out as [p|].
  - destruct (h_parent h p) as [d|] eqn:Ed.
    + destruct (h_ok h (EvMkdir d)) eqn:Ek; injection H as <- <-.
      * split; [now left|]. cbn [In app]. destruct (h_ok h (EvWrite p text)) eqn:Ew; split; try discriminate; try easy.
        -- intros _ e [<-|[<-|[]]]; assumption.
        -- intros K. specialize (K _ (or_intror (or_introl eq_refl))). congruence.
      * split; [now right|]. split; [discriminate|]. intros K. specialize (K _ (or_introl eq_refl)). congruence.
    + injection H as <- <-. split; [reflexivity|]. destruct (h_ok h (EvWrite p text)) eqn:Ew; split; try discriminate; try easy.
      * intros _ e [<-|[]]; assumption.
      * intros K. specialize (K _ (or_introl eq_refl)). congruence.
  - injection H as <- <-. split; [reflexivity|]. destruct (h_ok h (EvStdout text)) eqn:Ew; split; try discriminate; try easy.
    + intros _ e [<-|[]]; assumption.
    + intros K. specialize (K _ (or_introl eq_refl)). congruence.
Qed.
