From Verif Require Import Base Model_Ident Model_Path Model_Import Model_Text Model_Config Model_Type Model_IntoRs Model_World Model_Out Model_Function
  Spec_Path Spec_Names Spec_Call Proof_Base Proof_Ident Proof_Path Proof_Text Proof_Ann Proof_IntoRs Proof_Call Proof_Function Proof_Fresh.

(** ** Declared parameters *)
Lemma fst_combine : forall {A B} (l : list A) (r : list B), length l = length r -> map fst (combine l r) = l.
Proof. induction l as [|x l IH]; intros [|y r] H; try easy. cbn. f_equal. apply IH. now injection H. Qed.

Lemma declared_params : forall g scope f impl def, fn_generate g scope f = Ok impl -> In (GFn def) (frags_of impl) ->
  map fst (k_params (f_contract def)) = map pid (fn_params f) /\ map fst (f_prep def) = map pid (fn_params f).
Proof.
  intros g scope f impl def H Hin.
  destruct (fn_generate_inv _ _ _ _ _ H Hin) as (name & id & preps & tys & rt & public & d & pos & kw & _ & _ & Hpreps & Htys & _ & _ & Hk & _ & _ & _ & _ & Hprep & _).
  apply contract_params in Hk. rewrite Hk, Hprep. apply mapM_length in Hpreps, Htys.
  split; apply fst_combine; rewrite map_length; congruence.
Qed.

Lemma kept_pids : forall U s ps, Forall2 (kept_as U) s ps -> map pid ps = map (fun p => u "p_" ++ rust_name (pp_name p)) s.
Proof. intros U s ps H. induction H as [|pp p s ps [_ Hp] H IH]; [easy|]. cbn [map]. rewrite IH. unfold pid. now rewrite Hp. Qed.
Lemma kept_kinds : forall U s ps, Forall2 (kept_as U) s ps -> map p_kind ps = map pp_kind s.
Proof. intros U s ps H. induction H as [|pp p s ps [[Hp _] _] H IH]; [easy|]. cbn [map]. now rewrite IH, Hp. Qed.
Lemma rust_name_id : forall s, no_name "self" s -> map (fun p => u "p_" ++ rust_name (pp_name p)) s = map (fun p => u "p_" ++ pp_name p) s.
Proof.
  intros s H. apply map_ext_in. intros p Hp. unfold rust_name. destruct (str_eqb (pp_name p) (u "self")) eqn:E; [|easy].
  apply str_eqb_eq in E. exfalso. now apply (H p Hp).
Qed.

Lemma receiver_dropped : forall e o name typ sg s f g scope impl def, uni_ok (e_uni e) ->
  w_signature (e_world e) o = Some sg -> describes sg s -> names_ok (e_uni e) s -> no_name "_" s -> no_name "self" (tl s) ->
  fn_parse e o name typ = Ok f -> has_receiver (fn_typ f) = true ->
  fn_generate g scope f = Ok impl -> In (GFn def) (frags_of impl) ->
  exists r s', s = r :: s' /\ map fst (k_params (f_contract def)) = map (fun p => u "p_" ++ pp_name p) s'.
Proof.
  intros e o name typ sg s f g scope impl def HU Hs Hd Hn Hu Ht Hp Hr Hg Hin.
  destruct (parse_receiver e o name typ sg s f HU Hs Hd Hn Hu Ht Hp Hr) as (r & s' & -> & Hk).
  exists r, s'. split; [easy|]. destruct (declared_params _ _ _ _ _ Hg Hin) as [-> _]. rewrite (kept_pids _ _ _ Hk). now apply rust_name_id.
Qed.
Lemma nothing_dropped : forall e o name typ sg s f g scope impl def, uni_ok (e_uni e) ->
  w_signature (e_world e) o = Some sg -> describes sg s -> names_ok (e_uni e) s -> no_name "_" s -> no_name "self" s ->
  fn_parse e o name typ = Ok f -> has_receiver (fn_typ f) = false ->
  fn_generate g scope f = Ok impl -> In (GFn def) (frags_of impl) ->
  map fst (k_params (f_contract def)) = map (fun p => u "p_" ++ pp_name p) s.
Proof.
  intros e o name typ sg s f g scope impl def HU Hs Hd Hn Hu Ht Hp Hr Hg Hin.
  assert (Hk : Forall2 (kept_as (e_uni e)) s (fn_params f)).
  { apply (parse_no_receiver e o name typ sg s f); try easy.
    - intros p Hp'. apply Ht. destruct s; [easy|now right].
    - intros p Hp' Hc. exfalso. now apply (Ht p Hp'). }
  destruct (declared_params _ _ _ _ _ Hg Hin) as [-> _]. rewrite (kept_pids _ _ _ Hk). now apply rust_name_id.
Qed.

(** ** The calls of the property theorems *)
Lemma tl_no : forall n s, no_name n s -> no_name n (tl s).
Proof. intros n [|p s] H; [easy|]. intros q Hq. apply H. now right. Qed.

Lemma function_binds : forall {V} e o name typ sg s f g scope impl def (l : list (rarg V)), uni_ok (e_uni e) ->
  w_signature (e_world e) o = Some sg -> describes sg s -> sig_ok s -> names_ok (e_uni e) s ->
  no_name "_" s -> no_name "__unknown_self__" s ->
  no_name "self" (tl s) -> (forall p, In p s -> pp_name p = u "self" -> positional (pp_kind p) = true) ->
  fn_parse e o name typ = Ok f -> has_receiver (fn_typ f) = false ->
  fn_generate g scope f = Ok impl -> In (GFn def) (frags_of impl) ->
  Forall2 (suits s) s l ->
  exists pos kw, python_call def l = Some (pos, kw) /\ bind_args s pos kw = Some (combine (map pp_name s) (map meant l)).
Proof.
  intros V e o name typ sg s f g scope impl def l HU Hs Hd Hok Hn Hu Hus Ht Hself Hp Hr Hg Hin Hl.
  assert (Hk := parse_no_receiver e o name typ sg s f HU Hs Hd Hn Hu Ht Hself Hp Hr).
  apply (call_binds g (e_uni e) scope f impl def [] s l Hg Hin Hk); try easy.
  intros p Hp' Hko Hc. assert (H := Hself p Hp' Hc). now rewrite Hko in H.
Qed.

Lemma method_binds : forall {V} e o name typ sg r s f g scope impl def (v : V) (l : list (rarg V)), uni_ok (e_uni e) ->
  w_signature (e_world e) o = Some sg -> describes sg (r :: s) -> sig_ok (r :: s) -> names_ok (e_uni e) (r :: s) ->
  no_name "_" (r :: s) -> no_name "__unknown_self__" s -> no_name "self" s -> positional (pp_kind r) = true ->
  fn_parse e o name typ = Ok f -> has_receiver (fn_typ f) = true ->
  fn_generate g scope f = Ok impl -> In (GFn def) (frags_of impl) ->
  Forall2 (suits (r :: s)) s l ->
  exists pos kw, python_call def l = Some (pos, kw) /\
    bind_args (r :: s) (v :: pos) kw = Some ((pp_name r, BOne v) :: combine (map pp_name s) (map meant l)).
Proof.
  intros V e o name typ sg r s f g scope impl def v l HU Hs Hd Hok Hn Hu Hus Ht Hpos Hp Hr Hg Hin Hl.
  destruct (parse_receiver e o name typ sg (r :: s) f HU Hs Hd Hn Hu Ht Hp Hr) as (r' & s' & E & Hk). injection E as <- <-.
  apply (call_binds g (e_uni e) scope f impl def [(r, v)] s l Hg Hin Hk); try easy.
  - intros p Hp' _. now apply Ht.
  - intros p [<-|[]]. exact Hpos.
Qed.

(** ** Which variables the body uses *)
Lemma find_unique : forall k ps p, (k = VarPositional \/ k = VarKeyword) -> kinds_ordered (map p_kind ps) -> In p ps -> p_kind p = k ->
  find (fun p => pkind_eqb (p_kind p) k) ps = Some p.
Proof.
  intros k ps p Hk. induction ps as [|q ps IH]; intros Hord Hp Ep; [easy|]. cbn [find].
  destruct (pkind_eqb (p_kind q) k) eqn:E.
  - destruct Hp as [->|Hp]; [easy|]. exfalso. cbn [map] in Hord.
    assert (Eq : p_kind q = k) by (destruct (p_kind q), k; easy).
    destruct (ordered_ge _ _ (p_kind p) Hord (in_map p_kind _ _ Hp)) as [H|(_ & H1 & H2)].
    + rewrite Eq, Ep in H. lia.
    + rewrite Eq in H1, H2. tauto.
  - destruct Hp as [->|Hp]; [rewrite Ep in E; now destruct k|]. apply IH; [|easy|easy]. now apply ordered_tail in Hord.
Qed.
Lemma snd_combine : forall {A B} (l : list A) (r : list B), length l = length r -> map snd (combine l r) = r.
Proof. induction l as [|x l IH]; intros [|y r] H; try easy. cbn. f_equal. apply IH. now injection H. Qed.

Lemma gen_pos_vars : forall U ps h pa x, (forall p, In p ps -> syn_ident_ok U (pid p) = true) -> kinds_ordered (map p_kind ps) ->
  gen_pos U ps = Ok (h, pa) ->
  (In x (pos_vars pa) <-> exists p, In p ps /\ pid p = x /\ (positional (p_kind p) = true \/ p_kind p = VarPositional)) /\
  (h = false -> pos_vars pa = []).
Proof.
  intros U ps h pa x Hok Hord H. unfold gen_pos in H. apply bind_Ok in H as (fixed & Hf & H).
  apply param_idents_Ok in Hf as [-> _].
  assert (Hfix : In x (map pid (of_kinds [PositionalOnly; PositionalOrKeyword] ps)) <-> exists p, In p ps /\ pid p = x /\ positional (p_kind p) = true).
  { rewrite in_map_iff. unfold of_kinds. split; intros (p & H1 & H2).
    - apply filter_In in H2 as [H2 H3]. exists p. split; [easy|]. split; [easy|]. now destruct (p_kind p).
    - destruct H2 as [H2 H3]. exists p. split; [easy|]. apply filter_In. split; [easy|]. now destruct (p_kind p). }
  destruct (find (fun p => pkind_eqb (p_kind p) VarPositional) ps) as [v|] eqn:Ef.
  - apply find_some in Ef as [Hv Ek]. assert (Ekv : p_kind v = VarPositional) by (now destruct (p_kind v)).
    unfold param_ident_opt in H. rewrite param_ident_iff in H by now apply Hok.
    assert (Hx : (In x (map pid (of_kinds [PositionalOnly; PositionalOrKeyword] ps)) \/ pid v = x) <->
       exists p, In p ps /\ pid p = x /\ (positional (p_kind p) = true \/ p_kind p = VarPositional)).
    { rewrite Hfix. split.
      - intros [(p & ? & ? & ?)|E]; [exists p; tauto|exists v; tauto].
      - intros (p & Hp & Ep & [H1|H1]); [left; now exists p|right].
        assert (E1 := find_unique VarPositional ps p (or_introl eq_refl) Hord Hp H1).
        assert (E2 := find_unique VarPositional ps v (or_introl eq_refl) Hord Hv Ekv). congruence. }
    destruct (map pid _) as [|a r]; injection H as <- <-; (split; [|easy]); rewrite <- Hx; cbn [pos_vars].
    + cbn. tauto.
    + rewrite in_app_iff. cbn [In]. tauto.
  - assert (Hx : In x (map pid (of_kinds [PositionalOnly; PositionalOrKeyword] ps)) <->
       exists p, In p ps /\ pid p = x /\ (positional (p_kind p) = true \/ p_kind p = VarPositional)).
    { rewrite Hfix. split; intros (p & ? & ? & H1); exists p; [tauto|]. split; [easy|]. split; [easy|]. destruct H1 as [H1|H1]; [easy|].
      exfalso. assert (E := find_none _ _ Ef p H0). cbn in E. now rewrite H1 in E. }
    destruct (map pid _) as [|a r]; injection H as <- <-; now rewrite <- Hx.
Qed.

Lemma gen_kw_vars : forall U ps h ka x, (forall p, In p ps -> syn_ident_ok U (pid p) = true) -> kinds_ordered (map p_kind ps) ->
  gen_kw U ps = Ok (h, ka) ->
  (In x (kw_vars ka) <-> exists p, In p ps /\ pid p = x /\ (p_kind p = KeywordOnly \/ p_kind p = VarKeyword)) /\
  (h = false -> kw_vars ka = []).
Proof.
  intros U ps h ka x Hok Hord H. unfold gen_kw in H. apply bind_Ok in H as (ids & Hf & H).
  apply param_idents_Ok in Hf as [-> _].
  assert (Hfix : In x (map snd (combine (map (fun p => as_py (p_name p)) (of_kinds [KeywordOnly] ps)) (map pid (of_kinds [KeywordOnly] ps))))
                 <-> exists p, In p ps /\ pid p = x /\ p_kind p = KeywordOnly).
  { rewrite snd_combine by now rewrite !map_length. rewrite in_map_iff. unfold of_kinds. split; intros (p & H1 & H2).
    - apply filter_In in H2 as [H2 H3]. exists p. split; [easy|]. split; [easy|]. now destruct (p_kind p).
    - destruct H2 as [H2 H3]. exists p. split; [easy|]. apply filter_In. split; [easy|]. now rewrite H3. }
  destruct (find (fun p => pkind_eqb (p_kind p) VarKeyword) ps) as [v|] eqn:Ef.
  - apply find_some in Ef as [Hv Ek]. assert (Ekv : p_kind v = VarKeyword) by (now destruct (p_kind v)).
    unfold param_ident_opt in H. rewrite param_ident_iff in H by now apply Hok.
    match type of Hfix with In x (map snd ?l) <-> _ => set (pairs := l) in * end.
    assert (Hx : (pid v = x \/ In x (map snd pairs)) <->
       exists p, In p ps /\ pid p = x /\ (p_kind p = KeywordOnly \/ p_kind p = VarKeyword)).
    { rewrite Hfix. split.
      - intros [E|(p & ? & ? & ?)]; [exists v; tauto|exists p; tauto].
      - intros (p & Hp & Ep & [H1|H1]); [right; now exists p|left].
        assert (E1 := find_unique VarKeyword ps p (or_intror eq_refl) Hord Hp H1).
        assert (E2 := find_unique VarKeyword ps v (or_intror eq_refl) Hord Hv Ekv). congruence. }
    destruct pairs as [|a r]; injection H as <- <-; (split; [|easy]); rewrite <- Hx; cbn [kw_vars]; cbn; tauto.
  - match type of Hfix with In x (map snd ?l) <-> _ => set (pairs := l) in * end.
    assert (Hx : In x (map snd pairs) <->
       exists p, In p ps /\ pid p = x /\ (p_kind p = KeywordOnly \/ p_kind p = VarKeyword)).
    { rewrite Hfix. split; intros (p & ? & ? & H1); exists p; [tauto|]. split; [easy|]. split; [easy|]. destruct H1 as [H1|H1]; [easy|].
      exfalso. assert (E := find_none _ _ Ef p H0). cbn in E. now rewrite H1 in E. }
    destruct pairs as [|a r]; injection H as <- <-; now rewrite <- Hx.
Qed.

Lemma body_uses_declared : forall g scope f impl def x, kinds_ordered (map p_kind (fn_params f)) ->
  fn_generate g scope f = Ok impl -> In (GFn def) (frags_of impl) ->
  (In x (body_vars (f_body def)) <-> In x (map fst (k_params (f_contract def)))).
Proof.
  intros g scope f impl def x Hord H Hin. destruct (declared_params _ _ _ _ _ H Hin) as [-> _].
  destruct (fn_generate_inv _ _ _ _ _ H Hin) as (name & id & preps & tys & rt & public & d & [hp pa] & [hk ka] & _ & _ & _ & _ & _ & Hok & _ & _ & Hpos & Hkw & _ & _ & _ & Hbody).
  assert (Eb : body_vars (f_body def) = args_vars (gen_args (hp, pa) (hk, ka))).
  { rewrite Hbody. destruct (fn_typ f) as [|cp m|]; [easy|now destruct m|easy]. }
  rewrite Eb. destruct (gen_pos_vars _ _ _ _ x Hok Hord Hpos) as [Hp Hp0]. destruct (gen_kw_vars _ _ _ _ x Hok Hord Hkw) as [Hq Hq0].
  assert (E : In x (args_vars (gen_args (hp, pa) (hk, ka))) <-> In x (pos_vars pa) \/ In x (kw_vars ka)).
  { unfold gen_args. cbn [fst snd]. destruct hk; [cbn [args_vars]; apply in_app_iff|]. rewrite (Hq0 eq_refl).
    destruct hp; cbn [args_vars]; [cbn; tauto|]. rewrite (Hp0 eq_refl). cbn. tauto. }
  rewrite E, Hp, Hq, in_map_iff. split.
  - intros [(p & ? & ? & _)|(p & ? & ? & _)]; exists p; easy.
  - intros (p & Ep & Hpp). destruct (p_kind p) eqn:Ek; [left|left|left|right|right]; exists p; rewrite Ek; tauto.
Qed.

(** Only parameters are passed on, in whatever order they come. *)
Lemma body_declared : forall g scope f impl def, fn_generate g scope f = Ok impl -> In (GFn def) (frags_of impl) ->
  forall x, In x (body_vars (f_body def)) -> In x (map fst (k_params (f_contract def))).
Proof.
  intros g scope f impl def H Hin x Hx. destruct (declared_params _ _ _ _ _ H Hin) as [-> _].
  destruct (fn_generate_inv _ _ _ _ _ H Hin) as (name & id & preps & tys & rt & public & d & [hp pa] & [hk ka] & _ & _ & _ & _ & _ & _ & _ & _ & Hpos & Hkw & _ & _ & _ & Hbody).
  assert (Eb : body_vars (f_body def) = args_vars (gen_args (hp, pa) (hk, ka))).
  { rewrite Hbody. destruct (fn_typ f) as [|cp m|]; [easy|now destruct m|easy]. }
  rewrite Eb in Hx. assert (K : In x (pos_vars pa) \/ In x (kw_vars ka)).
  { unfold gen_args in Hx. cbn [fst snd] in Hx. destruct hk; [cbn [args_vars] in Hx; now apply in_app_or in Hx|]. destruct hp; [now left|destruct Hx]. }
  assert (I : forall ks, incl (map pid (of_kinds ks (fn_params f))) (map pid (fn_params f))) by (intros ks; apply incl_map, incl_filter).
  assert (V : forall k p v, find (fun p => pkind_eqb (p_kind p) k) (fn_params f) = Some p -> param_ident_opt (g_uni g) p = Some v -> In v (map pid (fn_params f))).
  { intros k p v Ef Ev. unfold param_ident_opt in Ev. destruct (param_ident _ p) as [i| | |] eqn:Ei; try discriminate. injection Ev as <-. apply param_ident_Ok in Ei as [-> _]. apply in_map. now apply find_some in Ef. }
  clear Hx Eb Hbody. destruct K as [K|K].
  - unfold gen_pos in Hpos. apply bind_Ok in Hpos as (fixed & Hfix & Hpos). apply param_idents_Ok in Hfix as [-> _].
    destruct (find _ _) as [p|] eqn:Ef; [destruct (param_ident_opt _ p) as [v|] eqn:Ev|]; destruct (map pid (of_kinds _ (fn_params f))) as [|a r] eqn:Em; injection Hpos as <- <-; cbn [pos_vars] in K;
      try (now destruct K); try (apply in_app_or in K as [K|K]); try (apply (I [PositionalOnly; PositionalOrKeyword]); rewrite Em; exact K); destruct K as [<-|[]]; exact (V _ _ _ Ef Ev).
  - unfold gen_kw in Hkw. apply bind_Ok in Hkw as (ids & Hids & Hkw). apply param_idents_Ok in Hids as [-> _].
    set (pairs := combine _ _) in Hkw. assert (Ip : incl (map snd pairs) (map pid (fn_params f))).
    { intros y Hy. apply in_map_iff in Hy as ([a b] & <- & Hy). apply in_combine_r in Hy. exact (I _ _ Hy). }
    destruct (find _ _) as [p|] eqn:Ef; [destruct (param_ident_opt _ p) as [v|] eqn:Ev|]; destruct pairs as [|e r]; injection Hkw as <- <-; cbn [kw_vars] in K;
      try (now destruct K); try (destruct K as [<-|K]; [exact (V _ _ _ Ef Ev)|]); try (now destruct K); try (now apply Ip).
Qed.

(** ** Caller's dicts *)
Lemma mutated_spec : forall g scope f impl def, fn_generate g scope f = Ok impl -> In (GFn def) (frags_of impl) ->
  (mutated (f_body def) = [] <->
   ~ ((exists p, In p (fn_params f) /\ p_kind p = KeywordOnly) /\ (exists p, In p (fn_params f) /\ p_kind p = VarKeyword))).
Proof.
  intros g scope f impl def H Hin.
  destruct (fn_generate_inv _ _ _ _ _ H Hin) as (name & id & preps & tys & rt & public & d & [hp pa] & kw & _ & _ & _ & _ & _ & Hok & _ & _ & Hpos & Hkw & _ & _ & _ & Hbody).
  assert (Eb : body_args (f_body def) = Some (gen_args (hp, pa) kw)).
  { rewrite Hbody. destruct (fn_typ f) as [|cp m|]; [easy|now destruct m|easy]. }
  unfold mutated. rewrite Eb. clear Eb Hbody. unfold gen_kw in Hkw. apply bind_Ok in Hkw as (ids & Hids & Hkw).
  apply param_idents_Ok in Hids as [-> _].
  assert (Hko : (exists p, In p (fn_params f) /\ p_kind p = KeywordOnly) <->
    combine (map (fun p => as_py (p_name p)) (of_kinds [KeywordOnly] (fn_params f))) (map pid (of_kinds [KeywordOnly] (fn_params f))) <> []).
  { assert (Hof : (exists p, In p (fn_params f) /\ p_kind p = KeywordOnly) <-> of_kinds [KeywordOnly] (fn_params f) <> []).
    { unfold of_kinds. split.
      - intros (p & Hp & Ek) E. assert (Hi : In p []); [|easy]. rewrite <- E. apply filter_In. split; [easy|]. now rewrite Ek.
      - intros Hne. destruct (filter _ _) as [|p r] eqn:Ef; [easy|]. assert (Hi : In p (p :: r)) by now left. rewrite <- Ef in Hi.
        apply filter_In in Hi as [Hi Hk]. exists p. split; [easy|]. now destruct (p_kind p). }
    rewrite Hof. destruct (of_kinds [KeywordOnly] (fn_params f)); easy. }
  assert (Hvk : (exists p, In p (fn_params f) /\ p_kind p = VarKeyword) <->
    find (fun p => pkind_eqb (p_kind p) VarKeyword) (fn_params f) <> None).
  { split.
    - intros (p & Hp & Ek) E. assert (Hn := find_none _ _ E p Hp). cbn in Hn. now rewrite Ek in Hn.
    - destruct (find _ _) as [p|] eqn:E; [|easy]. intros _. apply find_some in E as [Hp Hk]. exists p. split; [easy|]. now destruct (p_kind p). }
  rewrite Hko, Hvk. destruct (find _ (fn_params f)) as [v|] eqn:Ef.
  - unfold param_ident_opt in Hkw. apply find_some in Ef as [Hv _]. rewrite param_ident_iff in Hkw by now apply Hok.
    destruct (combine _ _) as [|a r]; injection Hkw as <-; cbn; split; try easy; try (intros _ [? _]; easy). intros Hc. exfalso. apply Hc. now split.
  - destruct (combine _ _) as [|a r]; injection Hkw as <-; cbn; [destruct hp; cbn|]; split; try easy; intros _ [_ Hc]; easy.
Qed.
