(** * Proofs about calls from Rust with values (C77) *)
From Coq Require Import ZArith.
From Verif Require Import Base Model_Ident Model_Path Model_Text Model_Config Model_Type Model_IntoRs Model_World Model_Out Model_Function Model_Property Model_Class Model_Module Model_Parse
  Spec_Path Spec_Names Spec_Call Spec_Prop Spec_Acts Spec_Rust Spec_Value Spec_Keep
  Proof_Base Proof_Ident Proof_IntoRs Proof_Value Proof_Setget Proof_Call Proof_Function Proof_Method Proof_Kind Proof_Getter Proof_Parts Proof_Acts Proof_Argument.

(** ** Annotations *)
Lemma params_kept : forall e o name typ sg s f, uni_ok (e_uni e) -> w_signature (e_world e) o = Some sg -> describes sg s -> names_ok (e_uni e) s ->
  no_name "_" s -> no_name "self" s -> fn_parse e o name typ = Ok f -> has_receiver (fn_typ f) = false -> mapM (read_param e) (sig_params sg) = Ok (fn_params f).
Proof.
  intros e o name typ sg s f HU Hs Hd Hn Hu Ht H Hr.
  destruct (fn_parse_inv e o name typ sg f H Hs) as (ps0 & t1 & ps3 & Hm & Hi & Hdr & _ & Htyp & Hpar & _).
  assert (HR := read_params e _ s ps0 Hd Hm). rewrite (no_underscore_filter (e_uni e) s) in * by easy. rewrite Hpar. rewrite Htyp in Hr.
  assert (Eg : guard_self ps0 = ps0) by (apply guard_self_no; now apply (no_self_params (e_uni e) s)).
  assert (Ef : first_is_self ps0 = false).
  { assert (X := no_self_params (e_uni e) s ps0 HU Hn Ht HR). destruct ps0; [reflexivity|]. cbn [existsb] in X. apply Bool.orb_false_iff in X. exact (proj1 X). }
  assert (Einf : infer_self t1 ps0 = (t1, ps0)).
  { destruct t1 as [|cp m|]; cbn [infer_self]; rewrite ?Ef; [now destruct ps0|now destruct m|now destruct ps0]. }
  rewrite Einf in Hdr, Hr. cbn [fst snd] in Hdr, Hr. assert (E3 : ps3 = ps0) by (destruct t1 as [|cp m|]; [|destruct m, ps0|]; cbn in Hdr, Hr; congruence).
  subst ps3. now rewrite Eg.
Qed.
Lemma params_after : forall e o name typ sg r s f, uni_ok (e_uni e) -> w_signature (e_world e) o = Some sg -> describes sg (r :: s) -> names_ok (e_uni e) (r :: s) ->
  no_name "_" (r :: s) -> no_name "self" s -> fn_parse e o name typ = Ok f -> has_receiver (fn_typ f) = true ->
  mapM (read_param e) (tl (sig_params sg)) = Ok (fn_params f).
Proof.
  intros e o name typ sg r s f HU Hs Hd Hn Hu Ht H Hr.
  destruct (fn_parse_inv e o name typ sg f H Hs) as (ps0 & t1 & ps3 & Hm & Hi & Hdr & _ & Htyp & Hpar & _).
  assert (HR := read_params e _ _ ps0 Hd Hm). rewrite (no_underscore_filter (e_uni e) (r :: s)) in * by easy. rewrite Hpar. rewrite Htyp in Hr.
  assert (Esnd : snd (infer_self t1 ps0) = ps0).
  { destruct t1 as [|cp m|].
    - exfalso. cbn [infer_self] in Hr. destruct ps0; [easy|]. destruct (first_is_self _); [|easy]. destruct (p_kind _); easy.
    - cbn [infer_self]. destruct m; try easy; now destruct (first_is_self ps0).
    - exfalso. cbn [infer_self] in Hr. destruct ps0; [easy|]. destruct (first_is_self _); [|easy]. destruct (p_kind _); easy. }
  rewrite Esnd in Hdr, Hr.
  destruct (fix_empty name (fst (infer_self t1 ps0)) ps0) as [|cp m|]; try easy.
  assert (E : match ps0 with [] => False | _ :: r => ps3 = r end).
  { destruct m; try easy; cbn [drop_receiver] in Hdr; destruct ps0; congruence. }
  inversion HR as [|pp q s' ps' Hq HR' E1 E2]; subst. cbn in E. subst ps3.
  rewrite guard_self_no by (apply (no_self_params (e_uni e) s); [exact HU|intros z Hz; apply Hn; now right|exact Ht|exact HR']).
  unfold describes in Hd. inversion Hd as [|sp pp sps s'' _ _ E1 E2]; subst. rewrite <- E1 in Hm. cbn [tl mapM] in *.
  apply bind_Ok in Hm as (p0 & _ & Hm). apply bind_Ok in Hm as (l0 & Hl & Hm). injection Hm as _ <-. exact Hl.
Qed.
Lemma annotations_read : forall e sps ps, mapM (read_param e) sps = Ok ps ->
  Forall2 (fun sp t => sp_kind sp <> 2%N -> sp_kind sp <> 4%N -> read_ann (e_dbg e) (sp_ann sp) = Ok t) sps (map p_ann ps).
Proof.
  intros e sps. induction sps as [|sp sps IH]; intros ps H; [injection H as <-; constructor|]. cbn [mapM] in H.
  apply bind_Ok in H as (p & Hp & H). apply bind_Ok in H as (r & Hr & H). injection H as <-. cbn [map]. constructor; [|now apply IH].
  intros K2 K4. destruct (read_param_inv _ _ _ Hp) as (_ & Ek & Ea).
  destruct (p_kind p); try exact Ea; exfalso; unfold pkind_of_u8 in Ek; destruct (sp_kind sp) as [|[[|[|[]|]|]|[|[|[]|]|]|]]; try discriminate Ek; easy.
Qed.

(** ** Values *)
(** What is made of one argument *)
Definition made (round : Z -> option N) (k : pkind) (t : ptype) (pr : prep) (r : rv) : Prop :=
  match k with VarPositional => exists l, passed pr r = VTuple l | VarKeyword => exists l, passed pr r = VDict l | _ => conforms t (passed pr r) end /\
  (solid r -> (pr = PrepOptDict -> r <> ValOption None) -> stands round r (passed pr r)).
Lemma kind_kept : forall sp pp k, sp_kind sp = kind_number (pp_kind pp) -> pkind_of_u8 (sp_kind sp) = Ok k -> k = pp_kind pp.
Proof. intros sp pp k E H. rewrite E in H. destruct (pp_kind pp); cbn in H; now injection H. Qed.
Lemma one_value : forall round e c sp pp p o b pr r, read_param e sp = Ok p -> sp_kind sp = kind_number (pp_kind pp) ->
  into_rs c (p_ann p) = Ok (o, b) -> preprocess_borrowed c (p_ann p) = Ok pr -> typed b r ->
  (plain_kind (pp_kind pp) = true -> fit (p_ann p) /\ vouched (p_ann p) r) -> made round (pp_kind pp) (p_ann p) pr r.
Proof.
  intros round e c sp pp p o b pr r Hr Hk Ht Hp Hty Hf. destruct (read_param_inv _ _ _ Hr) as (_ & Ek & Ea). apply (kind_kept sp pp) in Ek; [|exact Hk]. rewrite Ek in Ea. unfold made.
  destruct (pp_kind pp).
  3: { rewrite Ea in *. split; [|intros H1 H2; exact (passed_stands round c ann_args o b pr r eq_refl eq_refl Ht H2 Hty H1)].
       injection Ht as _ <-. injection Hp as <-. destruct Hty as (v & -> & Hv). cbn [passed give]. destruct v; try discriminate Hv; eauto; destruct k; discriminate Hv. }
  4: { rewrite Ea in *. split; [|intros H1 H2; exact (passed_stands round c ann_kwargs o b pr r eq_refl eq_refl Ht H2 Hty H1)].
       injection Ht as _ <-. injection Hp as <-. destruct Hty as [->|(x & -> & v & -> & Hv)]; cbn [passed give]; [eauto|]. destruct v; try discriminate Hv; eauto; destruct k; discriminate Hv. }
  all: destruct (Hf eq_refl) as [[F1 F2] V]; (split; [exact (passed_conforms c (p_ann p) o b pr r F1 F2 Ht Hp Hty V)|intros H1 H2; exact (passed_stands round c (p_ann p) o b pr r F1 F2 Ht H2 Hty H1)]).
Qed.
Lemma handed_values : forall round e c sps s ps tys preps rs, mapM (read_param e) sps = Ok ps ->
  Forall2 (fun sp p => sp_name sp = pp_name p /\ sp_kind sp = kind_number (pp_kind p) /\ sp_default sp = pp_default p) sps s ->
  mapM (fun p => into_rs_borrowed c (p_ann p)) ps = Ok tys -> mapM (fun p => preprocess_borrowed c (p_ann p)) ps = Ok preps ->
  Forall2 (fun p r => typed (snd p) r) (combine (map pid ps) tys) rs ->
  Forall2 (fun e r => plain_kind (pp_kind (fst e)) = true -> fit (snd e) /\ vouched (snd e) r) (combine s (map p_ann ps)) rs ->
  let prs := combine (map pid ps) preps in
  let vs := map (fun e => passed (snd (fst e)) (snd e)) (combine prs rs) in
  Forall2 (fun e v => match pp_kind (fst e) with VarPositional => exists l, v = VTuple l | VarKeyword => exists l, v = VDict l | _ => conforms (snd e) v end) (combine s (map p_ann ps)) vs /\
  length vs = length s /\ length s = length (map p_ann ps) /\
  (Forall solid rs -> Forall2 (fun p r => snd p = PrepOptDict -> r <> ValOption None) prs rs -> Forall2 (stands round) rs vs).
Proof.
  intros round e c sps s ps tys preps rs Hm Hd. revert ps tys preps rs Hm. induction Hd as [|sp pp sps s (_ & Hk & _) Hd IH]; intros ps tys preps rs Hm Ht Hp Hr Hf.
  - injection Hm as <-. injection Ht as <-. injection Hp as <-. inversion Hr; subst. cbn. repeat split; constructor.
  - cbn [mapM] in Hm. apply bind_Ok in Hm as (p & Hp1 & Hm). apply bind_Ok in Hm as (ps' & Hm' & Hm). injection Hm as <-.
    cbn [mapM] in Ht, Hp. apply bind_Ok in Ht as (b & Eb & Ht). apply bind_Ok in Ht as (bs & Ebs & Ht). injection Ht as <-.
    apply bind_Ok in Hp as (d & Ed & Hp). apply bind_Ok in Hp as (ds & Eds & Hp). injection Hp as <-. cbn [map combine] in *.
    inversion Hr as [|? r ? rs' Hr1 Hr']; subst. cbn [snd] in Hr1. inversion Hf as [|? ? ? ? Hf1 Hf']; subst. cbn [fst snd] in Hf1. cbn [combine map fst snd].
    destruct (IH ps' bs ds rs' Hm' Ebs Eds Hr' Hf') as (C & L & L' & S0). unfold into_rs_borrowed, omap in Eb. apply bind_Ok in Eb as ([o b'] & Eb & E). injection E as <-.
    destruct (one_value round e c sp pp p o _ d r Hp1 Hk Eb Ed Hr1 Hf1) as [M1 M2].
    split; [constructor; [cbn [fst snd]; exact M1|exact C]|]. split; [cbn [length]; f_equal; exact L|]. split; [cbn [length]; f_equal; exact L'|].
    intros D N. inversion D as [|? ? D1 D']; subst. inversion N as [|? ? ? ? N1 N']; subst. constructor; [exact (M2 D1 N1)|exact (S0 D' N')].
Qed.
(** What the parameters are bound to is what the function is entitled to. *)
Lemma shape_left : forall (s : list pyparam) (ts : list ptype) vs (Q : pyparam -> ptype -> pyv -> Prop), Forall2 (fun e v => Q (fst e) (snd e) v) (combine s ts) vs -> length s = length ts ->
  forall R : pyparam -> pyv -> Prop, (forall p t v, Q p t v -> R p v) -> Forall2 R s vs.
Proof.
  intros s. induction s as [|p s IH]; intros [|t ts] vs Q H L R HR; try discriminate L; cbn [combine] in H; inversion H as [|? v ? vs' H1 H']; subst; constructor.
  - exact (HR p t v H1).
  - apply (IH ts vs' Q H'); [now injection L|exact HR].
Qed.
Lemma all_entitled : forall (own : bound pyv -> Prop) s ts vs args,
  Forall2 (fun e v => match pp_kind (fst e) with VarPositional => exists l, v = VTuple l | VarKeyword => exists l, v = VDict l | _ => conforms (snd e) v end) (combine s ts) vs ->
  length s = length ts -> Forall2 (fun e a => spread (pp_kind (fst e)) (snd e) = Some a) (combine s vs) args ->
  (forall p a, In (p, a) (combine s args) -> plain_kind (pp_kind p) = false -> own (meant a)) -> each_entitled own s ts (map meant args).
Proof.
  intros own s. unfold each_entitled. induction s as [|p s IH]; intros [|t ts] vs args H L Ha Ho; try discriminate L; cbn [combine] in *.
  - inversion H; subst. inversion Ha; subst. constructor.
  - inversion H as [|? v ? vs' H1 H']; subst. cbn [combine] in Ha. inversion Ha as [|? a ? args' Ha1 Ha']; subst. cbn [fst snd] in *. cbn [map]. constructor.
    + cbn [fst snd]. assert (K := Ho p a (or_introl eq_refl)). unfold entitled, spread in *. destruct (pp_kind p).
      * injection Ha1 as <-. exact H1.
      * injection Ha1 as <-. exact H1.
      * destruct v; try discriminate Ha1. injection Ha1 as <-. now apply K.
      * injection Ha1 as <-. exact H1.
      * destruct v; try discriminate Ha1. destruct (keywords _); [|discriminate Ha1]. injection Ha1 as <-. now apply K.
    + apply (IH ts vs' args' H'); [now injection L|exact Ha'|]. intros q z Hq. apply Ho. now right.
Qed.
Lemma result_back : forall round g scope f impl d ty v, fn_generate g scope f = Ok impl -> In (GFn d) (frags_of impl) ->
  k_ret (f_contract d) = RetType ty -> conforms (fn_ret f) v -> no_arrays (cx_numpy (g_cx g)) (fn_ret f) -> sound (fn_ret f) -> small round v ->
  exists r, extract round ty v = Some r /\ stands round r v.
Proof.
  intros round g scope f impl d ty v Hg Hin Hk Hv H1 (H2 & H3 & H4 & H5) Hsm. destruct (result_type _ _ _ _ _ Hg Hin) as (rt & Et & Er). rewrite Hk in Er. assert (rt = ty) as ->.
  { destruct (match fn_typ f with FMethod _ MConstructor => true | _ => false end); [discriminate Er|now injection Er]. }
  apply owned_of in Et as (b & Et). exact (arrives_as round _ _ _ _ _ H1 H2 H3 H4 H5 Hv Hsm Et).
Qed.

(** ** Calls *)
Lemma is_callable : forall round e g scope f impl d sg front selfs s, fn_generate g scope f = Ok impl -> In (GFn d) (frags_of impl) ->
  mapM (read_param e) (skipn (length front) (sig_params sg)) = Ok (fn_params f) -> read_ann (e_dbg e) (sig_return sg) = Ok (fn_ret f) -> describes sg (front ++ s) ->
  (forall args, Forall2 (suits (front ++ s)) s args -> exists pos kw, python_call d args = Some (pos, kw) /\
     bind_args (front ++ s) (selfs ++ pos) kw = Some (combine (map pp_name (front ++ s)) (map BOne selfs ++ map meant args))) ->
  callable round (cx_numpy (g_cx g)) (e_dbg e) d sg front selfs s.
Proof.
  intros round e g scope f impl d sg front selfs s Hg Hin Hps Ha Hd Hb. exists (map p_ann (fn_params f)), (fn_ret f). split; [exact (annotations_read _ _ _ Hps)|]. split; [exact Ha|]. intros rs Hw Hf.
  destruct (fn_generate_inv _ _ _ _ _ Hg Hin) as (nm & id & preps & tys & rt & public & dd & pos & kw & _ & _ & Hpreps & Htys & _ & _ & Hk & _ & _ & _ & _ & Hprep & _).
  apply contract_params in Hk. unfold well_typed in Hw. rewrite Hk in Hw.
  assert (Hd' : Forall2 (fun sp p => sp_name sp = pp_name p /\ sp_kind sp = kind_number (pp_kind p) /\ sp_default sp = pp_default p) (skipn (length front) (sig_params sg)) s).
  { unfold describes in Hd. clear - Hd. revert Hd. generalize (sig_params sg) as l. induction front as [|q front IH]; intros l Hd; [exact Hd|]. inversion Hd; subst. cbn [length skipn]. now apply IH. }
  destruct (handed_values round e (g_cx g) _ s (fn_params f) tys preps rs Hps Hd' Htys Hpreps Hw Hf) as (C & L & L' & T). unfold nothing_replaced, handed. rewrite Hprep.
  set (vs := map (fun e => passed (snd (fst e)) (snd e)) (combine (combine (map pid (fn_params f)) preps) rs)) in *.
  split; [apply (shape_left s _ vs (fun p t v => match pp_kind p with VarPositional => exists l, v = VTuple l | VarKeyword => exists l, v = VDict l | _ => conforms t v end) C L'); intros p t v; now destruct (pp_kind p)|]. split; [exact T|]. intros args Hs Hsu. split; [exact (Hb args Hsu)|].
  intros own Ho. assert (E := all_entitled own s _ vs args C L' Hs Ho). split; [exact E|]. intros F v ty HF Hn Hso Ev Hsm Hr.
  exact (result_back round g scope f impl d ty v Hg Hin Hr (HF _ _ E Ev) Hn Hso Hsm).
Qed.
Lemma function_callable : forall round x g scope b n t f impl d sg s, uni_ok (pe_uni x) -> ordinary x b sg [] s ->
  fn_parse (pe_env x) b n t = Ok f -> has_receiver (fn_typ f) = false -> fn_generate g scope f = Ok impl -> In (GFn d) (frags_of impl) ->
  callable round (cx_numpy (g_cx g)) (pe_dbg x) d sg [] [] s.
Proof.
  intros round x g scope b n t f impl d sg s HU (Hs & Hd & Hok & Hn & Hu & Hus & Hself) Hp Hr Hg Hin. cbn [app] in *.
  destruct (fn_parse_inv _ _ _ _ _ _ Hp Hs) as (_ & _ & _ & _ & _ & _ & _ & _ & _ & Ha & _).
  refine (is_callable round (pe_env x) g scope f impl d sg [] [] s Hg Hin _ Ha Hd _); [exact (params_kept (pe_env x) b n t sg s f HU Hs Hd Hn Hu Hself Hp Hr)|].
  intros args Hsu. exact (function_binds (pe_env x) b n t sg s f g scope impl d args HU Hs Hd Hok Hn Hu Hus (tl_no _ _ Hself) (fun p Hp' E => False_ind _ (Hself p Hp' E)) Hp Hr Hg Hin Hsu).
Qed.
Lemma method_callable : forall round x g scope b n t f impl d sg sr s self, uni_ok (pe_uni x) -> ordinary x b sg [sr] s -> positional (pp_kind sr) = true ->
  fn_parse (pe_env x) b n t = Ok f -> has_receiver (fn_typ f) = true -> fn_generate g scope f = Ok impl -> In (GFn d) (frags_of impl) ->
  callable round (cx_numpy (g_cx g)) (pe_dbg x) d sg [sr] [self] s.
Proof.
  intros round x g scope b n t f impl d sg sr s self HU (Hs & Hd & Hok & Hn & Hu & Hus & Hself) Hpos Hp Hr Hg Hin. cbn [app] in *.
  destruct (fn_parse_inv _ _ _ _ _ _ Hp Hs) as (_ & _ & _ & _ & _ & _ & _ & _ & _ & Ha & _).
  refine (is_callable round (pe_env x) g scope f impl d sg [sr] [self] s Hg Hin _ Ha Hd _).
  - assert (E := params_after (pe_env x) b n t sg sr s f HU Hs Hd Hn Hu Hself Hp Hr). cbn [length skipn]. now destruct (sig_params sg).
  - intros args Hsu. exact (method_binds (pe_env x) b n t sg sr s f g scope impl d self args HU Hs Hd Hok Hn Hu Hus Hself Hpos Hp Hr Hg Hin Hsu).
Qed.

(** ** Accessors *)
Lemma accessor_accesses : forall round g scope p impl d, prop_generate g scope p = Ok impl -> In (GFn d) (frags_of impl) -> accesses round (cx_numpy (g_cx g)) d (pr_ann p).
Proof.
  intros round g scope p impl d H Hin. unfold prop_generate in H. apply bind_Ok in H as ([gt gi] & Hgg & H). apply bind_Ok in H as ([st si] & Hss & H).
  assert (K : In (GFn d) gi \/ pr_mutable p = true /\ In (GFn d) si).
  { destruct (pr_owner p); injection H as <-; cbn [frags_of] in Hin.
    - destruct Hin as [Hin|Hin]; [discriminate|]. apply in_app_or in Hin as [Hin|Hin]; [now left|]. destruct (pr_mutable p); [|destruct Hin]. destruct Hin as [Hin|Hin]; [discriminate|]. now right.
    - apply in_app_or in Hin as [Hin|Hin]; [now left|]. destruct (pr_mutable p); [now right|]. injection Hss as _ <-. destruct Hin. }
  clear H Hin. unfold accesses. destruct K as [K|[Em K]].
  - apply getter_shape in Hgg as (nm & id & _ & _ & Hg). destruct id as [id|]; [|now destruct Hg as [_ ->]].
    destruct Hg as (docs & d' & ty & Hd & _ & Hb & Hpar & Hty & Hret & _ & _ & _ & ->). apply in_app_or in K as [K|[K|[]]]; [destruct (doc_only _ _ _ Hd _ K); discriminate|].
    injection K as ->. rewrite Hb. split; [exact Hpar|]. exists ty. split; [exact Hret|]. intros H1 (H2 & H3 & H4 & H5) v Hv Hsm. apply owned_of in Hty as (b & Et).
    exact (arrives_as round _ _ _ _ _ H1 H2 H3 H4 H5 Hv Hsm Et).
  - rewrite Em in Hss. pose proof Hss as Hss'. apply setter_shape in Hss' as (nm & id & _ & _ & Hs). destruct id as [id|]; [|now destruct Hs as [_ ->]].
    destruct Hs as (docs & d' & ty & Hd & _ & Hb & _ & _ & _ & _ & _ & _ & El). rewrite El in K. apply in_app_or in K as [K|[K|[]]]; [destruct (doc_only _ _ _ Hd _ K); discriminate|].
    injection K as ->. assert (K : In (GFn d) si) by (rewrite El; apply in_or_app; right; now left).
    destruct (setter_made _ _ _ _ _ _ _ _ Hss K Hb) as (i & b & pr & _ & _ & Ht & Hk & Hpr & Hprep & _). rewrite Hb. exists b, pr. split; [exact Hk|]. split; [exact Hprep|].
    intros [F1 F2] r Hr. unfold into_rs_borrowed, omap in Ht. apply bind_Ok in Ht as ([o b'] & Ht & E). injection E as <-.
    split; [intros V; exact (passed_conforms _ _ _ _ _ _ F1 F2 Ht Hpr Hr V)|intros S0 N; exact (passed_stands round _ _ _ _ _ _ F1 F2 Ht N Hr S0)].
Qed.
Lemma kept_answering : forall round x numpy, uni_ok (pe_uni x) -> kept (answering round numpy x) x numpy.
Proof.
  intros round x numpy HU. constructor; cbn [answering du_fn du_bound du_var du_prop].
  - intros g scope b n t f impl d <- Hp Hr Hg Hin sg s Ho. exact (function_callable round x g scope b n t f impl d sg s HU Ho Hp Hr Hg Hin).
  - intros g scope b n t f impl d <- Hp Hr Hg Hin sg sr s self Ho Hpos. exact (method_callable round x g scope b n t f impl d sg sr s self HU Ho Hpos Hp Hr Hg Hin).
  - intros g scope b n p impl d <- Hp Hg Hin. exists (pr_ann p). split; [|exact (accessor_accesses round g scope p impl d Hg Hin)].
    unfold prop_parse in Hp. apply bind_Ok in Hp as (t & Ht & Hp). injection Hp as <-. exact Ht.
  - intros g scope b n p impl d <- Hp Hg Hin. exists (pr_ann p). split; [|exact (accessor_accesses round g scope p impl d Hg Hin)].
    destruct (parsed_ann _ _ _ _ Hp) as (_ & doc & Hr0). exact (getter_source _ _ _ _ Hr0).
Qed.
