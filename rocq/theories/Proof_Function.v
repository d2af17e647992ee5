From Verif Require Import Base Model_Ident Model_Path Model_Import Model_Text Model_Config Model_Type Model_IntoRs Model_World Model_Out Model_Function
  Spec_Path Spec_Call Proof_Base Proof_Ident Proof_Path Proof_IntoRs Proof_Call.


(** Kinds of methods that are called on an object. *)
Definition has_receiver (t : ftype) : bool :=
  match t with FMethod _ (MInstance | MConstructor | MCallable) => true | _ => false end.

(** ** Names *)
Lemma from_py_underscore : forall U n, uni_ok U -> py_identifier U n -> str_eqb (as_rs (ident_from_py U n)) r_underscore = str_eqb n (u "_").
Proof.
  intros U n HU Hn. apply eq_iff_eq_true. rewrite !str_eqb_eq. unfold as_rs. split; intros H.
  - rewrite <- (as_py_from_py U n (py_identifier_no_raw U n HU Hn)). now rewrite H.
  - subst n. unfold ident_from_py, py_to_rs. rewrite kw_not_ok; [easy|]. now left.
Qed.
Lemma from_py_self : forall U n, uni_ok U -> py_identifier U n -> str_eqb (as_rs (ident_from_py U n)) r_self = str_eqb n (u "self").
Proof.
  intros U n HU Hn. apply eq_iff_eq_true. rewrite !str_eqb_eq. unfold as_rs. split; intros H.
  - rewrite <- (as_py_from_py U n (py_identifier_no_raw U n HU Hn)). now rewrite H.
  - subst n. unfold ident_from_py, py_to_rs. rewrite kw_not_ok; [easy|]. cbn. tauto.
Qed.

(** ** Parsing *)
Definition rust_name (n : str) : str := if str_eqb n (u "self") then u "__unknown_self__" else n.

(** A parameter read from the signature, possibly renamed. *)
Definition same_kind (pp : pyparam) (p : param) : Prop :=
  p_kind p = pp_kind pp /\ p_default p = pp_default pp /\
  (p_kind p = VarPositional -> p_ann p = ann_args) /\ (p_kind p = VarKeyword -> p_ann p = ann_kwargs).
Definition read_as (U : uni) (pp : pyparam) (p : param) : Prop :=
  same_kind pp p /\ p_name p = ident_from_py U (pp_name pp).
Definition kept_as (U : uni) (pp : pyparam) (p : param) : Prop :=
  same_kind pp p /\ (as_py (p_name p) = rust_name (pp_name pp)).


Lemma kind_number_inv : forall k k', pkind_of_u8 (kind_number k) = Ok k' -> k' = k.
Proof. intros [] k' H; cbn in H; congruence. Qed.

Lemma read_params : forall e sps s ps, 
  Forall2 (fun sp p => sp_name sp = pp_name p /\ sp_kind sp = kind_number (pp_kind p) /\ sp_default sp = pp_default p) sps s ->
  mapM (read_param e) sps = Ok ps -> Forall2 (read_as (e_uni e)) s ps.
Proof.
  intros e sps s ps H. revert ps. induction H as [|sp pp sps s (Hn & Hk & Hd) H IH]; intros ps Hm; [injection Hm as <-; constructor|].
  cbn [mapM] in Hm. apply bind_Ok in Hm as (p & Hp & Hm). apply bind_Ok in Hm as (ps' & Hps & Hm). injection Hm as <-.
  constructor; [|now apply IH]. unfold read_param in Hp.
  apply bind_Ok in Hp as (nm & Hnm & Hp). apply bind_Ok in Hp as (kd & Hkd & Hp). apply bind_Ok in Hp as (an & Han & Hp).
  injection Hp as <-. rewrite Hk in Hkd. apply kind_number_inv in Hkd. subst kd.
  unfold read_as, same_kind. cbn. split; [|]. 2:{ unfold ident_from_py_chk in Hnm. rewrite Hn in Hnm. destruct (pp_name pp); [destruct (e_dbg e)|]; congruence. }
  split; [easy|]. split; [easy|]. split; intros E; rewrite E in Han; congruence.
Qed.

Lemma no_underscore_filter : forall U s ps, uni_ok U -> names_ok U s -> no_name "_" s -> Forall2 (read_as U) s ps ->
  filter (fun p => negb (str_eqb (as_rs (p_name p)) r_underscore)) ps = ps.
Proof.
  intros U s ps HU Hn Hu H. induction H as [|pp p s ps [_ Hp] H IH]; [easy|]. cbn [filter].
  rewrite Hp, from_py_underscore by (try easy; apply Hn; now left).
  destruct (str_eqb (pp_name pp) (u "_")) eqn:E; [apply str_eqb_eq in E; exfalso; apply (Hu pp); [now left|easy]|]. cbn [negb]. f_equal.
  apply IH; [intros q Hq; apply Hn; now right|intros q Hq; apply Hu; now right].
Qed.

Lemma read_kept : forall U s ps, uni_ok U -> names_ok U s -> no_name "self" s -> Forall2 (read_as U) s ps -> Forall2 (kept_as U) s ps.
Proof.
  intros U s ps HU Hn Hs H. induction H as [|pp p s ps [Hk Hp] H IH]; constructor.
  - split; [easy|]. rewrite Hp. rewrite as_py_from_py by (apply (py_identifier_no_raw U); [easy|apply Hn; now left]).
    unfold rust_name. destruct (str_eqb (pp_name pp) (u "self")) eqn:E; [|easy]. apply str_eqb_eq in E. exfalso. apply (Hs pp); [now left|easy].
  - apply IH; [intros q Hq; apply Hn; now right|intros q Hq; apply Hs; now right].
Qed.
Lemma no_self_params : forall U s ps, uni_ok U -> names_ok U s -> no_name "self" s -> Forall2 (read_as U) s ps ->
  existsb (fun p => str_eqb (as_rs (p_name p)) r_self) ps = false.
Proof.
  intros U s ps HU Hn Hs H. induction H as [|pp p s ps [_ Hp] H IH]; [easy|]. cbn [existsb].
  rewrite Hp, from_py_self by (try easy; apply Hn; now left).
  destruct (str_eqb (pp_name pp) (u "self")) eqn:E; [apply str_eqb_eq in E; exfalso; apply (Hs pp); [now left|easy]|].
  apply IH; [intros q Hq; apply Hn; now right|intros q Hq; apply Hs; now right].
Qed.

Lemma infer_storage_shape : forall w name t t', infer_storage w name t = Ok t' ->
  match t with
  | FMethod cp MUnknown => exists m, t' = FMethod cp m /\ (m = MInstance \/ m = MClass \/ m = MStatic)
  | _ => t' = t
  end.
Proof.
  intros w name t t' H. unfold infer_storage in H. destruct t as [|cp m|]; try (injection H as <-; easy).
  destruct m; try (injection H as <-; easy).
  apply bind_Ok in H as (root & _ & H). destruct (w_import w (to_py root)); [|injection H as <-; exists MStatic; tauto].
  apply bind_Ok in H as (nm & _ & H). injection H as <-. eexists; split; [reflexivity|].
  destruct (find_storage w cp root nm) as [[]|]; cbn; tauto.
Qed.

(** Parsing with a signature, unfolded. *)
Lemma fn_parse_inv : forall e o name typ sg f, fn_parse e o name typ = Ok f -> w_signature (e_world e) o = Some sg ->
  exists ps0 t1 ps3, mapM (read_param e) (sig_params sg) = Ok ps0 /\
    infer_storage (e_world e) name typ = Ok t1 /\
    let ps1 := filter (fun p => negb (str_eqb (as_rs (p_name p)) r_underscore)) ps0 in
    let t3 := fix_empty name (fst (infer_self t1 ps1)) (snd (infer_self t1 ps1)) in
    drop_receiver t3 (snd (infer_self t1 ps1)) = Ok ps3 /\
    fn_name f = name /\ fn_typ f = t3 /\ fn_params f = guard_self ps3 /\
    read_ann (e_dbg e) (sig_return sg) = Ok (fn_ret f) /\ read_docstring (e_world e) o = Ok (fn_doc f).
Proof.
  intros e o name typ sg f H Hs. unfold fn_parse in H. rewrite Hs in H.
  apply bind_Ok in H as (doc & Hd & H). apply bind_Ok in H as (ps0 & Hp & H). apply bind_Ok in H as (rt & Hr & H).
  apply bind_Ok in H as (t1 & Ht & H). destruct (infer_self t1 _) as [t2 ps2] eqn:E2.
  apply bind_Ok in H as (ps3 & Hps & H). injection H as <-. exists ps0, t1, ps3. split; [easy|]. split; [easy|].
  cbn zeta. rewrite E2. cbn [fst snd]. repeat split; easy.
Qed.

Lemma guard_self_no : forall ps, existsb (fun p => str_eqb (as_rs (p_name p)) r_self) ps = false -> guard_self ps = ps.
Proof. intros ps H. unfold guard_self. now rewrite H. Qed.

(** Functions, closures, class and static methods: every parameter is kept. *)
Lemma parse_no_receiver : forall e o name typ sg s f, uni_ok (e_uni e) ->
  w_signature (e_world e) o = Some sg -> describes sg s -> names_ok (e_uni e) s -> no_name "_" s ->
  no_name "self" (tl s) -> (forall p, In p s -> pp_name p = u "self" -> positional (pp_kind p) = true) ->
  fn_parse e o name typ = Ok f -> has_receiver (fn_typ f) = false ->
  Forall2 (kept_as (e_uni e)) s (fn_params f).
Proof.
  intros e o name typ sg s f HU Hs Hd Hn Hu Ht Hk H Hr.
  destruct (fn_parse_inv e o name typ sg f H Hs) as (ps0 & t1 & ps3 & Hm & Hi & Hdr & _ & Htyp & Hpar & _).
  assert (HR := read_params e _ s ps0 Hd Hm). rewrite (no_underscore_filter (e_uni e) s) in * by easy.
  rewrite Hpar. rewrite Htyp in Hr. clear Htyp Hpar H.
  assert (Hplain : no_name "self" s -> Forall2 (kept_as (e_uni e)) s (guard_self ps0)).
  { intros Hns. rewrite guard_self_no by (now apply (no_self_params (e_uni e) s)). now apply read_kept. }
  assert (Hfirst : first_is_self ps0 = false -> no_name "self" s).
  { intros Hf p Hp Hc. destruct HR as [|pp q s' ps' [_ Hq] HR]; [easy|]. cbn [first_is_self] in Hf.
    rewrite Hq, from_py_self in Hf by (try easy; apply Hn; now left).
    destruct Hp as [<-|Hp]; [rewrite Hc in Hf; easy|]. now apply (Ht p Hp). }
  destruct (first_is_self ps0) eqn:Ef.
  - destruct HR as [|pp q s' ps' [Hsk Hq] HR]; [easy|].
    assert (Eself : pp_name pp = u "self").
    { cbn [first_is_self] in Ef. rewrite Hq, from_py_self in Ef by (try easy; apply Hn; now left). now apply str_eqb_eq. }
    assert (Hpos := Hk pp (or_introl eq_refl) Eself). 
    destruct t1 as [|cp m|].
    + cbn [infer_self] in Hdr. rewrite Ef in Hdr. destruct Hsk as (Hk1 & Hk2 & Hk3). rewrite Hk1 in Hdr.
      assert (Hdr' : ps3 = mk_param (u "__unknown_self__") (pp_kind pp) TUnknown (p_default q) :: ps').
      { destruct (pp_kind pp); try easy; cbn [fst snd fix_empty drop_receiver] in Hdr; congruence. }
      subst ps3. rewrite guard_self_no.
      2:{ cbn [existsb]. apply (no_self_params (e_uni e) s'); [easy|intros z Hz; apply Hn; now right|exact Ht|exact HR]. }
      constructor.
      * split; [split; [easy|]; split; [easy|]; cbn; split; intros E; rewrite E in Hpos; easy|]. cbn [p_name]. unfold rust_name. now rewrite Eself.
      * apply read_kept; [easy|intros z Hz; apply Hn; now right|exact Ht|exact HR].
    + exfalso. cbn [infer_self] in Hr. rewrite Ef in Hr. destruct m; cbn in Hr; easy.
    + cbn [infer_self] in Hdr. rewrite Ef in Hdr. destruct Hsk as (Hk1 & Hk2 & Hk3). rewrite Hk1 in Hdr.
      assert (Hdr' : ps3 = mk_param (u "__unknown_self__") (pp_kind pp) TUnknown (p_default q) :: ps').
      { destruct (pp_kind pp); try easy; cbn [fst snd fix_empty drop_receiver] in Hdr; congruence. }
      subst ps3. rewrite guard_self_no.
      2:{ cbn [existsb]. apply (no_self_params (e_uni e) s'); [easy|intros z Hz; apply Hn; now right|exact Ht|exact HR]. }
      constructor.
      * split; [split; [easy|]; split; [easy|]; cbn; split; intros E; rewrite E in Hpos; easy|]. cbn [p_name]. unfold rust_name. now rewrite Eself.
      * apply read_kept; [easy|intros z Hz; apply Hn; now right|exact Ht|exact HR].
  - assert (Einf : infer_self t1 ps0 = (t1, ps0)).
    { destruct t1 as [|cp m|]; cbn [infer_self]; rewrite ?Ef; [now destruct ps0|now destruct m|now destruct ps0]. }
    rewrite Einf in Hdr, Hr. cbn [fst snd] in Hdr, Hr.
    assert (E3 : ps3 = ps0).
    { destruct t1 as [|cp m|]; [|destruct m, ps0|]; cbn in Hdr, Hr; congruence. }
    subst ps3. apply Hplain, Hfirst, eq_refl.
Qed.

(** Instance methods, constructors, callable objects: the first parameter goes, the rest is kept. *)
Lemma parse_receiver : forall e o name typ sg s f, uni_ok (e_uni e) ->
  w_signature (e_world e) o = Some sg -> describes sg s -> names_ok (e_uni e) s -> no_name "_" s ->
  no_name "self" (tl s) ->
  fn_parse e o name typ = Ok f -> has_receiver (fn_typ f) = true ->
  exists r s', s = r :: s' /\ Forall2 (kept_as (e_uni e)) s' (fn_params f).
Proof.
  intros e o name typ sg s f HU Hs Hd Hn Hu Ht H Hr.
  destruct (fn_parse_inv e o name typ sg f H Hs) as (ps0 & t1 & ps3 & Hm & Hi & Hdr & _ & Htyp & Hpar & _).
  assert (HR := read_params e _ s ps0 Hd Hm). rewrite (no_underscore_filter (e_uni e) s) in * by easy.
  rewrite Hpar. rewrite Htyp in Hr. clear Htyp Hpar H.
  assert (Esnd : snd (infer_self t1 ps0) = ps0).
  { destruct t1 as [|cp m|].
    - exfalso. cbn [infer_self] in Hr. destruct ps0; [easy|]. destruct (first_is_self _); [|easy]. destruct (p_kind _); easy.
    - cbn [infer_self]. destruct m; try easy; now destruct (first_is_self ps0).
    - exfalso. cbn [infer_self] in Hr. destruct ps0; [easy|]. destruct (first_is_self _); [|easy]. destruct (p_kind _); easy. }
  rewrite Esnd in Hdr, Hr.
  destruct (fix_empty name (fst (infer_self t1 ps0)) ps0) as [|cp m|]; try easy.
  assert (E : match ps0 with [] => False | _ :: r => ps3 = r end).
  { destruct m; try easy; cbn [drop_receiver] in Hdr; destruct ps0; congruence. }
  destruct HR as [|pp q s' ps' [Hsk Hq] HR]; [easy|]. subst ps3. exists pp, s'. split; [easy|].
  rewrite guard_self_no.
  - apply read_kept; [easy|intros z Hz; apply Hn; now right|exact Ht|exact HR].
  - apply (no_self_params (e_uni e) s'); [easy|intros z Hz; apply Hn; now right|exact Ht|exact HR].
Qed.

(** ** Generation, unfolded *)
Lemma gen_doc_only_docs : forall g d l x, gen_doc g d = Ok l -> In x l -> exists s, x = GDoc s.
Proof.
  intros g d l x H Hx. unfold gen_doc in H. destruct (generate_docs (g_cfg g)); [|injection H as <-; easy].
  destruct d as [s|]; [|injection H as <-; easy]. apply bind_Ok in H as (s' & _ & H). injection H as <-. destruct Hx as [<-|[]]. now exists s'.
Qed.

Lemma contract_params : forall U t scope name params rt b k, gen_contract U t scope name params rt = Ok (b, k) -> k_params k = params.
Proof.
  intros U t scope name params rt b k H. unfold gen_contract in H. destruct t as [|cp m|]; [injection H as <- <-; easy| |injection H as <- <-; easy].
  destruct m; try (injection H as <- <-; easy); apply bind_Ok in H as (c & _ & H); apply bind_Ok in H as (n & _ & H); injection H as <- <-; easy.
Qed.

Lemma fn_generate_inv : forall g scope f impl def, fn_generate g scope f = Ok impl -> In (GFn def) (frags_of impl) ->
  exists name id preps tys rt public d pos kw,
    path_name (fn_name f) = Ok name /\ fn_ident (g_uni g) name = Some id /\
    mapM (fun p => preprocess_borrowed (g_cx g) (p_ann p)) (fn_params f) = Ok preps /\
    mapM (fun p => into_rs_borrowed (g_cx g) (p_ann p)) (fn_params f) = Ok tys /\
    into_rs_owned (g_cx g) (fn_ret f) = Ok rt /\
    (forall p, In p (fn_params f) -> syn_ident_ok (g_uni g) (pid p) = true) /\
    gen_contract (g_uni g) (fn_typ f) scope id (combine (map pid (fn_params f)) tys) rt = Ok (public, f_contract def) /\
    gen_disp g f = Ok (Some d) /\ gen_pos (g_uni g) (fn_params f) = Ok pos /\ gen_kw (g_uni g) (fn_params f) = Ok kw /\
    f_let_py def = is_bound (fn_typ f) /\ f_prep def = combine (map pid (fn_params f)) preps /\ f_disp def = d /\
    f_body def = match fn_typ f with
                 | FMethod _ (MConstructor | MCallable) => BCall (gen_args pos kw)
                 | _ => BCallMethod (as_py name) (gen_args pos kw)
                 end.
Proof.
  intros g scope f impl def H Hin. unfold fn_generate in H.
  apply bind_Ok in H as (docs & Hdoc & H). apply bind_Ok in H as (name & Hname & H).
  destruct (fn_ident (g_uni g) name) as [id|] eqn:Eid; [|injection H as <-; easy].
  apply bind_Ok in H as (ids & Hids & H). apply param_idents_Ok in Hids as [-> Hok].
  apply bind_Ok in H as (preps & Hpreps & H). apply bind_Ok in H as (tys & Htys & H). apply bind_Ok in H as (rt & Hrt & H).
  apply bind_Ok in H as ([public k] & Hk & H). apply bind_Ok in H as (od & Hd & H).
  destruct od as [d|]; [|injection H as <-; easy].
  apply bind_Ok in H as (pos & Hpos & H). apply bind_Ok in H as (kw & Hkw & H).
  assert (Hdef : def = mk_fn k (is_bound (fn_typ f)) (combine (map pid (fn_params f)) preps) d
     match fn_typ f with FMethod _ (MConstructor | MCallable) => BCall (gen_args pos kw) | _ => BCallMethod (as_py name) (gen_args pos kw) end).
  { assert (Hin' : In (GFn def) (docs ++ (if public then [GPub] else []) ++ [GFn (mk_fn k (is_bound (fn_typ f)) (combine (map pid (fn_params f)) preps) d
     match fn_typ f with FMethod _ (MConstructor | MCallable) => BCall (gen_args pos kw) | _ => BCallMethod (as_py name) (gen_args pos kw) end)])).
    { destruct (is_bound (fn_typ f)); injection H as <-; exact Hin. }
    apply in_app_or in Hin' as [Hin'|Hin']; [destruct (gen_doc_only_docs _ _ _ _ Hdoc Hin'); easy|].
    apply in_app_or in Hin' as [Hin'|[Hin'|[]]]; [destruct public; [destruct Hin' as [?|[]]|]; easy|]. now injection Hin' as <-. }
  subst def. exists name, id, preps, tys, rt, public, d, pos, kw. cbn. repeat split; easy.
Qed.

(** ** The call *)
Section call.
  Context {V : Type}.

  Definition mk_elt (x : pyparam * (param * rarg V)) : pyparam * param * bound V :=
    (fst x, fst (snd x), meant (snd (snd x))).
  Definition zip3 (s : list pyparam) (ps : list param) (l : list (rarg V)) : list (pyparam * param * bound V) :=
    map mk_elt (combine s (combine ps l)).

  Lemma prepared_meant : forall c U pp p a r all, kept_as U pp p -> @suits V all pp a -> preprocess_borrowed c (p_ann p) = Ok r ->
    prepared r a = Some (to_rval (meant a)).
  Proof.
    intros c U pp p a r all [(Hk & _ & H1 & H2) _] Hs Hp. unfold suits in Hs. rewrite <- Hk in Hs.
    destruct (p_kind p) eqn:Ek; destruct a as [v|l|[d|]]; cbn [meant] in Hs; try easy.
    - rewrite (H1 eq_refl) in Hp. injection Hp as <-. easy.
    - rewrite (H2 eq_refl) in Hp. injection Hp as <-. easy.
    - rewrite (H2 eq_refl) in Hp. injection Hp as <-. easy.
  Qed.

  Lemma suits_fits : forall all pp a, @suits V all pp a -> fits (meant a) (pp_kind pp).
  Proof. intros all pp a H. unfold suits in H. unfold fits. destruct (pp_kind pp), (meant a); tauto. Qed.

  Lemma call_env_rho : forall c U all s ps l preps, Forall2 (kept_as U) s ps -> Forall2 (@suits V all) s l ->
    mapM (fun p => preprocess_borrowed c (p_ann p)) ps = Ok preps ->
    call_env (combine (map pid ps) preps) l = Some (rho_of (zip3 s ps l)).
  Proof.
    intros c U all s ps l preps H. revert l preps. induction H as [|pp p s ps Hp H IH]; intros l preps Hl Hm.
    - inversion Hl; subst. injection Hm as <-. easy.
    - inversion Hl as [|? a ? l' Ha Hl']; subst. cbn [mapM] in Hm. apply bind_Ok in Hm as (r & Hr & Hm). apply bind_Ok in Hm as (rs & Hrs & Hm).
      injection Hm as <-. cbn [map combine call_env]. rewrite (prepared_meant c U pp p a r all) by easy. rewrite (IH l' rs) by easy. easy.
  Qed.

  Lemma zip3_facts : forall U all s ps l, Forall2 (kept_as U) s ps -> Forall2 (@suits V all) s l ->
    let L := zip3 s ps l in
    sig_of L = s /\ map e_par L = ps /\ map (fun x => (pp_name (e_py x), e_val x)) L = combine (map pp_name s) (map meant l) /\
    (forall x, In x L -> In (e_py x) s /\ In (e_par x) ps /\ kept_as U (e_py x) (e_par x) /\ exists a, e_val x = meant a /\ suits all (e_py x) a).
  Proof.
    intros U all s ps l H. revert l. induction H as [|pp p s ps Hp H IH]; intros l Hl.
    - inversion Hl; subst. cbn. repeat split; easy.
    - inversion Hl as [|? a ? l' Ha Hl']; subst. destruct (IH l' Hl') as (E1 & E2 & E3 & E4). cbn zeta. unfold zip3, sig_of in *.
      cbn [map combine]. rewrite E1, E2, E3. repeat split.
      + destruct H0 as [<-|H0]; [now left|right]; now apply E4.
      + destruct H0 as [<-|H0]; [now left|right]; now apply E4.
      + destruct H0 as [<-|H0]; [apply Hp|]; now apply E4.
      + destruct H0 as [<-|H0]; [apply Hp|]; now apply E4.
      + destruct H0 as [<-|H0]; [apply Hp|]; now apply E4.
      + destruct H0 as [<-|H0]; [apply Hp|]; now apply E4.
      + destruct H0 as [<-|H0]; [apply Hp|]; now apply E4.
      + destruct H0 as [<-|H0]; [now exists a|]; now apply E4.
  Qed.

  Lemma pid_inj : forall p q, pid p = pid q -> as_py (p_name p) = as_py (p_name q).
  Proof. intros p q H. unfold pid in H. now apply app_inv_head in H. Qed.

  Lemma rust_name_inj : forall a b, a <> u "__unknown_self__" -> b <> u "__unknown_self__" -> rust_name a = rust_name b -> a = b.
  Proof.
    intros a b Ha Hb. unfold rust_name. destruct (str_eqb a (u "self")) eqn:E1, (str_eqb b (u "self")) eqn:E2; intros H; try congruence.
    apply str_eqb_eq in E1, E2. congruence.
  Qed.

  Lemma pids_distinct : forall U s ps, Forall2 (kept_as U) s ps -> NoDup (map pp_name s) -> no_name "__unknown_self__" s -> NoDup (map pid ps).
  Proof.
    intros U s ps H. induction H as [|pp p s ps Hp H IH]; intros Hn Hu; [constructor|].
    cbn [map] in *. inversion Hn as [|? ? H1 H2]; subst. constructor.
    - intros Hin. apply in_map_iff in Hin as (q & Eq & Hq).
      assert (Hex : exists qq, In qq s /\ kept_as U qq q).
      { clear - H Hq. induction H as [|a b s ps Ha H IH]; [easy|]. destruct Hq as [->|Hq]; [exists a; split; [now left|easy]|].
        destruct (IH Hq) as (x & ? & ?). exists x. split; [now right|easy]. }
      destruct Hex as (qq & Hqq & [_ Hkq]). apply pid_inj in Eq. destruct Hp as [_ Hkp]. rewrite Hkq, Hkp in Eq.
      apply rust_name_inj in Eq; [|apply Hu; now right|apply Hu; now left]. apply H1. rewrite <- Eq. now apply in_map.
    - apply IH; [easy|]. intros z Hz. apply Hu. now right.
  Qed.

  Lemma nodup_names : forall (L : list (pyparam * param * bound V)), NoDup (map pp_name (sig_of L)) -> NoDup (map (fun x => pp_name (e_py x)) L).
  Proof. intros L H. unfold sig_of in H. now rewrite map_map in H. Qed.

  Lemma dict_in : forall (L : list (pyparam * param * bound V)) k, In k (map fst (dictvals L)) -> exists x d, In x L /\ e_val x = BDict d /\ In k (map fst d).
  Proof.
    induction L as [|x L IH]; intros k H; [easy|]. cbn [dictvals] in H. destruct (e_val x) as [| |d|] eqn:E;
      try (destruct (IH k H) as (y & d' & ? & ?); exists y, d'; split; [now right|easy]).
    exists x, d. split; [now left|easy].
  Qed.

  (** [pre]: the receiver and its value, if any. *)
  Lemma call_binds : forall g U scope f impl def (pre : list (pyparam * V)) s l,
    fn_generate g scope f = Ok impl -> In (GFn def) (frags_of impl) ->
    Forall2 (kept_as U) s (fn_params f) -> 
    (forall p, In p s -> pp_kind p = KeywordOnly -> pp_name p <> u "self") ->
    sig_ok (map fst pre ++ s) -> (forall p, In p (map fst pre) -> positional (pp_kind p) = true) ->
    no_name "__unknown_self__" s ->
    Forall2 (@suits V (map fst pre ++ s)) s l ->
    exists pos kw, python_call def l = Some (pos, kw) /\
      bind_args (map fst pre ++ s) (map snd pre ++ pos) kw =
        Some (map (fun x => (pp_name (fst x), BOne (snd x))) pre ++ combine (map pp_name s) (map meant l)).
  Proof.
    intros g U scope f impl def pre s l Hg Hin Hk Hkwself Hsig Hpre Hunk Hl.
    destruct (fn_generate_inv _ _ _ _ _ Hg Hin) as (name & id & preps & tys & rt & public & d & pos & kw & _ & _ & Hpreps & _ & _ & Hok & _ & _ & Hpos & Hkw & _ & Hprep & _ & Hbody).
    destruct (zip3_facts U _ s (fn_params f) l Hk Hl) as (Es & Ep & Ev & Hall). set (L := zip3 s (fn_params f) l) in *.
    assert (HokL : forall x, In x L -> elt_ok x).
    { intros x Hx. destruct (Hall x Hx) as (Hs & _ & [(Hkk & _) Hnm] & a & Ea & Hsa). split; [easy|]. split.
      - intros Hko. rewrite Hnm. unfold rust_name. destruct (str_eqb (pp_name (e_py x)) (u "self")) eqn:E; [|easy].
        apply str_eqb_eq in E. exfalso. apply (Hkwself (e_py x)); [easy|congruence|easy].
      - rewrite Ea, Hkk. now apply (suits_fits (map fst pre ++ s)). }
    destruct Hsig as [Hord Hnd].
    assert (HndS : NoDup (map pp_name s)).
    { rewrite map_app in Hnd. clear - Hnd. induction (map pp_name (map fst pre)) as [|a r IH]; [easy|]. apply IH. now inversion Hnd. }
    set (P := map (fun x => (fst x, mk_param [] (pp_kind (fst x)) TUnknown false, BOne (snd x))) pre : list (pyparam * param * bound V)).
    assert (HsigPL : sig_of (P ++ L) = map fst pre ++ s).
    { unfold sig_of, P. rewrite map_app, map_map. fold (sig_of L). now rewrite Es. }
    assert (HokPL : forall x, In x (P ++ L) -> elt_ok x).
    { intros x Hx. apply in_app_or in Hx as [Hx|Hx]; [|auto]. unfold P in Hx. apply in_map_iff in Hx as ([pp v] & <- & Hx).
      assert (Hpp := Hpre pp (in_map fst _ _ Hx)). unfold elt_ok. cbn. destruct (pp_kind pp); repeat split; easy. }
    assert (Hdict : forall k, In k (map fst (dictvals L)) -> is_keyword_of (map fst pre ++ s) k = false).
    { intros k Hk'. apply dict_in in Hk' as (x & dd & Hx & Ed & Hkd). destruct (Hall x Hx) as (_ & _ & _ & a & Ea & Hsa).
      rewrite Ed in Ea. unfold suits in Hsa. rewrite <- Ea in Hsa. destruct (pp_kind (e_py x)); try easy. now apply Hsa. }
    assert (Epv : posvals (P ++ L) = map snd pre ++ posvals L).
    { clear - Hpre. unfold P. induction pre as [|[pp v] pre IH]; [easy|]. cbn [map app posvals e_par e_val fst snd p_kind].
      assert (Hpp := Hpre pp (or_introl eq_refl)). rewrite <- IH by (intros; apply Hpre; now right). destruct (pp_kind pp); easy. }
    assert (Etv : tupvals (P ++ L) = tupvals L).
    { clear. unfold P. induction pre as [|[pp v] pre IH]; [easy|]. exact IH. }
    assert (Edv : dictvals (P ++ L) = dictvals L).
    { clear. unfold P. induction pre as [|[pp v] pre IH]; [easy|]. exact IH. }
    assert (Ekv : kwvals (P ++ L) = kwvals L).
    { clear - Hpre. unfold P. induction pre as [|[pp v] pre IH]; [easy|]. cbn [map app kwvals e_par e_val fst snd p_kind].
      assert (Hpp := Hpre pp (or_introl eq_refl)). rewrite <- IH by (intros; apply Hpre; now right). destruct (pp_kind pp); easy. }
    assert (HndL : NoDup (map (fun x => pid (e_par x)) L)).
    { rewrite <- (map_map e_par pid). rewrite Ep. now apply (pids_distinct U s). }
    exists (posvals L ++ tupvals L), (dictvals L ++ kwvals L). split.
    - unfold python_call. rewrite Hprep. rewrite (call_env_rho (g_cx g) U (map fst pre ++ s) s (fn_params f) l preps Hk Hl Hpreps). fold L.
      assert (Hba : body_args (f_body def) = Some (gen_args pos kw)).
      { rewrite Hbody. destruct (fn_typ f) as [|cp m|]; [easy|destruct m; easy|easy]. }
      rewrite Hba. apply (eval_gen_args (g_uni g)); try easy.
      + intros x Hx. apply Hok. now apply Hall.
      + apply kwvals_nodup; [easy|]. apply nodup_names. rewrite Es. exact HndS.
      + intros k Hk1 Hk2. apply Hdict in Hk2.
        apply kwvals_names in Hk1 as (x & Hx & <- & Hko); [|easy].
        assert (is_keyword_of (map fst pre ++ s) (pp_name (e_py x)) = true); [|congruence].
        apply is_keyword_iff. exists (e_py x). split; [apply in_or_app; right; now apply Hall|]. destruct (HokL x Hx) as (-> & _). now rewrite Hko.
      + now rewrite Ep.
      + now rewrite Ep.
    - rewrite <- HsigPL. rewrite app_assoc. rewrite <- Epv, <- Etv, <- Edv, <- Ekv. rewrite bind_ok.
      + f_equal. rewrite map_app. f_equal; [unfold P; now rewrite map_map|exact Ev].
      + easy.
      + rewrite HsigPL. now split.
      + rewrite HsigPL, Edv. exact Hdict.
  Qed.
End call.
