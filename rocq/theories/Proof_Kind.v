From Verif Require Import Base Model_Ident Model_Path Model_Import Model_Text Model_Config Model_Type Model_IntoRs Model_World Model_Out Model_Function
  Spec_Path Spec_Names Spec_Call Proof_Base Proof_Ident Proof_Path Proof_Text Proof_Ann Proof_IntoRs Proof_Call Proof_Function Proof_Fresh Proof_Method.

(** ** Inference from the class dictionary *)
Lemma reaches_chain : forall w o l c, reaches w o (map as_py l) c -> getattr_chain w o l = Some c.
Proof.
  intros w o l. revert o. induction l as [|i l IH]; intros o c H; inversion H; subst; [easy|]. cbn [getattr_chain]. rewrite H3. now apply IH.
Qed.
Definition kind_for (st : storage) : mkind :=
  match st with StoredClassMethod => MClass | StoredStaticMethod => MStatic | StoredOther => MInstance end.

Lemma infer_stored : forall w name cp st r l n, segs cp = r :: l -> leading_colon cp = false -> as_py r <> u "super" ->
  last_opt (segs name) = Some n ->
  stores w (as_py r) (map as_py l) (as_py n) st -> infer_storage w name (FMethod cp MUnknown) = Ok (FMethod cp (kind_for st)).
Proof.
  intros w name cp st r l n Hcp Hlc Hr Hn (m & c & Hi & Hre & Hst). unfold infer_storage, path_root. rewrite Hcp, Hlc. cbn [unwrap obind].
  assert (Eroot : to_py (mk_path false [r]) = as_py r).
  { rewrite to_py_no_super; [easy|]. intros x [<-|[]]. easy. }
  rewrite Eroot, Hi. unfold path_name. rewrite Hn. cbn [unwrap obind]. unfold find_storage. rewrite Eroot, Hi, Hcp. cbn [tl].
  rewrite (reaches_chain w m l c Hre), Hst. now destruct st.
Qed.

Lemma kind_from_storage : forall e o name cp sg s f st r l n, uni_ok (e_uni e) ->
  w_signature (e_world e) o = Some sg -> describes sg s -> names_ok (e_uni e) s ->
  segs cp = r :: l -> leading_colon cp = false -> as_py r <> u "super" -> last_opt (segs name) = Some n ->
  stores (e_world e) (as_py r) (map as_py l) (as_py n) st ->
  (exists p, In p s /\ pp_name p <> u "_") ->
  (st <> StoredOther -> no_name "self" s) ->
  fn_parse e o name (FMethod cp MUnknown) = Ok f ->
  fn_typ f = FMethod cp (kind_for st).
Proof.
  intros e o name cp sg s f st r l n HU Hs Hd Hn Hcp Hlc Hr Hnm Hst Hne Hself H.
  destruct (fn_parse_inv e o name _ sg f H Hs) as (ps0 & t1 & ps3 & Hm & Hi & Hdr & _ & Htyp & _).
  rewrite (infer_stored _ name cp st r l n) in Hi by easy. injection Hi as <-.
  assert (HR := read_params e _ s ps0 Hd Hm). rewrite Htyp. clear Htyp Hdr H Hm.
  set (ps1 := filter _ ps0).
  assert (Hne1 : ps1 <> []).
  { destruct Hne as (p & Hp & Hpn). unfold ps1. clear - HU Hn HR Hp Hpn. induction HR as [|pp q s ps0 [_ Hq] HR IH]; [easy|]. cbn [filter].
    destruct Hp as [->|Hp].
    - rewrite Hq, from_py_underscore by (try easy; apply Hn; now left). destruct (str_eqb (pp_name p) (u "_")) eqn:E; [now apply str_eqb_eq in E|easy].
    - assert (IH' := IH (fun z Hz => Hn z (or_intror Hz)) Hp). destruct (negb _); easy. }
  assert (Hfirst : st <> StoredOther -> first_is_self ps1 = false).
  { intros Hso. specialize (Hself Hso). unfold ps1. clear - HU Hn HR Hself. induction HR as [|pp q s ps0 [_ Hq] HR IH]; [easy|]. cbn [filter].
    destruct (negb _).
    - cbn [first_is_self]. rewrite Hq, from_py_self by (try easy; apply Hn; now left).
      destruct (str_eqb (pp_name pp) (u "self")) eqn:E; [|easy]. apply str_eqb_eq in E. exfalso. apply (Hself pp); [now left|easy].
    - apply IH; [intros z Hz; apply Hn; now right|intros z Hz; apply Hself; now right]. }
  destruct st; cbn [kind_for infer_self].
  - rewrite Hfirst by easy. easy.
  - rewrite Hfirst by easy. easy.
  - cbn [fst snd fix_empty]. destruct ps1; easy.
Qed.

(** ** Success of parsing *)
Lemma parse_succeeds : forall e o name typ sg doc ps0 rt, 
  w_signature (e_world e) o = Some sg -> read_docstring (e_world e) o = Ok doc ->
  mapM (read_param e) (sig_params sg) = Ok ps0 -> read_ann (e_dbg e) (sig_return sg) = Ok rt ->
  (forall cp m, typ = FMethod cp m -> segs cp <> []) -> segs name <> [] ->
  (forall cp, typ = FMethod cp MConstructor \/ typ = FMethod cp MCallable ->
     exists p, In p ps0 /\ as_rs (p_name p) <> r_underscore) ->
  exists f, fn_parse e o name typ = Ok f.
Proof.
  intros e o name typ sg doc ps0 rt Hs Hd Hm Hr Hcp Hname Hne. unfold fn_parse. rewrite Hs, Hd, Hm, Hr. cbn [obind].
  assert (Hi : exists t1, infer_storage (e_world e) name typ = Ok t1).
  { unfold infer_storage. destruct typ as [|cp m|]; try (eexists; reflexivity). destruct m; try (eexists; reflexivity).
    assert (Hc := Hcp cp MUnknown eq_refl). unfold path_root. destruct (segs cp) as [|x l]; [easy|]. cbn [unwrap obind].
    destruct (w_import _ _); [|eexists; reflexivity]. unfold path_name.
    destruct (last_opt (segs name)) eqn:E; [|exfalso; destruct (segs name) as [|y r]; [easy|]; revert E; clear; revert y; induction r as [|z r IH]; intros y; [easy|apply IH]].
    cbn [unwrap obind]. eexists; reflexivity. }
  destruct Hi as (t1 & Hi). rewrite Hi. cbn [obind].
  set (ps1 := filter _ ps0). destruct (infer_self t1 ps1) as [t2 ps2] eqn:E2.
  assert (Hdr : exists ps3, drop_receiver (fix_empty name t2 ps2) ps2 = Ok ps3).
  { assert (Hsh := infer_storage_shape _ _ _ _ Hi).
    assert (Hcc : forall cp m, t1 = FMethod cp m -> (m = MConstructor \/ m = MCallable) -> ps1 <> []).
    { intros cp m Et Hm'. destruct (Hne cp) as (p & Hp & Hpn).
      - destruct typ as [|cp' m'|]; [congruence| |congruence]. destruct m'; try (rewrite Hsh in Et; injection Et as <- <-; destruct Hm' as [Hm'|Hm']; try discriminate Hm'; tauto).
        destruct Hsh as (m0 & E & Hm0). rewrite E in Et. injection Et as <- <-. destruct Hm' as [->| ->]; destruct Hm0 as [?|[?|?]]; easy.
      - intros E. assert (Hi' : In p []); [|easy]. rewrite <- E. apply filter_In. split; [easy|].
        destruct (str_eqb (as_rs (p_name p)) r_underscore) eqn:Eu; [|easy]. now apply str_eqb_eq in Eu. }
    destruct t1 as [|cp m|]; cbn [infer_self] in E2.
    - destruct ps1 as [|p q]; [injection E2 as <- <-; eexists; reflexivity|]. destruct (first_is_self _); [|injection E2 as <- <-; eexists; reflexivity].
      destruct (p_kind p); injection E2 as <- <-; eexists; reflexivity.
    - destruct m; try (destruct (first_is_self ps1)); injection E2 as <- <-; cbn [fix_empty];
        try (destruct ps1; eexists; reflexivity);
        (assert (Hn := Hcc cp _ eq_refl); destruct ps1; [exfalso; apply Hn; tauto|eexists; reflexivity]).
    - destruct ps1 as [|p q]; [injection E2 as <- <-; eexists; reflexivity|]. destruct (first_is_self _); [|injection E2 as <- <-; eexists; reflexivity].
      destruct (p_kind p); injection E2 as <- <-; eexists; reflexivity. }
  destruct Hdr as (ps3 & ->). cbn [obind]. eexists. reflexivity.
Qed.

(** ** Dispatch *)
Lemma class_dispatch : forall g scope f impl def cp m, fn_typ f = FMethod cp m -> (m = MClass \/ m = MStatic \/ m = MConstructor) ->
  fn_generate g scope f = Ok impl -> In (GFn def) (frags_of impl) ->
  exists lk n, f_disp def = DImport lk /\ import_quote (g_imp g) cp = Ok lk /\ last_opt (segs (fn_name f)) = Some n /\
    (exists a, f_body def = if match m with MConstructor => true | _ => false end then BCall a else BCallMethod (as_py n) a).
Proof.
  intros g scope f impl def cp m Ht Hm H Hin.
  destruct (fn_generate_inv _ _ _ _ _ H Hin) as (name & id & preps & tys & rt & public & d & pos & kw & Hname & _ & _ & _ & _ & _ & _ & Hd & _ & _ & _ & _ & Hdisp & Hbody).
  rewrite Ht in Hbody. unfold gen_disp in Hd. rewrite Ht in Hd. unfold path_name in Hname.
  destruct (last_opt (segs (fn_name f))) as [n|] eqn:En; [|easy]. injection Hname as ->.
  destruct Hm as [->|[->| ->]]; apply bind_Ok in Hd as (lk & Hlk & Hd); injection Hd as <-; exists lk, name; split; try easy; split; try easy; split; try easy; eexists; exact Hbody.
Qed.
Lemma function_dispatch : forall g scope f impl def, (fn_typ f = FFunction \/ fn_typ f = FClosure) ->
  fn_generate g scope f = Ok impl -> In (GFn def) (frags_of impl) ->
  exists p lk n a, path_parent (fn_name f) = Some p /\ f_disp def = DImport lk /\ import_quote (g_imp g) p = Ok lk /\
    last_opt (segs (fn_name f)) = Some n /\ f_body def = BCallMethod (as_py n) a.
Proof.
  intros g scope f impl def Ht H Hin.
  destruct (fn_generate_inv _ _ _ _ _ H Hin) as (name & id & preps & tys & rt & public & d & pos & kw & Hname & _ & _ & _ & _ & _ & _ & Hd & _ & _ & _ & _ & Hdisp & Hbody).
  unfold gen_disp in Hd. unfold path_name in Hname. destruct (last_opt (segs (fn_name f))) as [n|] eqn:En; [|easy]. injection Hname as ->.
  destruct Ht as [Ht|Ht]; rewrite Ht in Hd, Hbody; apply bind_Ok in Hd as (p & Hp & Hd); apply bind_Ok in Hd as (lk & Hlk & Hd); injection Hd as <-;
    (destruct (path_parent (fn_name f)) as [q|]; [|easy]); injection Hp as ->; exists p, lk, name; eexists; repeat split; try easy; exact Hbody.
Qed.
Lemma self_dispatch : forall g scope f impl def cp m, fn_typ f = FMethod cp m -> (m = MInstance \/ m = MCallable) ->
  fn_generate g scope f = Ok impl -> In (GFn def) (frags_of impl) ->
  f_disp def = DSelf /\ k_self (f_contract def) = true /\ f_let_py def = true.
Proof.
  intros g scope f impl def cp m Ht Hm H Hin.
  destruct (fn_generate_inv _ _ _ _ _ H Hin) as (name & id & preps & tys & rt & public & d & pos & kw & Hname & _ & _ & _ & _ & _ & Hk & Hd & _ & _ & Hlet & _ & Hdisp & Hbody).
  unfold gen_disp in Hd. rewrite Ht in Hd, Hk, Hlet. rewrite Hlet.
  destruct Hm as [->| ->]; injection Hd as <-; (split; [easy|]); (split; [|easy]); cbn [gen_contract] in Hk.
  - now injection Hk as _ <-.
  - apply bind_Ok in Hk as (c & _ & Hk). apply bind_Ok in Hk as (n & _ & Hk). now injection Hk as _ <-.
Qed.

(** ** Success of generation *)
Definition dispatchable (f : func) : Prop :=
  match fn_typ f with
  | FFunction | FClosure => 2 <= length (segs (fn_name f))
  | FMethod cp (MClass | MStatic | MConstructor) => segs cp <> []
  | FMethod _ (MInstance | MCallable) => True
  | FMethod _ MUnknown => False
  end.

Lemma mapM_ok : forall {A B} (f : A -> outcome B) l, (forall x, In x l -> exists y, f x = Ok y) -> exists r, mapM f l = Ok r.
Proof.
  induction l as [|x l IH]; intros H; [eexists; reflexivity|]. destruct (H x (or_introl eq_refl)) as (y & Hy).
  destruct (IH (fun z Hz => H z (or_intror Hz))) as (r & Hr). cbn [mapM]. rewrite Hy. cbn [obind]. rewrite Hr. cbn [obind]. eexists; reflexivity.
Qed.

Lemma gen_doc_total : forall g d, exists l, gen_doc g d = Ok l.
Proof.
  intros g d. unfold gen_doc. destruct (generate_docs (g_cfg g)); [|eexists; reflexivity]. destruct d as [s|]; [|eexists; reflexivity].
  destruct (format_docstring_total s) as (o & ->). eexists; reflexivity.
Qed.
Lemma ok_base : forall U base, uni_ok U -> In base ["call"; "new"]%string -> forall scope, exists c n, fresh U base scope = Ok c /\ ident_to_syn U c = Ok n.
Proof.
  intros U base HU Hb scope.
  destruct (fresh_ok U base scope) as (c & Hc); [intros s; destruct Hb as [<-|[<-|[]]]; reflexivity|].
  exists c, c. split; [easy|]. destruct (fresh_spec U base scope c Hc) as (j & -> & _).
  assert (Hid : py_identifier U (u base)).
  { destruct HU as (Hs & Hcn & _). destruct Hb as [<-|[<-|[]]]; eexists; eexists; (split; [reflexivity|]); (split; [right; now rewrite Hs|]);
      cbn [In]; intuition subst; rewrite Hcn; easy. }
  destruct (candidate_plain U base j HU Hid) as [_ H].
  - destruct Hb as [<-|[<-|[]]]; reflexivity.
  - destruct Hb as [<-|[<-|[]]]; reflexivity.
  - unfold ident_to_syn, as_rs. now rewrite H.
Qed.

Lemma generate_succeeds : forall g scope f n id, uni_ok (g_uni g) -> last_opt (segs (fn_name f)) = Some n -> fn_ident (g_uni g) n = Some id ->
  dispatchable f ->
  (forall p, In p (fn_params f) -> syn_ident_ok (g_uni g) (pid p) = true) ->
  (forall p, In p (fn_params f) -> exists r, preprocess_borrowed (g_cx g) (p_ann p) = Ok r) ->
  (forall p, In p (fn_params f) -> exists r, into_rs_borrowed (g_cx g) (p_ann p) = Ok r) ->
  (exists r, into_rs_owned (g_cx g) (fn_ret f) = Ok r) ->
  exists impl def, fn_generate g scope f = Ok impl /\ In (GFn def) (frags_of impl).
Proof.
  intros g scope f n id HU Hn Hid Hdis Hok Hp Hb (rt & Hr). unfold fn_generate.
  destruct (gen_doc_total g (fn_doc f)) as (docs & ->). cbn [obind]. unfold path_name. rewrite Hn. cbn [unwrap obind]. rewrite Hid.
  rewrite param_idents_mapM by easy. cbn [obind].
  destruct (mapM_ok _ _ Hp) as (preps & ->). cbn [obind]. destruct (mapM_ok _ _ Hb) as (tys & ->). cbn [obind]. rewrite Hr. cbn [obind].
  set (params := combine (map pid (fn_params f)) tys).
  assert (Hk : exists public k, gen_contract (g_uni g) (fn_typ f) scope id params rt = Ok (public, k)).
  { destruct (fn_typ f) as [|cp m|]; try (eexists; eexists; reflexivity). destruct m; try (eexists; eexists; reflexivity); cbn [gen_contract].
    - destruct (ok_base (g_uni g) "new" HU (or_intror (or_introl eq_refl)) scope) as (c & x & -> & E). cbn [obind]. rewrite E. cbn [obind]. eexists; eexists; reflexivity.
    - destruct (ok_base (g_uni g) "call" HU (or_introl eq_refl) scope) as (c & x & -> & E). cbn [obind]. rewrite E. cbn [obind]. eexists; eexists; reflexivity. }
  destruct Hk as (public & k & ->). cbn [obind].
  assert (Hd : exists d, gen_disp g f = Ok (Some d)).
  { unfold gen_disp, dispatchable in *. destruct (fn_typ f) as [|cp m|].
    - unfold path_parent. destruct (segs (fn_name f)) as [|a [|b l]] eqn:Es; try (cbn in Hdis; lia). cbn [unwrap obind].
      edestruct import_quote_total as (lk & Hlk); [|rewrite Hlk; cbn [obind]; eexists; reflexivity]. easy.
    - destruct m; try easy; try (eexists; reflexivity); (destruct (import_quote_total (g_imp g) cp Hdis) as (lk & ->); cbn [obind]; eexists; reflexivity).
    - unfold path_parent. destruct (segs (fn_name f)) as [|a [|b l]] eqn:Es; try (cbn in Hdis; lia). cbn [unwrap obind].
      edestruct import_quote_total as (lk & Hlk); [|rewrite Hlk; cbn [obind]; eexists; reflexivity]. easy. }
  destruct Hd as (d & ->). cbn [obind].
  assert (Hok' : forall ks p, In p (of_kinds ks (fn_params f)) -> syn_ident_ok (g_uni g) (pid p) = true).
  { intros ks p Hin. apply Hok. now apply filter_In in Hin. }
  unfold gen_pos at 1. rewrite param_idents_mapM by apply Hok'. cbn [obind].
  unfold gen_kw at 1. rewrite param_idents_mapM by apply Hok'. cbn [obind].
  destruct (is_bound (fn_typ f)); eexists; eexists; (split; [reflexivity|]); cbn [frags_of]; apply in_or_app; right; apply in_or_app; right; left; reflexivity.
Qed.

(** ** Without a signature *)
Lemma parse_unsigned : forall e o name typ f, w_signature (e_world e) o = None -> fn_parse e o name typ = Ok f ->
  fn_name f = name /\ fn_typ f = typ /\ fn_params f = generic_params /\ fn_ret f = TUnknown.
Proof. intros e o name typ f Hs H. unfold fn_parse in H. rewrite Hs in H. apply bind_Ok in H as (d & _ & H). now injection H as <-. Qed.

Lemma generic_passes : forall {V} g scope f impl def (l : list V) d, fn_params f = generic_params ->
  fn_generate g scope f = Ok impl -> In (GFn def) (frags_of impl) ->
  k_params (f_contract def) = [(u "p_args", into_py_of "PyTuple"); (u "p_kwargs", r_option (bound_of "PyDict"))] /\
  python_call def [ATuple l; AOptDict (Some d)] = Some (l, d) /\ python_call def [ATuple l; AOptDict None] = Some (l, []).
Proof.
  intros V g scope f impl def l d Hf H Hin.
  destruct (fn_generate_inv _ _ _ _ _ H Hin) as (name & id & preps & tys & rt & public & dd & pos & kw & Hname & _ & Hpreps & Htys & _ & Hok & Hk & Hd & Hpos & Hkw & _ & Hprep & Hdisp & Hbody).
  rewrite Hf in *. apply contract_params in Hk. rewrite Hk. 
  injection Htys as <-. injection Hpreps as <-. split; [reflexivity|].
  assert (Hv1 := Hok _ (or_introl eq_refl)). assert (Hv2 := Hok _ (or_intror (or_introl eq_refl))).
  unfold gen_pos in Hpos. cbn [of_kinds generic_params filter p_kind existsb pkind_eqb orb mapM obind find] in Hpos.
  unfold param_ident_opt in Hpos. rewrite param_ident_iff in Hpos by easy. injection Hpos as <-.
  unfold gen_kw in Hkw. cbn [of_kinds generic_params filter p_kind existsb pkind_eqb orb mapM obind find map combine] in Hkw.
  unfold param_ident_opt in Hkw. rewrite param_ident_iff in Hkw by easy. injection Hkw as <-.
  assert (Eb : body_args (f_body def) = Some (ArgsBoth (PAVar (u "p_args")) (KAVar (u "p_kwargs")))).
  { rewrite Hbody. destruct (fn_typ f) as [|cp m|]; [reflexivity|destruct m; reflexivity|reflexivity]. }
  unfold python_call. rewrite Hprep, Eb. split; reflexivity.
Qed.

Lemma generic_valid : forall U p, uni_ok U -> In p generic_params -> syn_ident_ok U (pid p) = true.
Proof.
  intros U p HU Hp. apply syn_ident_ok_plain; [easy| |].
  - destruct HU as (Hs & Hcn & _). destruct Hp as [<-|[<-|[]]]; eexists; eexists; (split; [reflexivity|]); (split; [right; now rewrite Hs|]);
      cbn; intuition subst; rewrite Hcn; easy.
  - intros Hk. apply syn_keywords_iff, mem_str_In in Hk. destruct Hp as [<-|[<-|[]]]; discriminate Hk.
Qed.
Lemma generic_generates : forall g scope f n id, uni_ok (g_uni g) -> fn_params f = generic_params -> fn_ret f = TUnknown ->
  last_opt (segs (fn_name f)) = Some n -> fn_ident (g_uni g) n = Some id -> dispatchable f ->
  exists impl def, fn_generate g scope f = Ok impl /\ In (GFn def) (frags_of impl).
Proof.
  intros g scope f n id HU Hp Hr Hn Hid Hd. apply (generate_succeeds g scope f n id); try easy.
  - intros p Hin. rewrite Hp in Hin. now apply generic_valid.
  - intros p Hin. rewrite Hp in Hin. destruct Hin as [<-|[<-|[]]]; eexists; reflexivity.
  - intros p Hin. rewrite Hp in Hin. destruct Hin as [<-|[<-|[]]]; eexists; reflexivity.
  - rewrite Hr. eexists; reflexivity.
Qed.

(** ** A parameter named [self] that is not the first *)
Lemma forall2_In_l : forall {A B} (R : A -> B -> Prop) l k x, Forall2 R l k -> In x l -> exists y, In y k /\ R x y.
Proof.
  induction 1 as [|a b l k H HF IH]; intros Hin; [easy|]. destruct Hin as [<-|Hin]; [exists b; cbn; tauto|].
  destruct (IH Hin) as (y & Hy & Hr). exists y. cbn. tauto.
Qed.
Lemma parse_self_elsewhere : forall e o name typ sg s f, uni_ok (e_uni e) ->
  w_signature (e_world e) o = Some sg -> describes sg s -> NoDup (map pp_name s) -> names_ok (e_uni e) s -> no_name "_" s ->
  (exists p, In p (tl s) /\ pp_name p = u "self") ->
  fn_parse e o name typ = Ok f -> fn_params f = generic_params.
Proof.
  intros e o name typ sg s f HU Hs Hd Hnd Hn Hu (p & Hp & Hself) H.
  destruct (fn_parse_inv e o name typ sg f H Hs) as (ps0 & t1 & ps3 & Hm & Hi & Hdr & _ & Htyp & Hpar & _).
  assert (HR := read_params e _ s ps0 Hd Hm). rewrite (no_underscore_filter (e_uni e) s) in * by easy.
  rewrite Hpar. clear Htyp Hpar H.
  destruct HR as [|pp q s' ps' [Hsk Hq] HR]; [easy|]. cbn [tl] in Hp.
  assert (Ef : first_is_self (q :: ps') = false).
  { cbn [first_is_self]. rewrite Hq, from_py_self by (try easy; apply Hn; now left). destruct (str_eqb (pp_name pp) (u "self")) eqn:E; [|easy].
    apply str_eqb_eq in E. cbn [map] in Hnd. inversion Hnd; subst. exfalso. apply H1. rewrite E, <- Hself. now apply in_map. }
  assert (Einf : infer_self t1 (q :: ps') = (t1, q :: ps')).
  { destruct t1 as [|cp m|]; cbn [infer_self]; rewrite ?Ef; [easy|now destruct m|easy]. }
  rewrite Einf in Hdr. cbn [fst snd fix_empty] in Hdr.
  assert (E3 : ps3 = q :: ps' \/ ps3 = ps').
  { destruct t1 as [|cp m|]; [|destruct m|]; cbn in Hdr; injection Hdr as <-; tauto. }
  unfold guard_self. assert (Ex : existsb (fun p => str_eqb (as_rs (p_name p)) r_self) ps3 = true); [|now rewrite Ex].
  destruct (forall2_In_l _ _ _ _ HR Hp) as (y & Hy & _ & Hny). apply existsb_exists. exists y. split; [destruct E3 as [->| ->]; [now right|easy]|].
  rewrite Hny, from_py_self, Hself by (try easy; apply Hn; now right). apply str_eqb_refl.
Qed.

(** ** The name of a generated function *)
Lemma fn_ident_spelling : forall U n, uni_ok U -> py_identifier U n ->
  fn_ident U (ident_from_py U n) =
    if mem_str n forbidden_function_names then None
    else if mem_str n never_raw then Some (u "f_" ++ sanitize U n) else Some (ident_from_py U n).
Proof.
  intros U n HU Hn. unfold fn_ident, as_rs. rewrite as_py_from_py by now apply (py_identifier_no_raw U).
  destruct (syn_ident_ok U (ident_from_py U n)) eqn:Eok.
  - destruct (mem_str n forbidden_function_names); [easy|]. destruct (mem_str n never_raw) eqn:Er; [|easy].
    apply (from_py_valid_iff U n HU Hn) in Eok. exfalso. apply Eok. unfold rust_unspellable. apply mem_str_In in Er. revert Er. cbn. tauto.
  - assert (Hr : rust_unspellable n).
    { destruct (mem_str n never_raw) eqn:Er.
      - apply mem_str_In in Er. unfold rust_unspellable. revert Er. cbn. tauto.
      - exfalso. assert (E : syn_ident_ok U (ident_from_py U n) = true); [|congruence]. apply from_py_valid_iff; try easy.
        intros Hx. apply mem_str_notIn in Er. apply Er. unfold rust_unspellable in Hx. revert Hx. cbn. tauto. }
    assert (Hm : mem_str n never_raw = true). { apply mem_str_In. unfold rust_unspellable in Hr. revert Hr. cbn. tauto. }
    rewrite Hm.
    assert (Hf : mem_str n forbidden_function_names = false).
    { unfold rust_unspellable in Hr. cbn [In map] in Hr. repeat destruct Hr as [<-|Hr]; easy. }
    rewrite Hf.
    assert (Hp : py_identifier U (u "f_" ++ sanitize U n)).
    { destruct Hn as (c & t & -> & Hc & Ht). destruct HU as (Hst & Hcn & _ & Hsc). exists (ch "f"), (95%N :: sanitize U (c :: t)). split; [easy|].
      split; [right; now rewrite Hst|]. intros x [<-|Hx]; [now rewrite Hcn|]. unfold sanitize in Hx. apply in_map_iff in Hx as (y & <- & Hy).
      destruct (alphanumeric U y); [|now rewrite Hcn]. destruct Hy as [<-|Hy]; [|now apply Ht]. destruct Hc as [->|Hc]; [now rewrite Hcn|now apply Hsc]. }
    rewrite from_py_plain; [|easy|easy|].
    + rewrite (proj2 (syn_ident_ok_plain U _ HU Hp)); [easy|].
      intros Hk. apply syn_keywords_iff, mem_str_In in Hk. cbn in Hk. discriminate Hk.
    + intros Hk. apply mem_str_In in Hk. cbn in Hk. discriminate Hk.
Qed.
Lemma function_name : forall U n, uni_ok U -> py_identifier U n ->
  (In n (map u ["get_type"; "obj"; "py"; "repr"; "str"]%string) -> fn_ident U (ident_from_py U n) = None) /\
  (~ In n (map u ["get_type"; "obj"; "py"; "repr"; "str"]%string) -> ~ rust_unspellable n -> fn_ident U (ident_from_py U n) = Some (ident_from_py U n)) /\
  (rust_unspellable n -> exists id, fn_ident U (ident_from_py U n) = Some id /\ starts_with (u "f_") id = true /\ syn_ident_ok U id = true).
Proof.
  intros U n HU Hn. rewrite (fn_ident_spelling U n HU Hn).
  assert (Hraw : rust_unspellable n <-> mem_str n never_raw = true). { unfold rust_unspellable. rewrite mem_str_In. cbn. tauto. }
  split; [|split].
  - intros H. change (In n forbidden_function_names) in H. apply mem_str_In in H. now rewrite H.
  - intros H1 H2. change (~ In n forbidden_function_names) in H1. apply mem_str_notIn in H1. rewrite H1. destruct (mem_str n never_raw); [|easy]. exfalso. now apply H2, Hraw.
  - intros H. assert (E : fn_ident U (ident_from_py U n) = Some (u "f_" ++ sanitize U n)).
    { rewrite (fn_ident_spelling U n HU Hn). rewrite (proj1 Hraw H). unfold rust_unspellable in H. cbn [In map] in H. repeat destruct H as [<-|H]; easy. }
    exists (u "f_" ++ sanitize U n). rewrite <- (fn_ident_spelling U n HU Hn). split; [easy|]. split; [easy|].
    unfold fn_ident in E. destruct (syn_ident_ok U (as_rs (ident_from_py U n))) eqn:Ok1.
    + exfalso. apply (from_py_valid_iff U n HU Hn) in Ok1. now apply Ok1.
    + destruct (syn_ident_ok U (as_rs (ident_from_py U (u "f_" ++ sanitize U (as_py (ident_from_py U n)))))) eqn:Ok2; [|easy].
      assert (E' : ident_from_py U (u "f_" ++ sanitize U (as_py (ident_from_py U n))) = u "f_" ++ sanitize U n) by congruence.
      rewrite <- E'. exact Ok2.
Qed.

(** ** The result type *)
Lemma result_type : forall g scope f impl def, fn_generate g scope f = Ok impl -> In (GFn def) (frags_of impl) ->
  exists rt, into_rs_owned (g_cx g) (fn_ret f) = Ok rt /\
    k_ret (f_contract def) = if match fn_typ f with FMethod _ MConstructor => true | _ => false end then RetSelf else RetType rt.
Proof.
  intros g scope f impl def H Hin.
  destruct (fn_generate_inv _ _ _ _ _ H Hin) as (name & id & preps & tys & rt & public & d & pos & kw & _ & _ & _ & _ & Hrt & _ & Hk & _).
  exists rt. split; [easy|]. destruct (fn_typ f) as [|cp m|]; cbn [gen_contract] in Hk; [injection Hk as _ <-; easy| |injection Hk as _ <-; easy].
  destruct m; cbn [gen_contract] in Hk; try (injection Hk as _ <-; easy);
    apply bind_Ok in Hk as (c & _ & Hk); apply bind_Ok in Hk as (nm & _ & Hk); injection Hk as _ <-; easy.
Qed.
