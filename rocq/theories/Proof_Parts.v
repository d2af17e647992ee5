(** * Lemmas: the parts of a generated module *)
From Verif Require Import Base Model_Ident Model_Path Model_Import Model_Text Model_Config Model_Type Model_IntoRs Model_World Model_Out
  Model_Function Model_Property Model_Class Model_Module Model_Parse Model_Codegen Spec_Path Spec_Names Spec_Call Spec_Items Spec_Tree Spec_Api Spec_Safe Spec_Out
  Proof_Base Proof_Ident Proof_Path Proof_Text Proof_IntoRs Proof_Call Proof_Function Proof_Fresh Proof_Method Proof_Kind Proof_Items Proof_Module
  Proof_Parse Proof_Forest Proof_Err Proof_Api Proof_Honest Proof_Calm Proof_Rooted.

Record parts := mk_parts { pt_scope : list ident; pt_lt : table; pt_docs : list frag; pt_imports : list frag; pt_prelude : list frag; pt_vars : list frag;
                           pt_classes : list frag; pt_fns : list frag; pt_props : list frag; pt_subs : list frag }.
Definition pt_ctx (x : mctx) (P : parts) : gctx := mk_gctx (mx_cfg x) (mx_imp x) (mk_ctx (mx_dbg x) (mx_numpy x) (mx_uni x) (pt_lt P)).
Definition pt_body (m : module) (P : parts) : list frag :=
  gen_embed m ++ pt_imports P ++ pt_prelude P ++ pt_vars P ++ pt_classes P ++ pt_fns P ++ pt_props P ++ pt_subs P.
Definition use_frag_of (U : uni) (i : import) : outcome (list frag) := omap use_frags (import_generate U i).
Definition fn_frags (g : gctx) (scope : list ident) (f : func) : outcome (list frag) := let! i := fn_generate g scope f in only_function i.
Definition prop_frags (g : gctx) (scope : list ident) (p : property) : outcome (list frag) := let! i := prop_generate g scope p in only_function i.
Record parts_of (x : mctx) (m : module) (P : parts) : Prop := mk_parts_of {
  po_scope : mapM (fun f => path_name (fn_name f)) (m_functions m) = Ok (pt_scope P);
  po_lt : local_types (mx_dbg x) (mx_uni x) m (mx_types x) = Ok (pt_lt P);
  po_docs : gen_doc (pt_ctx x P) (m_doc m) = Ok (pt_docs P);
  po_imports : when (generate_imports (mx_cfg x)) (concatM (use_frag_of (mx_uni x))
       (filter (fun i => existsb (path_exists (im_origin i)) (mx_top x)) (m_imports m))) = Ok (pt_imports P);
  po_prelude : when (generate_preludes (mx_cfg x)) (drop_err (gen_prelude (mx_uni x) m)) = Ok (pt_prelude P);
  po_vars : when (generate_type_vars (mx_cfg x)) (concatM (type_var_generate (mx_uni x)) (m_typevars m)) = Ok (pt_vars P);
  po_classes : when (generate_classes (mx_cfg x)) (concatM (class_generate (pt_ctx x P)) (m_classes m)) = Ok (pt_classes P);
  po_fns : when (generate_functions (mx_cfg x)) (concatM (fn_frags (pt_ctx x P) (pt_scope P)) (m_functions m)) = Ok (pt_fns P);
  po_props : when (generate_properties (mx_cfg x)) (concatM (prop_frags (pt_ctx x P) (pt_scope P)) (m_properties m)) = Ok (pt_props P);
  po_subs : when (traverse_submodules (mx_cfg x)) (concatM (mod_generate x) (m_subs m)) = Ok (pt_subs P) }.
Definition pt_top (x : mctx) (m : module) : list frag := if in_dec module_dec m (mx_top x) then [GAttr AttrAllow] else [].

Lemma mod_generate_inv : forall x m l, mod_generate x m = Ok l -> exists P id, parts_of x m P /\ path_name (m_name m) = Ok id /\ rust_ident (mx_uni x) id /\
  l = pt_top x m ++ pt_docs P ++ [GPub; GMod id (pt_body m P)].
Proof.
  intros x m l H. rewrite mod_generate_eq in H. cbv zeta in H.
  apply bind_Ok in H as (scope & Hscope & H). apply bind_Ok in H as (lt & Hlt & H). apply bind_Ok in H as (docs & Hdoc & H).
  apply bind_Ok in H as (imports & Him & H). apply bind_Ok in H as (prelude & Hpre & H). apply bind_Ok in H as (tv & Htv & H).
  apply bind_Ok in H as (classes & Hcl & H). apply bind_Ok in H as (functions & Hfn & H). apply bind_Ok in H as (properties & Hpr & H).
  apply bind_Ok in H as (sub & Hsub & H). apply bind_Ok in H as (name & Hname & H). apply bind_Ok in H as (id & Hid & H). injection H as <-.
  exists (mk_parts scope lt docs imports prelude tv classes functions properties sub), id.
  split; [now constructor|]. destruct (ident_to_syn (mx_uni x) name) as [i| | |] eqn:E; try discriminate. injection Hid as <-.
  apply to_syn_ident in E as [-> E]. split; [exact Hname|]. split; [exact E|reflexivity].
Qed.
Lemma mod_generate_ok : forall x m P id, parts_of x m P -> path_name (m_name m) = Ok id -> syn_ident_ok (mx_uni x) id = true ->
  mod_generate x m = Ok (pt_top x m ++ pt_docs P ++ [GPub; GMod id (pt_body m P)]).
Proof.
  intros x m [scope lt docs imports prelude tv classes functions properties sub] id [H1 H2 H3 H4 H5 H6 H7 H8 H9 H10] Hn Hs. cbn in *.
  rewrite mod_generate_eq. cbv zeta. rewrite H1, H2. cbn [obind]. unfold pt_ctx in *. cbn [pt_lt] in *. rewrite H3. cbn [obind].
  unfold use_frag_of in H4. rewrite H4. cbn [obind]. rewrite H5. cbn [obind]. rewrite H6. cbn [obind]. rewrite H7. cbn [obind].
  unfold fn_frags in H8. rewrite H8. cbn [obind]. unfold prop_frags in H9. rewrite H9. cbn [obind]. rewrite H10. cbn [obind]. rewrite Hn. cbn [obind].
  unfold ident_to_syn, as_rs. rewrite Hs. reflexivity.
Qed.
Lemma when_In : forall {A B} b (f : A -> outcome (list B)) l r, when b (concatM f l) = Ok r -> b = true ->
  forall a, In a l -> exists k, f a = Ok k /\ incl k r.
Proof.
  intros A B b f l r H -> a Ha. cbn in H. apply bind_Ok in H as (ks & Hks & H). injection H as <-.
  destruct (mapM_In_l _ _ _ _ Hks Ha) as (k & Hk & E). exists k. split; [exact E|]. intros y Hy. apply in_concat. now exists k.
Qed.
Lemma when_from : forall {A B} b (f : A -> outcome (list B)) l r y, when b (concatM f l) = Ok r -> In y r ->
  b = true /\ exists a k, In a l /\ f a = Ok k /\ In y k.
Proof.
  intros A B b f l r y H Hy. destruct b; [|now injection H as <-]. split; [reflexivity|]. cbn in H. apply bind_Ok in H as (ks & Hks & H). injection H as <-.
  apply in_concat in Hy as (k & Hk & Hy). destruct (mapM_In _ _ _ _ Hks Hk) as (a & Ha & E). now exists a, k.
Qed.

(** ** The shape of each part *)
Lemma doc_only : forall g d l, gen_doc g d = Ok l -> forall x, In x l -> exists t, x = GDoc t.
Proof. intros g d l H x Hx. now apply (gen_doc_only_docs _ _ _ _ H). Qed.

Lemma use_shape : forall U i l, use_frag_of U i = Ok l -> l = [] \/ exists v, l = [GPub; GUse v] /\ import_generate U i = Ok (Some v).
Proof. intros U i l H. apply bind_Ok in H as ([v|] & Hv & H); injection H as <-; [right|now left]. now exists v. Qed.
Lemma prelude_shape : forall U m l, drop_err (gen_prelude U m) = Ok l -> l = [] \/ exists id ex, l = [GPub; GMod id [GPub; GUseSuper ex]] /\ gen_prelude U m = Ok l.
Proof.
  intros U m l H. destruct (gen_prelude U m) as [k| | |] eqn:E; try discriminate; injection H as <-; [|now left].
  unfold gen_prelude in E. destruct (m_prelude m); [injection E as <-; now left|]. apply bind_Ok in E as (kept & _ & E). apply bind_Ok in E as (ex & _ & E).
  destruct ex as [|e ex]; [injection E as <-; now left|]. apply bind_Ok in E as (c & _ & E). apply bind_Ok in E as (id & _ & E). injection E as <-.
  right. now exists id, (e :: ex).
Qed.
Lemma var_shape : forall U p l, type_var_generate U p = Ok l -> exists n, path_name p = Ok n /\ rust_ident U n /\ l = [GPub; GType n].
Proof.
  intros U p l H. apply bind_Ok in H as (n & Hn & H). apply bind_Ok in H as (id & Hid & H). injection H as <-. apply to_syn_ident in Hid as [-> Hid]. now exists n.
Qed.
Lemma fn_shape : forall g scope f l, fn_frags g scope f = Ok l -> (fn_typ f = FFunction \/ fn_typ f = FClosure) ->
  exists n, path_name (fn_name f) = Ok n /\
  ((fn_ident (g_uni g) n = None /\ l = []) \/
   exists docs d a, gen_doc g (fn_doc f) = Ok docs /\ fn_ident (g_uni g) n = Some (k_name (f_contract d)) /\ f_body d = BCallMethod (as_py n) a /\ l = docs ++ [GPub; GFn d]).
Proof.
  intros g scope f l H Ht. apply bind_Ok in H as (i & Hi & H). unfold fn_generate in Hi.
  apply bind_Ok in Hi as (docs & Hdoc & Hi). apply bind_Ok in Hi as (n & Hn & Hi). exists n. split; [exact Hn|].
  destruct (fn_ident (g_uni g) n) as [id|] eqn:Eid; [|left; injection Hi as <-; split; [reflexivity|]; now injection H as <-].
  right. apply bind_Ok in Hi as (ids & _ & Hi). apply bind_Ok in Hi as (preps & _ & Hi). apply bind_Ok in Hi as (tys & _ & Hi). apply bind_Ok in Hi as (rt & _ & Hi).
  apply bind_Ok in Hi as ([pb k] & Hk & Hi). apply bind_Ok in Hi as (od & Hd & Hi).
  assert (K : pb = true /\ k_name k = id).
  { unfold gen_contract in Hk. destruct Ht as [E|E]; rewrite E in Hk; injection Hk as <- <-; now split. }
  destruct K as [-> Kn]. destruct od as [d|].
  - apply bind_Ok in Hi as (pos & _ & Hi). apply bind_Ok in Hi as (kw & _ & Hi). injection Hi as <-.
    destruct Ht as [E|E]; rewrite E in H; cbn in H; injection H as <-; (eexists docs, _, _; split; [exact Hdoc|]; split; [|split; [|reflexivity]]; [cbn; now rewrite Kn|reflexivity]).
  - exfalso. unfold gen_disp in Hd. destruct Ht as [E|E]; rewrite E in Hd; repeat (apply bind_Ok in Hd as (? & _ & Hd)); discriminate.
Qed.
(** Getter and setter *)
Lemma getter_shape : forall g scope p t l, gen_getter g scope p = Ok (t, l) -> exists n id, path_name (pr_name p) = Ok n /\ getter_ident (g_uni g) scope n = Ok id /\
  match id with
  | None => t = [] /\ l = []
  | Some id => exists docs d ty, gen_doc g (pr_doc p) = Ok docs /\ k_name (f_contract d) = id /\ f_body d = BGet (as_py n) /\ k_params (f_contract d) = [] /\
                 into_rs_owned (g_cx g) (pr_ann p) = Ok ty /\ k_ret (f_contract d) = RetType ty /\
                 k_self (f_contract d) = owner_is_class (pr_owner p) /\ prop_disp g p = Ok (f_disp d) /\
                 t = declare (pr_owner p) (f_contract d) /\ l = docs ++ [GFn d]
  end.
Proof.
  intros g scope p t l H. unfold gen_getter in H. apply bind_Ok in H as (docs & Hd & H). apply bind_Ok in H as (n & Hn & H). apply bind_Ok in H as (id & Hid & H).
  exists n, id. split; [exact Hn|]. split; [exact Hid|]. destruct id as [id|]; [|now injection H as <- <-].
  apply bind_Ok in H as (ty & Hty & H). apply bind_Ok in H as (dd & Hdd & H). injection H as <- <-.
  eexists docs, _, ty. repeat split; try eassumption; reflexivity.
Qed.
Lemma setter_shape : forall g scope p t l, gen_setter g scope p = Ok (t, l) -> exists n id, path_name (pr_name p) = Ok n /\ prefixed_ident (g_uni g) scope "set_" n = Ok id /\
  match id with
  | None => t = [] /\ l = []
  | Some id => exists docs d ty, gen_doc g (pr_setter_doc p) = Ok docs /\ k_name (f_contract d) = id /\ f_body d = BSet (as_py n) p_value /\
                 into_rs_borrowed (g_cx g) (pr_ann p) = Ok ty /\ k_params (f_contract d) = [(p_value, ty)] /\ k_ret (f_contract d) = RetUnit /\
                 k_self (f_contract d) = owner_is_class (pr_owner p) /\ prop_disp g p = Ok (f_disp d) /\
                 t = declare (pr_owner p) (f_contract d) /\ l = docs ++ [GFn d]
  end.
Proof.
  intros g scope p t l H. unfold gen_setter in H. apply bind_Ok in H as (docs & Hd & H). apply bind_Ok in H as (n & Hn & H). apply bind_Ok in H as (id & Hid & H).
  exists n, id. split; [exact Hn|]. split; [exact Hid|]. destruct id as [id|]; [|now injection H as <- <-].
  apply bind_Ok in H as (pr & Hpr & H). apply bind_Ok in H as (ty & Hty & H). apply bind_Ok in H as (dd & Hdd & H). injection H as <- <-.
  eexists docs, _, ty. repeat split; try eassumption; reflexivity.
Qed.
Lemma prop_shape : forall g scope p l, prop_frags g scope p = Ok l -> pr_owner p = OwnerModule -> pr_mutable p = true ->
  exists gt gi st si, gen_getter g scope p = Ok (gt, gi) /\ gen_setter g scope p = Ok (st, si) /\ l = GPub :: gi ++ GPub :: si.
Proof.
  intros g scope p l H Ho Hm. apply bind_Ok in H as (i & Hi & H). unfold prop_generate in Hi. apply bind_Ok in Hi as ([gt gi] & Hg & Hi).
  rewrite Hm in Hi. apply bind_Ok in Hi as ([st si] & Hs & Hi). rewrite Ho in Hi. injection Hi as <-. injection H as <-. now exists gt, gi, st, si.
Qed.

(** ** Which part a nested module comes from *)
Lemma mods_of_docs : forall l, (forall x, In x l -> exists t, x = GDoc t) -> forall n b, ~ In (GMod n b) l.
Proof. intros l H n b Hin. destruct (H _ Hin) as [t E]. discriminate. Qed.
Ltac no_docs H := let t := fresh in let E := fresh in apply in_app_or in H as [H|H]; [match goal with D : forall x, In x _ -> exists t, x = GDoc t |- _ => destruct (D _ H) as [t E]; discriminate end|].
Lemma class_no_mod : forall g c l n b, class_generate g c = Ok l -> ~ In (GMod n b) l.
Proof.
  intros g c l n b H Hin. unfold class_generate in H. apply bind_Ok in H as (docs & Hd & H). apply bind_Ok in H as (nm & _ & H).
  destruct (struct_ident _ _); [|now injection H as <-]. apply bind_Ok in H as (sc & _ & H). apply bind_Ok in H as (ms & _ & H). apply bind_Ok in H as (ps & _ & H).
  apply bind_Ok in H as (tid & _ & H). injection H as <-. apply in_app_or in Hin as [Hin|Hin].
  - destruct (doc_only _ _ _ Hd _ Hin) as [t E]. discriminate.
  - cbn in Hin. repeat (destruct Hin as [Hin|Hin]; [discriminate|]). exact Hin.
Qed.
Lemma fn_no_mod : forall g scope f l n b, fn_frags g scope f = Ok l -> ~ In (GMod n b) l.
Proof.
  intros g scope f l n b H Hin. apply bind_Ok in H as (i & Hi & H). unfold fn_generate in Hi.
  apply bind_Ok in Hi as (docs & Hdoc & Hi). apply bind_Ok in Hi as (nm & Hn & Hi).
  destruct (fn_ident (g_uni g) nm) as [id|]; [|injection Hi as <-; now injection H as <-].
  repeat (apply bind_Ok in Hi as (? & _ & Hi)). destruct x3 as [pb k]. repeat (apply bind_Ok in Hi as (? & _ & Hi)). destruct x3 as [d|]; [|injection Hi as <-; discriminate].
  repeat (apply bind_Ok in Hi as (? & _ & Hi)). injection Hi as <-. destruct (is_bound _); [discriminate|]. injection H as <-.
  apply in_app_or in Hin as [Hin|Hin]; [destruct (doc_only _ _ _ Hdoc _ Hin) as [t E]; discriminate|].
  apply in_app_or in Hin as [Hin|[Hin|[]]]; [|discriminate]. destruct pb; [destruct Hin as [Hin|[]]; discriminate|easy].
Qed.
Lemma prop_no_mod : forall g scope f l n b, prop_frags g scope f = Ok l -> ~ In (GMod n b) l.
Proof.
  intros g scope p l n b H Hin. apply bind_Ok in H as (i & Hi & H). unfold prop_generate in Hi. apply bind_Ok in Hi as ([gt gi] & Hg & Hi).
  apply bind_Ok in Hi as ([st si] & Hs & Hi). destruct (pr_owner p) eqn:Eo; injection Hi as <-; [|discriminate]. injection H as <-.
  assert (Kg : ~ In (GMod n b) gi).
  { apply getter_shape in Hg as (nm & id & _ & _ & Hg). destruct id as [id|]; [|now destruct Hg as [_ ->]].
    destruct Hg as (docs & d & ty & Hd & _ & _ & _ & _ & _ & _ & _ & _ & ->). intros K. apply in_app_or in K as [K|[K|[]]]; [|discriminate].
    destruct (doc_only _ _ _ Hd _ K) as [t E]; discriminate. }
  assert (Ks : ~ In (GMod n b) si).
  { destruct (pr_mutable p); [|now injection Hs as _ <-]. apply setter_shape in Hs as (nm & id & _ & _ & Hs). destruct id as [id|]; [|now destruct Hs as [_ ->]].
    destruct Hs as (docs & d & ty & Hd & _ & _ & _ & _ & _ & _ & _ & _ & ->). intros K. apply in_app_or in K as [K|[K|[]]]; [|discriminate].
    destruct (doc_only _ _ _ Hd _ K) as [t E]; discriminate. }
  destruct Hin as [Hin|Hin]; [discriminate|]. apply in_app_or in Hin as [Hin|Hin]; [auto|]. destruct (pr_mutable p); [|easy].
  destruct Hin as [Hin|Hin]; [discriminate|auto].
Qed.
(** A module in the body is the prelude or a submodule. *)
Lemma body_mods : forall x m P n b, parts_of x m P -> In (GMod n b) (pt_body m P) ->
  In (GMod n b) (pt_prelude P) \/ exists s l, In s (m_subs m) /\ mod_generate x s = Ok l /\ In (GMod n b) l.
Proof.
  intros x m P n b HP Hin. unfold pt_body in Hin.
  apply in_app_or in Hin as [Hin|Hin]; [unfold gen_embed in Hin; destruct (m_source m); [cbn in Hin; repeat (destruct Hin as [Hin|Hin]; [discriminate|])|]; easy|].
  apply in_app_or in Hin as [Hin|Hin].
  { destruct (when_from _ _ _ _ _ (po_imports _ _ _ HP) Hin) as (_ & i & k & _ & Hk & Hin'). apply use_shape in Hk as [->|(v & -> & _)]; [easy|].
    destruct Hin' as [E|[E|[]]]; discriminate. }
  apply in_app_or in Hin as [Hin|Hin]; [now left|].
  apply in_app_or in Hin as [Hin|Hin].
  { destruct (when_from _ _ _ _ _ (po_vars _ _ _ HP) Hin) as (_ & i & k & _ & Hk & Hin'). apply var_shape in Hk as (v & _ & _ & ->). destruct Hin' as [E|[E|[]]]; discriminate. }
  apply in_app_or in Hin as [Hin|Hin].
  { destruct (when_from _ _ _ _ _ (po_classes _ _ _ HP) Hin) as (_ & i & k & _ & Hk & Hin'). now apply class_no_mod with (n := n) (b := b) in Hk. }
  apply in_app_or in Hin as [Hin|Hin].
  { destruct (when_from _ _ _ _ _ (po_fns _ _ _ HP) Hin) as (_ & i & k & _ & Hk & Hin'). now apply fn_no_mod with (n := n) (b := b) in Hk. }
  apply in_app_or in Hin as [Hin|Hin].
  { destruct (when_from _ _ _ _ _ (po_props _ _ _ HP) Hin) as (_ & i & k & _ & Hk & Hin'). now apply prop_no_mod with (n := n) (b := b) in Hk. }
  right. destruct (when_from _ _ _ _ _ (po_subs _ _ _ HP) Hin) as (_ & s & k & Hs & Hk & Hin'). now exists s, k.
Qed.
Lemma generated_mods : forall x m l n b, mod_generate x m = Ok l -> In (GMod n b) l -> exists P, parts_of x m P /\ path_name (m_name m) = Ok n /\ rust_ident (mx_uni x) n /\ b = pt_body m P.
Proof.
  intros x m l n b H Hin. apply mod_generate_inv in H as (P & id & HP & Hn & Hr & ->). exists P.
  apply in_app_or in Hin as [Hin|Hin]; [unfold pt_top in Hin; destruct (in_dec _ _ _); [destruct Hin as [E|[]]; discriminate|easy]|].
  apply in_app_or in Hin as [Hin|Hin]; [destruct (doc_only _ _ _ (po_docs _ _ _ HP) _ Hin) as [t E]; discriminate|].
  destruct Hin as [E|[E|[]]]; [discriminate|]. injection E as <- <-. auto.
Qed.
(** Every scope of the output is the body of a module or a prelude. *)
Lemma scopes_of : forall x ns n b k m l, mod_generate x m = Ok l -> In (GMod n b) l -> at_path b ns k ->
  (exists ex, k = [GPub; GUseSuper ex]) \/ exists m' P, within m' m /\ parts_of x m' P /\ k = pt_body m' P.
Proof.
  intros x. induction ns as [|n' ns IH]; intros n b k m l H Hin Hk; destruct (generated_mods x m l n b H Hin) as (P & HP & _ & _ & ->).
  - inversion Hk; subst. right. exists m, P. split; [constructor|]. now split.
  - inversion Hk as [|l0 n0 b0 ns0 k0 Hb Hk0]; subst. destruct (body_mods _ _ _ _ _ HP Hb) as [Hp|(s & ls & Hs & Hls & Hin')].
    + pose proof (po_prelude _ _ _ HP) as Hpre. destruct (generate_preludes _); [|injection Hpre as E; now rewrite <- E in Hp]. cbn in Hpre.
      apply prelude_shape in Hpre as [E|(id & ex & E & _)]; rewrite E in Hp; [easy|]. destruct Hp as [Hp|[Hp|[]]]; [discriminate|]. injection Hp as <- <-.
      left. inversion Hk0 as [|l1 n1 b1 ns1 k1 Hb1]; subst; [now exists ex|]. destruct Hb1 as [Hb1|[Hb1|[]]]; discriminate.
    + destruct (IH n' b0 k s ls Hls Hin' Hk0) as [K|(m' & P' & K1 & K2)]; [now left|right]. exists m', P'. split; [now apply (within_sub m' m s)|exact K2].
Qed.

(** ** From requests to scopes of the output *)
Section output.
  Variable x : penv.
  Variables (numpy : bool) (fuel : nat) (l : list request) (c : codegen) (out : list frag).
  Hypothesis Ho : order_ok (pe_ord x).
  Hypothesis Hc : asks x fuel l cg_new = Ok c.
  Hypothesis Hout : cg_generate x numpy fuel c = Ok out.

  Lemma output_scopes : exists ms, final_modules x fuel c = Ok ms /\ forall ns k, at_path out ns k ->
    (ns = [] /\ forall f, In f k -> leads f = true \/ exists n b, f = GMod n b) \/
    (exists ex, k = [GPub; GUseSuper ex]) \/
    exists m k' P, In m ms /\ within k' m /\ parts_of (gen_ctx x numpy ms) k' P /\ k = pt_body k' P.
  Proof.
    unfold cg_generate in Hout. apply bind_Ok in Hout as (ms & Hf & H). exists ms. split; [exact Hf|]. intros ns k Hk.
    apply bind_Ok in H as (ls & Hls & H). injection H as <-.
    assert (K : forall y, In y (concat ls) -> exists m lm, In m ms /\ mod_generate (gen_ctx x numpy ms) m = Ok lm /\ In y lm).
    { intros y Hy. apply in_concat in Hy as (lm & Hlm & Hy). destruct (mapM_In _ _ _ _ Hls Hlm) as (m & Hm & E). now exists m, lm. }
    inversion Hk as [l0|l0 n b ns0 k0 Hin Hk0]; subst.
    - left. split; [reflexivity|]. intros f Hfin. destruct (K f Hfin) as (m & lm & Hm & Hg & Hin). apply mod_generate_inv in Hg as (P & id & HP & _ & _ & ->).
      apply in_app_or in Hin as [Hin|Hin]; [unfold pt_top in Hin; destruct (in_dec _ _ _); [destruct Hin as [<-|[]]; now left|easy]|].
      apply in_app_or in Hin as [Hin|Hin]; [destruct (doc_only _ _ _ (po_docs _ _ _ HP) _ Hin) as [t ->]; now left|].
      destruct Hin as [<-|[<-|[]]]; [now left|right; eauto].
    - right. destruct (K _ Hin) as (m & lm & Hm & Hg & Hin'). destruct (scopes_of _ _ _ _ _ _ _ Hg Hin' Hk0) as [Q|(k' & P & Q1 & Q2 & Q3)]; [now left|right].
      exists m, k', P. auto.
  Qed.
End output.

(** Fragments of a class in the body come from the part with the classes. *)
Definition class_frag (f : frag) : bool := kind_eqb (kind_of f) KClass.
Lemma mod_lead_or_mod : forall x m l f, mod_generate x m = Ok l -> In f l -> leads f = true \/ exists n b, f = GMod n b.
Proof.
  intros x m l f H Hin. apply mod_generate_inv in H as (P & id & HP & _ & _ & ->).
  apply in_app_or in Hin as [Hin|Hin]; [unfold pt_top in Hin; destruct (in_dec _ _ _); [destruct Hin as [<-|[]]; now left|easy]|].
  apply in_app_or in Hin as [Hin|Hin]; [destruct (doc_only _ _ _ (po_docs _ _ _ HP) _ Hin) as [t ->]; now left|].
  destruct Hin as [<-|[<-|[]]]; [now left|right; eauto].
Qed.
Lemma fn_part_frag : forall g scope f l y, fn_frags g scope f = Ok l -> In y l -> (fn_typ f = FFunction \/ fn_typ f = FClosure) ->
  leads y = true \/ exists d, y = GFn d /\ fn_kind (f_body d) = KFunction.
Proof.
  intros g scope f l y H Hy Ht. apply fn_shape in H as (n & _ & [[_ ->]|(docs & d & a & Hd & _ & Hb & ->)]); [easy| |exact Ht].
  apply in_app_or in Hy as [Hy|[<-|[<-|[]]]]; [|now left|right; exists d; rewrite Hb; now split].
  destruct (doc_only _ _ _ Hd _ Hy) as [t ->]. now left.
Qed.
Lemma prop_part_frag : forall g scope p l y, prop_frags g scope p = Ok l -> In y l ->
  leads y = true \/ exists d, y = GFn d /\ fn_kind (f_body d) = KProperty.
Proof.
  intros g scope p l y H Hy. apply bind_Ok in H as (i & Hi & H). unfold prop_generate in Hi. apply bind_Ok in Hi as ([gt gi] & Hg & Hi).
  apply bind_Ok in Hi as ([st si] & Hs & Hi). destruct (pr_owner p) eqn:Eo; injection Hi as <-; [|discriminate]. injection H as <-.
  assert (Kg : In y gi -> leads y = true \/ exists d, y = GFn d /\ fn_kind (f_body d) = KProperty).
  { intros K. apply getter_shape in Hg as (nm & id & _ & _ & Hg). destruct id as [id|]; [|now destruct Hg as [_ ->]].
    destruct Hg as (docs & d & ty & Hd & _ & Hb & _ & _ & _ & _ & _ & _ & ->). apply in_app_or in K as [K|[<-|[]]]; [|right; exists d; now rewrite Hb].
    destruct (doc_only _ _ _ Hd _ K) as [t ->]; now left. }
  assert (Ks : In y si -> leads y = true \/ exists d, y = GFn d /\ fn_kind (f_body d) = KProperty).
  { intros K. destruct (pr_mutable p); [|now injection Hs as _ <-]. apply setter_shape in Hs as (nm & id & _ & _ & Hs). destruct id as [id|]; [|now destruct Hs as [_ ->]].
    destruct Hs as (docs & d & ty & Hd & _ & Hb & _ & _ & _ & _ & _ & _ & ->). apply in_app_or in K as [K|[<-|[]]]; [|right; exists d; now rewrite Hb].
    destruct (doc_only _ _ _ Hd _ K) as [t ->]; now left. }
  destruct Hy as [<-|Hy]; [now left|]. apply in_app_or in Hy as [Hy|Hy]; [auto|]. destruct (pr_mutable p); [|easy].
  destruct Hy as [<-|Hy]; [now left|auto].
Qed.
Lemma body_frag : forall x m P f, parts_of x m P -> (forall f, In f (m_functions m) -> fn_typ f = FFunction \/ fn_typ f = FClosure) -> In f (pt_body m P) ->
  leads f = true \/
  (exists a b s, f = GEmbed a b s /\ In f (gen_embed m)) \/ (exists u, f = GUse u /\ In f (pt_imports P)) \/ (exists n b, f = GMod n b /\ In f (pt_prelude P)) \/
  (exists n, f = GType n /\ In f (pt_vars P)) \/ In f (pt_classes P) \/
  (exists d, f = GFn d /\ fn_kind (f_body d) = KFunction /\ In f (pt_fns P)) \/ (exists d, f = GFn d /\ fn_kind (f_body d) = KProperty /\ In f (pt_props P)) \/
  (exists n b, f = GMod n b /\ In f (pt_subs P)).
Proof.
  intros x m P f HP Hty Hin. unfold pt_body in Hin. destruct (leads f) eqn:El; [now left|right].
  apply in_app_or in Hin as [Hin|Hin].
  { left. pose proof Hin as Hin'. unfold gen_embed in Hin'. destruct (m_source m); [|easy]. cbn in Hin'.
    repeat (destruct Hin' as [<-|Hin']; [first [discriminate|do 3 eexists; split; [reflexivity|exact Hin]]|]). easy. }
  right. apply in_app_or in Hin as [Hin|Hin].
  { left. destruct (when_from _ _ _ _ _ (po_imports _ _ _ HP) Hin) as (_ & i & k & _ & Hk & Hin'). apply use_shape in Hk as [->|(v & -> & _)]; [easy|].
    destruct Hin' as [<-|[<-|[]]]; [discriminate|]. eauto. }
  right. apply in_app_or in Hin as [Hin|Hin].
  { left. pose proof (po_prelude _ _ _ HP) as Hpre. destruct (generate_preludes _); [|injection Hpre as E; now rewrite <- E in Hin]. cbn in Hpre.
    apply prelude_shape in Hpre as [E|(id & ex & E & _)]; rewrite E in Hin |- *; [easy|]. pose proof Hin as Hin'. destruct Hin' as [<-|[<-|[]]]; [discriminate|]. eauto. }
  right. apply in_app_or in Hin as [Hin|Hin].
  { left. destruct (when_from _ _ _ _ _ (po_vars _ _ _ HP) Hin) as (_ & i & k & _ & Hk & Hin'). apply var_shape in Hk as (v & _ & _ & ->).
    destruct Hin' as [<-|[<-|[]]]; [discriminate|eauto]. }
  right. apply in_app_or in Hin as [Hin|Hin]; [now left|]. right.
  apply in_app_or in Hin as [Hin|Hin].
  { left. destruct (when_from _ _ _ _ _ (po_fns _ _ _ HP) Hin) as (_ & i & k & Hi & Hk & Hin'). destruct (fn_part_frag _ _ _ _ _ Hk Hin' (Hty i Hi)) as [E|(d & -> & Hd)]; [congruence|]. eauto. }
  right. apply in_app_or in Hin as [Hin|Hin].
  { left. destruct (when_from _ _ _ _ _ (po_props _ _ _ HP) Hin) as (_ & i & k & _ & Hk & Hin'). destruct (prop_part_frag _ _ _ _ _ Hk Hin') as [E|(d & -> & Hd)]; [congruence|]. eauto. }
  right. destruct (when_from _ _ _ _ _ (po_subs _ _ _ HP) Hin) as (_ & s & k & Hs & Hk & Hin'). destruct (mod_lead_or_mod _ _ _ _ Hk Hin') as [E|(n & b & ->)]; [congruence|]. eauto.
Qed.
Lemma parts_table : forall x m P, parts_of x m P -> relative_table (g_cx (pt_ctx x P)).
Proof. intros x m P HP k v Hkv. exact (local_relative _ _ _ _ _ (po_lt _ _ _ HP) k v Hkv). Qed.

(** ** C63 *)
Lemma class_traits : forall g c l, uni_ok (g_uni g) -> relative_table (g_cx g) -> (forall p, In p (cl_props c) -> pr_owner p = OwnerClass) ->
  class_generate g c = Ok l ->
  (forall t n impls, In (GImplFor t n impls) l -> exists defs, In (GTrait t defs) l /\ In (GStruct n) l /\ declared defs = defined impls) /\
  (forall t defs, In (GTrait t defs) l -> exists n impls, In (GImplFor t n impls) l /\ declared defs = defined impls).
Proof.
  intros g c l HU HT Hp H. destruct (class_shape g c l HU HT Hp H) as [->|(docs & id & tid & m & Hd & _ & _ & (_ & _ & _ & M4) & ->)]; [split; easy|].
  split.
  - intros t n impls Hin. exists (mb_defs m).
    assert (E : t = tid /\ n = id /\ impls = mb_impls m).
    { apply in_app_or in Hin as [Hin|Hin]; [destruct (Hd _ Hin) as [s E]; discriminate|]. cbn in Hin.
      repeat (destruct Hin as [Hin|Hin]; [try discriminate; injection Hin as <- <- <-; auto|]). easy. }
    destruct E as (-> & -> & ->). split; [|split; [|exact M4]].
    + apply in_or_app. right. cbn. auto 20.
    + apply in_or_app. right. cbn. auto.
  - intros t defs Hin. exists id, (mb_impls m).
    assert (E : t = tid /\ defs = mb_defs m).
    { apply in_app_or in Hin as [Hin|Hin]; [destruct (Hd _ Hin) as [s E]; discriminate|]. cbn in Hin.
      repeat (destruct Hin as [Hin|Hin]; [try discriminate; injection Hin as <- <-; auto|]). easy. }
    destruct E as (-> & ->). split; [|exact M4]. apply in_or_app. right. cbn. auto 20.
Qed.
(** Fragments of a class in some scope of the output come from a class that was parsed. *)
Lemma output_classes : forall x numpy fuel l c out, order_ok (pe_ord x) -> asks x fuel l cg_new = Ok c ->
  cg_generate x numpy fuel c = Ok out -> forall ns k f, at_path out ns k -> In f k -> class_frag f = true ->
  exists g d ld, uni_ok (pe_uni x) -> relative_table (g_cx g) /\ g_uni g = pe_uni x /\ (forall p, In p (cl_props d) -> pr_owner p = OwnerClass) /\
    class_generate g d = Ok ld /\ In f ld /\ incl ld k.
Proof.
  intros x numpy fuel l c out Ho Hc Hout ns k f Hk Hin Hf.
  destruct (output_scopes x numpy fuel c out Hout) as (ms & Hfin & S). destruct (S ns k Hk) as [[_ K]|[(ex & ->)|(m & k' & P & Hm & Hk' & HP & ->)]].
  - exfalso. destruct (K _ Hin) as [K'|(? & ? & ->)]; [destruct f; discriminate|]. cbn in Hf. unfold class_frag in Hf. cbn in Hf. now destruct (is_prelude _).
  - destruct Hin as [<-|[<-|[]]]; discriminate.
  - destruct (final_typed x fuel l c ms Ho Hc Hfin m k' Hm Hk') as (T1 & T2 & T3).
    destruct (body_frag _ _ _ _ HP T3 Hin) as [E|[(?&?&?&->&_)|[(?&->&_)|[(?&?&->&_)|[(?&->&_)|[Hcl|[(?&->&E&_)|[(?&->&E&_)|(?&?&->&_)]]]]]]]]; try discriminate;
      try (exfalso; unfold class_frag in Hf; cbn in Hf; solve [now destruct (is_prelude _)|now rewrite E in Hf]).
    + destruct f; discriminate.
    + destruct (when_from _ _ _ _ _ (po_classes _ _ _ HP) Hcl) as (Hon & d & ld & Hd & Hld & Hin').
      exists (pt_ctx (gen_ctx x numpy ms) P), d, ld. intros HU. split; [exact (parts_table _ _ _ HP)|]. split; [reflexivity|]. split; [exact (T1 d Hd)|]. split; [exact Hld|]. split; [exact Hin'|].
      destruct (when_In _ _ _ _ (po_classes _ _ _ HP) Hon d Hd) as (ld' & E & I1). rewrite Hld in E. injection E as <-.
      intros y Hy. apply I1 in Hy. unfold pt_body. rewrite !in_app_iff. auto 10.
Qed.
Lemma output_traits : forall x numpy fuel l c out, uni_ok (pe_uni x) -> order_ok (pe_ord x) -> asks x fuel l cg_new = Ok c ->
  cg_generate x numpy fuel c = Ok out -> forall ns k, at_path out ns k ->
  (forall t n impls, In (GImplFor t n impls) k -> exists defs, In (GTrait t defs) k /\ In (GStruct n) k /\ declared defs = defined impls) /\
  (forall t defs, In (GTrait t defs) k -> exists n impls, In (GImplFor t n impls) k /\ declared defs = defined impls).
Proof.
  intros x numpy fuel l c out HU Ho Hc Hout ns k Hk. split.
  - intros t n impls Hin. destruct (output_classes x numpy fuel l c out Ho Hc Hout ns k _ Hk Hin eq_refl) as (g & d & ld & K).
    destruct (K HU) as (K1 & K2 & K3 & K4 & K5 & K6). rewrite <- K2 in HU. destruct (class_traits g d ld HU K1 K3 K4) as [C1 _].
    destruct (C1 _ _ _ K5) as (defs & D1 & D2 & D3). exists defs. auto.
  - intros t defs Hin. destruct (output_classes x numpy fuel l c out Ho Hc Hout ns k _ Hk Hin eq_refl) as (g & d & ld & K).
    destruct (K HU) as (K1 & K2 & K3 & K4 & K5 & K6). rewrite <- K2 in HU. destruct (class_traits g d ld HU K1 K3 K4) as [_ C2].
    destruct (C2 _ _ K5) as (n & impls & D1 & D2). exists n, impls. auto.
Qed.
