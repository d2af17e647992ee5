(** * Lemmas: the generated code is a list of items *)
From Verif Require Import Base Model_Ident Model_Path Model_Import Model_Text Model_Config Model_Type Model_IntoRs Model_World Model_Out
  Model_Function Model_Property Model_Class Model_Module Spec_Path Spec_Names Spec_Call Spec_Items
  Proof_Base Proof_Ident Proof_Path Proof_IntoRs Proof_Call Proof_Function Proof_Fresh Proof_Method Proof_Kind.

(** ** Names and types *)
Lemma syn_rust_ident : forall U n, syn_ident_ok U n = true -> rust_ident U n.
Proof. intros U n H. apply syn_ident_ok_inv in H as [H|H]; [now left|now right]. Qed.
Lemma to_syn_ident : forall U i n, ident_to_syn U i = Ok n -> n = i /\ rust_ident U n.
Proof.
  intros U i n H. unfold ident_to_syn in H. destruct (syn_ident_ok U (as_rs i)) eqn:E; [|discriminate].
  injection H as <-. split; [easy|]. now apply syn_rust_ident.
Qed.
Lemma syn_path_rust : forall U p, syn_path_ok U p = true -> rust_path U (segs p).
Proof.
  intros U p H. unfold syn_path_ok in H. destruct (segs p) as [|i l] eqn:E; [discriminate|].
  split; [easy|]. intros s Hs. rewrite forallb_forall in H. specialize (H s Hs). apply orb_prop in H as [H|H].
  - left. now apply syn_rust_ident.
  - right. unfold path_kw. apply mem_str_In in H. apply existsb_exists. exists s. split; [|apply str_eqb_refl].
    cbn in H |- *. intuition.
Qed.

(** Local names are relative, so their paths have no leading colon. *)
Definition relative_table (c : ctx) : Prop := forall k v, In (k, v) (cx_local c) -> leading_colon v = false.

Lemma ascii_ident : forall U s, uni_ok U -> syn_ident_ok uni_ascii s = true -> rust_ident U s.
Proof.
  intros U s HU H. apply syn_ident_ok_inv in H.
  assert (K : forall t, py_identifier uni_ascii t -> py_identifier U t).
  { intros t (c & r & -> & Hc & Hr). destruct HU as (Hs & Hn & _). exists c, r. split; [easy|]. split.
    - destruct Hc as [Hc|Hc]; [now left|right]. unfold uni_ascii in Hc. cbn in Hc. apply andb_prop in Hc as [H1 H2].
      apply N.ltb_lt in H2. rewrite Hs by easy. easy.
    - intros x Hx. specialize (Hr x Hx). unfold uni_ascii in Hr. cbn in Hr. apply andb_prop in Hr as [H1 H2].
      apply N.ltb_lt in H2. now rewrite Hn. }
  destruct H as [[H1 H2]|(t & -> & H1 & H2)]; [left|right; exists t]; auto.
Qed.
Lemma ascii_path : forall U l, uni_ok U -> l <> [] -> forallb (syn_ident_ok uni_ascii) l = true -> rust_path U l.
Proof.
  intros U l HU Hl H. split; [easy|]. intros s Hs. rewrite forallb_forall in H. left. apply ascii_ident; auto.
Qed.

Lemma all_types_ok : forall U l, (forall t, In t l -> rust_type U t) -> fold_right and True (map (rust_type U) l).
Proof. induction l as [|t l IH]; intros H; cbn; [easy|]. split; [apply H; now left|]. apply IH. intros x Hx. apply H. now right. Qed.

Ltac plain_path HU := apply ascii_path; [exact HU|easy|now vm_compute].
Lemma abs_ok : forall U p l, uni_ok U -> p <> [] -> forallb (syn_ident_ok uni_ascii) p = true -> (forall t, In t l -> rust_type U t) ->
  rust_type U (RAbs p l).
Proof. intros. cbn. split; [now apply ascii_path|now apply all_types_ok]. Qed.
Lemma impl_ok : forall U p l, uni_ok U -> p <> [] -> forallb (syn_ident_ok uni_ascii) p = true -> (forall t, In t l -> rust_type U t) ->
  rust_type U (RImpl p l).
Proof. intros. cbn. split; [now apply ascii_path|now apply all_types_ok]. Qed.

Definition types_ok (U : uni) (r : rty * rty) : Prop := rust_type U (fst r) /\ rust_type U (snd r).

Lemma name_ok : forall U s, uni_ok U -> syn_ident_ok uni_ascii (u s) = true -> rust_type U (RName (u s)).
Proof. intros. cbn. now apply ascii_ident. Qed.

Lemma pyo3_ok : forall U n, uni_ok U -> syn_ident_ok uni_ascii (u n) = true -> rust_type U (pyo3_type n).
Proof.
  intros U n HU H. apply abs_ok; [easy|easy| |easy]. unfold segs_of. cbn [map forallb]. rewrite H. now vm_compute.
Qed.
Lemma bound_ok : forall U n, uni_ok U -> syn_ident_ok uni_ascii (u n) = true -> types_ok U (r_bound n).
Proof. intros U n HU H. split; cbn [fst snd r_bound]; unfold bound_of; cbn [rust_type]; now apply pyo3_ok. Qed.
Lemma into_py_ok : forall U n, uni_ok U -> syn_ident_ok uni_ascii (u n) = true -> rust_type U (into_py_of n).
Proof.
  intros U n HU H. apply impl_ok; [easy|easy|now vm_compute|]. intros t [<-|[]]. apply abs_ok; [easy|easy|now vm_compute|].
  intros t [<-|[]]. now apply pyo3_ok.
Qed.
Lemma any_ok : forall U, uni_ok U -> types_ok U r_any.
Proof. intros U HU. split; cbn [fst snd r_any]; [unfold bound_of; cbn [rust_type]; now apply pyo3_ok|now apply into_py_ok]. Qed.
Lemma std_ok : forall U l, uni_ok U -> forallb (syn_ident_ok uni_ascii) (segs_of l) = true -> rust_type U (r_std l).
Proof. intros U l HU H. apply abs_ok; [easy|easy| |easy]. unfold segs_of in *. cbn [map forallb]. rewrite H. now vm_compute. Qed.
Lemma generic_ok : forall U p l, uni_ok U -> p <> [] -> forallb (syn_ident_ok uni_ascii) (segs_of p) = true -> (forall t, In t l -> rust_type U t) ->
  rust_type U (RAbs (segs_of p) l).
Proof. intros U p l HU Hp H Hl. apply abs_ok; auto. now destruct p. Qed.

Lemma map_type_ok : forall c s r, uni_ok (cx_uni c) -> relative_table c -> map_type c s = Ok r -> types_ok (cx_uni c) r.
Proof.
  intros c s r HU Ht H. unfold map_type, map_external in H. destruct (cx_numpy c && is_ndarray s).
  - injection H as <-. assert (K : rust_type (cx_uni c) r_ndarray).
    { unfold r_ndarray. cbn [rust_type]. apply abs_ok; [easy|easy|now vm_compute|]. intros t [<-|[<-|[]]].
      - apply abs_ok; [easy|easy|now vm_compute|]. intros t [<-|[]]. now apply pyo3_ok.
      - now apply generic_ok. }
    split; exact K.
  - apply bind_Ok in H as (key & _ & H). unfold lt_get in H. destruct (find _ (cx_local c)) as [[k rel]|] eqn:E.
    + cbn [snd] in H. destruct (syn_path_ok (cx_uni c) rel) eqn:Es; [|discriminate]. injection H as <-.
      apply find_some in E as [E _]. split; cbn; (split; [now apply (Ht k)|now apply syn_path_rust]).
    + injection H as <-. now apply any_ok.
Qed.

Ltac leaf HU :=
  unfold types_ok, r_same, r_std, bound_of, pyo3_type; cbn [fst snd rust_type map fold_right];
  repeat match goal with
  | |- _ /\ _ => split
  | |- rust_path _ _ => plain_path HU
  | |- rust_ident _ _ => apply ascii_ident; [exact HU|now vm_compute]
  | |- True => exact I
  end.
Lemma into_rs_ok : forall c, uni_ok (cx_uni c) -> relative_table c -> forall t r, into_rs c t = Ok r -> types_ok (cx_uni c) r.
Proof.
  intros c HU Ht.
  assert (own : forall t i, (forall r, into_rs c t = Ok r -> types_ok (cx_uni c) r) -> omap fst (into_rs c t) = Ok i -> rust_type (cx_uni c) i).
  { intros t i IH H. apply bind_Ok in H as (r & Hr & H). injection H as <-. apply (IH r Hr). }
  fix IH 1. intros t r H. destruct t; cbn [into_rs] in H;
    try (injection H as <-; first [apply any_ok; exact HU | apply bound_ok; [exact HU|now vm_compute]
        | leaf HU; fail]).
  - now apply (map_type_ok c s).
  - apply bind_Ok in H as (i & Hi & H). injection H as <-. pose proof (own _ _ (IH t) Hi) as K.
    split; (apply generic_ok; [exact HU|easy|now vm_compute|]; intros ? [<-|[]]; exact K).
  - apply bind_Ok in H as (v & Hv & H). pose proof (own _ _ (IH t2) Hv) as Kv. destruct (_ && _).
    + apply bind_Ok in H as (k & Hk & H). pose proof (own _ _ (IH t1) Hk) as Kk. injection H as <-.
      split; cbn [fst snd]; (cbn [rust_type] || idtac);
        (apply generic_ok; [exact HU|easy|now vm_compute|]; intros ? [<-|[<-|[]]]; assumption).
    + injection H as <-. split; cbn [fst snd]; [unfold bound_of; cbn [rust_type]; now apply pyo3_ok|]. now apply impl_ok.
  - destruct (is_hashable t); [|injection H as <-; now apply bound_ok].
    apply bind_Ok in H as (i & Hi & H). injection H as <-. pose proof (own _ _ (IH t) Hi) as K.
    split; (apply generic_ok; [exact HU|easy|now vm_compute|]; intros ? [<-|[]]; exact K).
  - apply bind_Ok in H as (i & Hi & H). injection H as <-. pose proof (own _ _ (IH t) Hi) as K. split; exact K.
  - destruct (is_hashable t); [|injection H as <-; now apply bound_ok].
    apply bind_Ok in H as (i & Hi & H). injection H as <-. pose proof (own _ _ (IH t) Hi) as K.
    split; (apply generic_ok; [exact HU|easy|now vm_compute|]; intros ? [<-|[]]; exact K).
  - assert (Kl : forall is, mapM (fun t => omap fst (into_rs c t)) l = Ok is -> forall i, In i is -> rust_type (cx_uni c) i).
    { clear H. induction l as [|t l IHl]; intros is H i Hi; [injection H as <-; easy|]. cbn [mapM] in H.
      apply bind_Ok in H as (y & Hy & H). apply bind_Ok in H as (ys & Hys & H). injection H as <-.
      destruct Hi as [<-|Hi]; [exact (own _ _ (IH t) Hy)|now apply (IHl ys)]. }
    assert (Kt : forall is, mapM (fun t => omap fst (into_rs c t)) l = Ok is -> types_ok (cx_uni c) (r_same (RTup is))).
    { intros is Hi. split; cbn [fst snd r_same rust_type]; apply all_types_ok; now apply Kl. }
    assert (K0 : types_ok (cx_uni c) (bound_of "PyTuple", into_py_of "PyTuple")).
    { split; cbn [fst snd]; [unfold bound_of; cbn [rust_type]; now apply pyo3_ok|now apply into_py_ok]. }
    destruct l as [|x [|y [|z l]]]; try (injection H as <-; exact K0).
    + destruct y; try (apply bind_Ok in H as (is & Hi & H); injection H as <-; now apply Kt).
      apply bind_Ok in H as (i & Hi & H). injection H as <-. pose proof (own _ _ (IH x) Hi) as K. split; exact K.
    + assert (H' : (let! is := mapM (fun t => omap fst (into_rs c t)) (x :: y :: z :: l) in Ok (r_same (RTup is))) = Ok r) by (destruct y; exact H).
      clear H. apply bind_Ok in H' as (is & Hi & H). injection H as <-. now apply Kt.
Qed.

(** ** Sequences of items *)
Lemma items_app : forall item s a b, items item s a -> items item Nothing b -> items item s (a ++ b).
Proof.
  intros item s a b. revert s. induction a as [|x a IH]; intros s Ha Hb; [cbn in Ha; now subst s|].
  destruct x; cbn in Ha |- *; destruct Ha as [H1 H2]; (split; [exact H1|]); now apply IH.
Qed.
Lemma items_concat : forall item l, (forall x, In x l -> items item Nothing x) -> items item Nothing (concat l).
Proof.
  intros item. induction l as [|x l IH]; intros H; cbn [concat]; [reflexivity|]. apply items_app; [apply H; now left|].
  apply IH. intros y Hy. apply H. now right.
Qed.
(** Attributes in front of something that may follow an attribute *)
Lemma items_docs : forall item docs r, (forall x, In x docs -> exists t, x = GDoc t) ->
  items item Nothing r -> items item Attribute r -> items item Nothing (docs ++ r).
Proof.
  intros item docs r Hd H0 H1.
  assert (K : forall docs, (forall x, In x docs -> exists t, x = GDoc t) -> items item Attribute (docs ++ r)).
  { clear docs Hd. induction docs as [|x docs IH]; intros Hd; [exact H1|]. destruct (Hd x (or_introl eq_refl)) as [t ->].
    cbn. split; [discriminate|]. apply IH. intros y Hy. apply Hd. now right. }
  destruct docs as [|x docs]; [exact H0|]. destruct (Hd x (or_introl eq_refl)) as [t ->]. cbn. split; [discriminate|].
  apply K. intros y Hy. apply Hd. now right.
Qed.

(** ** Functions *)
Lemma combine_params : forall U (ids : list ident) (tys : list rty) n t,
  (forall i, In i ids -> rust_ident U i) -> (forall t, In t tys -> rust_type U t) -> In (n, t) (combine ids tys) -> rust_ident U n /\ rust_type U t.
Proof. intros U ids tys n t H1 H2 H. split; [apply H1; now apply in_combine_l in H|apply H2; now apply in_combine_r in H]. Qed.

Lemma fn_ident_rust : forall U n id, fn_ident U n = Some id -> rust_ident U id.
Proof.
  intros U n id H. unfold fn_ident, as_rs in H. destruct (syn_ident_ok U n) eqn:E.
  - destruct (mem_str _ _); [discriminate|]. injection H as <-. now apply syn_rust_ident.
  - destruct (syn_ident_ok U (ident_from_py U _)) eqn:E2; [|discriminate]. injection H as <-. now apply syn_rust_ident.
Qed.

Section generation.
  Variable g : gctx.
  Hypothesis HU : uni_ok (g_uni g).
  Hypothesis HT : relative_table (g_cx g).
  Let U := g_uni g.

  Lemma owned_ok : forall t r, into_rs_owned (g_cx g) t = Ok r -> rust_type U r.
  Proof. intros t r H. apply bind_Ok in H as (q & Hq & H). injection H as <-. now apply (into_rs_ok (g_cx g) HU HT t). Qed.
  Lemma borrowed_ok : forall t r, into_rs_borrowed (g_cx g) t = Ok r -> rust_type U r.
  Proof. intros t r H. apply bind_Ok in H as (q & Hq & H). injection H as <-. now apply (into_rs_ok (g_cx g) HU HT t). Qed.

  Definition impl_ok_at (free : place) (i : fn_impl) : Prop :=
    match i with
    | IFunction l => well_formed U free l
    | IMethod t l => well_formed U InTrait t /\ well_formed U InTraitImpl l /\ declared t = defined l
    end.

  Lemma fn_generate_wf : forall scope f i free, (free = InModule \/ free = InImpl) -> fn_generate g scope f = Ok i -> impl_ok_at free i.
  Proof.
    intros scope f i free Hfree H. unfold fn_generate in H.
    apply bind_Ok in H as (docs & Hdoc & H). apply bind_Ok in H as (name & Hname & H). fold U in H.
    destruct (fn_ident U name) as [id|] eqn:Eid; [|injection H as <-; reflexivity].
    apply bind_Ok in H as (ids & Hids & H). apply bind_Ok in H as (preps & _ & H). apply bind_Ok in H as (tys & Htys & H).
    apply bind_Ok in H as (rt & Hrt & H). apply bind_Ok in H as ([public k] & Hk & H). apply bind_Ok in H as (od & Hd & H).
    destruct od as [d|]; [|injection H as <-; repeat split].
    apply bind_Ok in H as (pos & _ & H). apply bind_Ok in H as (kw & _ & H).
    set (b := match fn_typ f with FMethod _ (MConstructor | MCallable) => _ | _ => _ end) in H.
    set (def := mk_fn k _ _ d b) in H.
    assert (Kdocs : forall x, In x docs -> exists t, x = GDoc t) by (intros x Hx; now apply (gen_doc_only_docs _ _ _ _ Hdoc)).
    assert (Kp : forall n t, In (n, t) (combine ids tys) -> rust_ident U n /\ rust_type U t).
    { intros n t Hin. refine (combine_params U ids tys n t _ _ Hin).
      - intros j Hj. destruct (mapM_In _ _ _ _ Hids Hj) as (p & _ & Hp). unfold param_ident in Hp. now apply to_syn_ident in Hp.
      - intros s Hs. destruct (mapM_In _ _ _ _ Htys Hs) as (p & _ & Hp). now apply borrowed_ok in Hp. }
    assert (Kc : contract_ok U k /\ k_self k = is_bound (fn_typ f) /\ public = negb (is_bound (fn_typ f))).
    { pose proof (fn_ident_rust _ _ _ Eid) as Ki. pose proof (owned_ok _ _ Hrt) as Kr.
      unfold gen_contract in Hk. destruct (fn_typ f) as [|cp m|]; [| destruct m |];
        try (injection Hk as <- <-; exact (conj (conj Ki (conj Kp Kr)) (conj eq_refl eq_refl)));
        (apply bind_Ok in Hk as (c & _ & Hk); apply bind_Ok in Hk as (n & Hn & Hk); injection Hk as <- <-; apply to_syn_ident in Hn as [_ Hn];
          first [exact (conj (conj Hn (conj Kp Kr)) (conj eq_refl eq_refl)) | exact (conj (conj Hn (conj Kp I)) (conj eq_refl eq_refl))]). }
    destruct Kc as (Kc & Ks & Kpub).
    assert (Kd : f_disp def = DSelf -> k_self k = true).
    { intros E. rewrite Ks. cbn in E. subst d. unfold gen_disp in Hd. destruct (fn_typ f) as [|cp m|]; [| destruct m |]; try reflexivity;
        try discriminate; repeat (apply bind_Ok in Hd as (? & _ & Hd)); discriminate. }
    assert (Kf : fn_ok U def).
    { split; [exact Kc|]. split; [|exact Kd]. cbn. now rewrite Ks. }
    destruct (is_bound (fn_typ f)); cbn in Kpub; subst public; injection H as <-; cbn [impl_ok_at app].
    - split; [cbn; auto|]. split.
      + apply items_docs; [exact Kdocs| |]; cbn; auto.
      + clear - Kdocs. induction docs as [|x docs IH]; [reflexivity|]. destruct (Kdocs x (or_introl eq_refl)) as [t ->]. cbn [app defined].
        apply IH. intros y Hy. apply Kdocs. now right.
    - apply items_docs; [exact Kdocs| |]; cbn; (split; [discriminate|]); (split; [|reflexivity]); (split; [exact Kf|]);
        destruct Hfree as [-> | ->]; auto.
  Qed.

  (** ** Properties *)
  Lemma prefixed_rust : forall scope pre name id, prefixed_ident U scope pre name = Ok (Some id) -> rust_ident U id.
  Proof.
    intros scope pre name id H. unfold prefixed_ident in H. destruct (name_taken _ _); [discriminate|].
    apply bind_Ok in H as (n & Hn & H). injection H as <-. now apply to_syn_ident in Hn.
  Qed.
  Lemma getter_rust : forall scope name id, getter_ident U scope name = Ok (Some id) -> rust_ident U id.
  Proof.
    intros scope name id H. unfold getter_ident in H. destruct (_ && _) eqn:E; [|now apply (prefixed_rust scope "get_" name)].
    injection H as <-. apply andb_prop in E as [E _]. now apply syn_rust_ident.
  Qed.

  (** One accessor: its two parts are single items that agree. *)
  Definition accessor_ok (p : property) (m : trait_method) : Prop :=
    (pr_owner p = OwnerClass -> well_formed U InTrait (fst m) /\ well_formed U InTraitImpl (snd m) /\ declared (fst m) = defined (snd m)) /\
    (pr_owner p = OwnerModule -> fst m = [] /\
       (snd m = [] \/ exists docs d, snd m = docs ++ [GFn d] /\ (forall x, In x docs -> exists t, x = GDoc t) /\ fn_ok U d /\ k_self (f_contract d) = false)).

  Lemma defined_docs : forall docs l, (forall x, In x docs -> exists t, x = GDoc t) -> defined (docs ++ l) = defined l.
  Proof.
    intros docs l H. induction docs as [|x docs IH]; [reflexivity|]. destruct (H x (or_introl eq_refl)) as [t ->]. cbn [app defined].
    apply IH. intros y Hy. apply H. now right.
  Qed.
  Lemma accessor_intro : forall p docs d, (forall x, In x docs -> exists t, x = GDoc t) -> fn_ok U d ->
    k_self (f_contract d) = owner_is_class (pr_owner p) -> accessor_ok p (declare (pr_owner p) (f_contract d), docs ++ [GFn d]).
  Proof.
    intros p docs d Hdocs Hd Hs. unfold accessor_ok. cbn [fst snd]. destruct (pr_owner p); cbn [declare owner_is_class] in *; split; try discriminate; intros _.
    - split; [reflexivity|]. right. exists docs, d. auto.
    - split; [cbn; destruct Hd; auto|]. split; [|rewrite defined_docs by exact Hdocs; reflexivity].
      apply items_docs; [exact Hdocs| |]; cbn; auto.
  Qed.
  Lemma prop_disp_self : forall p d, prop_disp g p = Ok d -> d = DSelf -> pr_owner p = OwnerClass.
  Proof.
    intros p d H E. unfold prop_disp in H. destruct (pr_owner p); [|reflexivity].
    repeat (apply bind_Ok in H as (? & _ & H)). injection H as <-. discriminate.
  Qed.
  Lemma getter_wf : forall scope p m, gen_getter g scope p = Ok m -> accessor_ok p m.
  Proof.
    intros scope p m H. unfold gen_getter in H. fold U in H.
    apply bind_Ok in H as (docs & Hdoc & H). apply bind_Ok in H as (name & _ & H). apply bind_Ok in H as (o & Ho & H).
    destruct o as [id|]; [|injection H as <-; split; intros _; cbn; [repeat split|split; auto]].
    apply bind_Ok in H as (t & Ht & H). apply bind_Ok in H as (d & Hd & H). injection H as <-.
    match goal with |- accessor_ok p (declare _ ?k, _ ++ [GFn ?def]) => change k with (f_contract def) end.
    apply accessor_intro; [intros x Hx; now apply (gen_doc_only_docs _ _ _ _ Hdoc)| |reflexivity].
    split; [|cbn; split; [discriminate|intros E; now rewrite (prop_disp_self _ _ Hd E)]].
    split; [cbn; now apply (getter_rust scope name)|]. split; [intros ? ? []|]. cbn. now apply (owned_ok (pr_ann p)).
  Qed.
  Lemma setter_wf : forall scope p m, gen_setter g scope p = Ok m -> accessor_ok p m.
  Proof.
    intros scope p m H. unfold gen_setter in H. fold U in H.
    apply bind_Ok in H as (docs & Hdoc & H). apply bind_Ok in H as (name & _ & H). apply bind_Ok in H as (o & Ho & H).
    destruct o as [id|]; [|injection H as <-; split; intros _; cbn; [repeat split|split; auto]].
    apply bind_Ok in H as (pr & _ & H). apply bind_Ok in H as (t & Ht & H). apply bind_Ok in H as (d & Hd & H). injection H as <-.
    match goal with |- accessor_ok p (declare _ ?k, _ ++ [GFn ?def]) => change k with (f_contract def) end.
    apply accessor_intro; [intros x Hx; now apply (gen_doc_only_docs _ _ _ _ Hdoc)| |reflexivity].
    split; [|cbn; split; [auto|intros E; now rewrite (prop_disp_self _ _ Hd E)]].
    split; [cbn; now apply (prefixed_rust scope "set_" name)|]. split; [|exact I].
    intros n t' [E|[]]. injection E as <- <-. split; [|now apply (borrowed_ok (pr_ann p))]. unfold p_value. apply ascii_ident; [exact HU|now vm_compute].
  Qed.

  Lemma declared_app : forall a b, declared (a ++ b) = declared a ++ declared b.
  Proof. induction a as [|x a IH]; intros b; [reflexivity|]. destruct x; cbn; rewrite ?IH; reflexivity. Qed.
  Lemma defined_app : forall a b, defined (a ++ b) = defined a ++ defined b.
  Proof. induction a as [|x a IH]; intros b; [reflexivity|]. destruct x; cbn; rewrite ?IH; reflexivity. Qed.

  Lemma class_prop_wf : forall scope p i, pr_owner p = OwnerClass -> prop_generate g scope p = Ok i -> impl_ok_at InImpl i.
  Proof.
    intros scope p i Ho H. unfold prop_generate in H. apply bind_Ok in H as ([gt gi] & Hg & H). apply bind_Ok in H as ([st si] & Hs & H).
    apply getter_wf in Hg as [Hg _]. specialize (Hg Ho) as (G1 & G2 & G3). cbn [fst snd] in *. rewrite Ho in H. injection H as <-.
    assert (S : well_formed U InTrait st /\ well_formed U InTraitImpl si /\ declared st = defined si).
    { destruct (pr_mutable p); [|injection Hs as <- <-; repeat split]. apply setter_wf in Hs as [Hs _]. exact (Hs Ho). }
    destruct S as (S1 & S2 & S3). split; [now apply items_app|]. split; [now apply items_app|]. rewrite declared_app, defined_app. congruence.
  Qed.
End generation.
