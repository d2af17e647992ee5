From Verif Require Import Base Model_Ident Model_Path Model_Type Model_IntoRs Spec_Path Spec_Type Spec_Rust
  Proof_Base Proof_Path Proof_Type Proof_Ann.

(** Induction over engine types. *)
Section ptype_ind'.
  Variable P : ptype -> Prop.
  Hypothesis Hopt : forall x, P x -> P (TOptional x).
  Hypothesis Huni : forall l, (forall x, In x l -> P x) -> P (TUnion l).
  Hypothesis Hdict : forall k v, P k -> P v -> P (TDict k v).
  Hypothesis Hfro : forall x, P x -> P (TFrozenSet x).
  Hypothesis Hlist : forall x, P x -> P (TList x).
  Hypothesis Hset : forall x, P x -> P (TSet x).
  Hypothesis Htup : forall l, (forall x, In x l -> P x) -> P (TTuple l).
  Hypothesis Hfun : forall ps r, P (TFunction ps r).
  Hypothesis Hother : forall s, P (TOther s).
  Hypothesis Hleaf : forall t, match t with
    | TOptional _ | TUnion _ | TDict _ _ | TFrozenSet _ | TList _ | TSet _ | TTuple _ | TFunction _ _ | TOther _ => False
    | _ => True end -> P t.
  Fixpoint ptype_ind' (t : ptype) : P t.
  Proof.
    assert (HL : forall l : list ptype, (forall x, In x l -> P x)).
    { refine (fix go l := match l with [] => _ | y :: r => _ end); [intros ? []|].
      intros x [<-|Hx]; [apply ptype_ind'|now apply (go r)]. }
    destruct t; try (apply Hleaf; exact I);
      [apply Hother|apply Hopt|apply Huni|apply Hdict|apply Hfro|apply Hlist|apply Hset|apply Htup|apply Hfun];
      try apply ptype_ind'; now apply HL.
  Defined.
End ptype_ind'.

Definition is_ellipsis (t : ptype) : bool := match t with TEllipsis => true | _ => false end.
Lemma into_tuple : forall c x y l, into_rs c (TTuple (x :: y :: l)) =
  if is_ellipsis y && match l with [] => true | _ => false end
  then (let! i := into_rs_owned c x in Ok (RVec i, RRef (RSlice i)))
  else (let! is := mapM (into_rs_owned c) (x :: y :: l) in Ok (r_same (RTup is))).
Proof. intros c x y l. destruct y; destruct l; reflexivity. Qed.

Lemma owned_of : forall c t o, into_rs_owned c t = Ok o <-> exists b, into_rs c t = Ok (o, b).
Proof.
  intros c t o. unfold into_rs_owned, omap, obind. destruct (into_rs c t) as [[o' b]|?|?|]; split; intros H; try easy.
  - injection H as <-. now exists b.
  - destruct H as (b' & H). now injection H as -> ->.
  - now destruct H.
  - now destruct H.
  - now destruct H.
Qed.

(** ** Inversion of [into_rs] *)
Lemma bind_Ok : forall {A B} (m : outcome A) (f : A -> outcome B) b, obind m f = Ok b -> exists a, m = Ok a /\ f a = Ok b.
Proof. intros A B [a|?|?|] f b H; try easy. now exists a. Qed.

(** The types of local names. *)
Lemma map_type_cases : forall c s o b, map_type c s = Ok (o, b) ->
  (o = r_ndarray /\ b = RRef r_ndarray) \/
  (exists rel, o = RBound (RLocal rel) /\ b = RRef (RBound (RLocal rel))) \/ (o, b) = r_any.
Proof.
  intros c s o b H. unfold map_type in H. destruct (map_external c s) as [[o' b']|] eqn:E.
  - left. unfold map_external in E. destruct (cx_numpy c && is_ndarray s); [|easy]. injection E as <- <-. now injection H as <- <-.
  - right. apply bind_Ok in H as (k & _ & H). destruct (lt_get (cx_local c) k) as [rel|].
    + left. destruct (syn_path_ok _ rel); [|easy]. injection H as <- <-. now exists rel.
    + right. now injection H as <- <-.
Qed.

(** Keys that are accepted and not bad are bool, int, str or a path. *)
Lemma key_cases : forall k, is_hashable k = true -> bad_key k = false -> k = TBool \/ k = TPath \/ k = TLong \/ k = TString.
Proof. intros [] H1 H2; try discriminate; auto. Qed.

Ltac split_leaf t Ht H :=
  destruct t; try (exfalso; exact Ht); cbn in H; injection H as <- <-.

(** ** C19 *)
Lemma mapM_In : forall {A B} (f : A -> outcome B) l r y, mapM f l = Ok r -> In y r -> exists x, In x l /\ f x = Ok y.
Proof.
  induction l as [|x l IH]; intros r y H Hy; [injection H as <-; easy|]. cbn [mapM] in H.
  apply bind_Ok in H as (a & Ha & H). apply bind_Ok in H as (r' & Hr & H). injection H as <-.
  destruct Hy as [<-|Hy]; [exists x; split; [now left|easy]|]. destruct (IH r' y Hr Hy) as (z & ? & ?). exists z. split; [now right|easy].
Qed.

Lemma keys_good : forall c t o b, good_keys t = true -> into_rs c t = Ok (o, b) ->
  keys_hashable o = true /\ keys_hashable b = true.
Proof.
  intros c t. induction t as [x IH|l IH|k v IHk IHv|x IH|x IH|x IH|l IH|ps r|s|t Ht] using ptype_ind'; intros o b Hg H.
  - cbn in H. apply bind_Ok in H as (i & Hi & H). injection H as <- <-. apply owned_of in Hi as (bi & Hi).
    apply IH in Hi; [|easy]. cbn. now rewrite (proj1 Hi).
  - cbn in H. injection H as <- <-. easy.
  - cbn [good_keys] in Hg. apply andb_prop in Hg as [Hg Hv]. apply andb_prop in Hg as [Hk1 Hk2]. apply negb_true_iff in Hk1.
    cbn [into_rs] in H. apply bind_Ok in H as (v' & Hv' & H). apply owned_of in Hv' as (bv & Hv').
    destruct (is_hashable k && negb (mentions_pyany v')) eqn:E.
    + apply andb_prop in E as [E _]. apply bind_Ok in H as (k' & Hk' & H). injection H as <- <-.
      apply IHv in Hv' as [Hv' _]; [|easy].
      cbn. rewrite Hv'. destruct (key_cases k E Hk1) as [->|[->|[->| ->]]]; cbn in Hk'; injection Hk' as <-; easy.
    + injection H as <- <-. easy.
  - cbn [good_keys] in Hg. apply andb_prop in Hg as [Hk1 Hk2]. apply negb_true_iff in Hk1.
    cbn [into_rs] in H. destruct (is_hashable x) eqn:E; [|injection H as <- <-; easy].
    apply bind_Ok in H as (k' & Hk' & H). injection H as <- <-.
    destruct (key_cases x E Hk1) as [->|[->|[->| ->]]]; cbn in Hk'; injection Hk' as <-; easy.
  - cbn in H. apply bind_Ok in H as (i & Hi & H). injection H as <- <-. apply owned_of in Hi as (bi & Hi).
    apply IH in Hi; [|easy]. cbn. easy.
  - cbn [good_keys] in Hg. apply andb_prop in Hg as [Hk1 Hk2]. apply negb_true_iff in Hk1.
    cbn [into_rs] in H. destruct (is_hashable x) eqn:E; [|injection H as <- <-; easy].
    apply bind_Ok in H as (k' & Hk' & H). injection H as <- <-.
    destruct (key_cases x E Hk1) as [->|[->|[->| ->]]]; cbn in Hk'; injection Hk' as <-; easy.
  - cbn [good_keys] in Hg. rewrite forallb_forall in Hg. destruct l as [|x [|y l]]; try (cbn in H; injection H as <- <-; easy).
    rewrite into_tuple in H. destruct (is_ellipsis y && _).
    + apply bind_Ok in H as (i & Hi & H). injection H as <- <-. apply owned_of in Hi as (bi & Hi).
      apply IH in Hi; [|now left|apply Hg; now left]. cbn. easy.
    + apply bind_Ok in H as (is & Hi & H). injection H as <- <-.
      assert (E : forallb keys_hashable is = true); [|cbn; easy]. apply forallb_forall. intros r Hr.
      destruct (mapM_In _ _ _ _ Hi Hr) as (z & Hz & Ez). apply owned_of in Ez as (bz & Ez). apply IH in Ez; [easy|easy|now apply Hg].
  - cbn in H. injection H as <- <-. easy.
  - cbn [into_rs] in H. destruct (map_type_cases c s o b H) as [[-> ->]|[(rel & -> & ->)|E]]; [easy|easy|injection E as -> ->; easy].
  - split_leaf t Ht H; easy.
Qed.

(** ** C21 *)
Lemma paths_good : forall c t o b, no_ip t = true -> into_rs c t = Ok (o, b) ->
  paths_exist o = true /\ paths_exist b = true.
Proof.
  intros c t. induction t as [x IH|l IH|k v IHk IHv|x IH|x IH|x IH|l IH|ps r|s|t Ht] using ptype_ind'; intros o b Hg H.
  - cbn in H. apply bind_Ok in H as (i & Hi & H). injection H as <- <-. apply owned_of in Hi as (bi & Hi).
    apply IH in Hi as [Hi _]; [|easy]. cbn. now rewrite Hi.
  - cbn in H. injection H as <- <-. easy.
  - cbn [no_ip] in Hg. apply andb_prop in Hg as [Hk Hv].
    cbn [into_rs] in H. apply bind_Ok in H as (v' & Hv' & H). apply owned_of in Hv' as (bv & Hv').
    destruct (is_hashable k && negb (mentions_pyany v')) eqn:E.
    + apply bind_Ok in H as (k' & Hk' & H). injection H as <- <-. apply owned_of in Hk' as (bk & Hk').
      apply IHv in Hv' as [Hv' _]; [|easy]. apply IHk in Hk' as [Hk' _]; [|easy]. cbn. now rewrite Hv', Hk'.
    + injection H as <- <-. easy.
  - cbn [into_rs] in H. destruct (is_hashable x) eqn:E; [|injection H as <- <-; easy].
    apply bind_Ok in H as (k' & Hk' & H). injection H as <- <-. apply owned_of in Hk' as (bk & Hk').
    apply IH in Hk' as [Hk' _]; [|easy]. cbn. now rewrite Hk'.
  - cbn in H. apply bind_Ok in H as (i & Hi & H). injection H as <- <-. apply owned_of in Hi as (bi & Hi).
    apply IH in Hi; [|easy]. cbn. easy.
  - cbn [into_rs] in H. destruct (is_hashable x) eqn:E; [|injection H as <- <-; easy].
    apply bind_Ok in H as (k' & Hk' & H). injection H as <- <-. apply owned_of in Hk' as (bk & Hk').
    apply IH in Hk' as [Hk' _]; [|easy]. cbn. now rewrite Hk'.
  - cbn [no_ip] in Hg. rewrite forallb_forall in Hg. destruct l as [|x [|y l]]; try (cbn in H; injection H as <- <-; easy).
    rewrite into_tuple in H. destruct (is_ellipsis y && _).
    + apply bind_Ok in H as (i & Hi & H). injection H as <- <-. apply owned_of in Hi as (bi & Hi).
      apply IH in Hi; [|now left|apply Hg; now left]. cbn. easy.
    + apply bind_Ok in H as (is & Hi & H). injection H as <- <-.
      assert (E : forallb paths_exist is = true); [|cbn; easy]. apply forallb_forall. intros r Hr.
      destruct (mapM_In _ _ _ _ Hi Hr) as (z & Hz & Ez). apply owned_of in Ez as (bz & Ez). apply IH in Ez; [easy|easy|now apply Hg].
  - cbn in H. injection H as <- <-. easy.
  - cbn [into_rs] in H. destruct (map_type_cases c s o b H) as [[-> ->]|[(rel & -> & ->)|E]]; [easy|easy|injection E as -> ->; easy].
  - split_leaf t Ht H; try easy; discriminate.
Qed.

(** ** C20 *)
Lemma owned_topy : forall c t o, good_keys t = true -> no_ip t = true -> small_tuples t = true ->
  into_rs_owned c t = Ok o -> has_topy o = true.
Proof.
  intros c t. induction t as [x IH|l IH|k v IHk IHv|x IH|x IH|x IH|l IH|ps r|s|t Ht] using ptype_ind';
    intros o Hg Hi Hs H; apply owned_of in H as (b & H).
  - cbn in H. apply bind_Ok in H as (i & E & H). injection H as <- <-. apply IH in E; try easy. cbn. now rewrite E.
  - cbn in H. injection H as <- <-. easy.
  - cbn [good_keys no_ip small_tuples] in *. apply andb_prop in Hg as [Hg Hv]. apply andb_prop in Hg as [Hk1 Hk2].
    apply negb_true_iff in Hk1. apply andb_prop in Hi as [_ Hi]. apply andb_prop in Hs as [_ Hs].
    cbn [into_rs] in H. apply bind_Ok in H as (v' & Hv' & H). apply IHv in Hv'; try easy.
    destruct (is_hashable k && negb (mentions_pyany v')) eqn:E; [|injection H as <- <-; easy].
    apply andb_prop in E as [E _]. apply bind_Ok in H as (k' & Hk' & H). injection H as <- <-.
    destruct (key_cases k E Hk1) as [->|[->|[->| ->]]]; cbn in Hk'; injection Hk' as <-; cbn; now rewrite Hv'.
  - cbn [good_keys] in Hg. apply andb_prop in Hg as [Hk1 Hk2]. apply negb_true_iff in Hk1.
    cbn [into_rs] in H. destruct (is_hashable x) eqn:E; [|injection H as <- <-; easy].
    apply bind_Ok in H as (k' & Hk' & H). injection H as <- <-.
    destruct (key_cases x E Hk1) as [->|[->|[->| ->]]]; cbn in Hk'; injection Hk' as <-; easy.
  - cbn in H. apply bind_Ok in H as (i & E & H). injection H as <- <-. now apply IH in E.
  - cbn [good_keys] in Hg. apply andb_prop in Hg as [Hk1 Hk2]. apply negb_true_iff in Hk1.
    cbn [into_rs] in H. destruct (is_hashable x) eqn:E; [|injection H as <- <-; easy].
    apply bind_Ok in H as (k' & Hk' & H). injection H as <- <-.
    destruct (key_cases x E Hk1) as [->|[->|[->| ->]]]; cbn in Hk'; injection Hk' as <-; easy.
  - cbn [good_keys no_ip small_tuples] in *. apply andb_prop in Hs as [Hlen Hs]. rewrite forallb_forall in *.
    destruct l as [|x [|y l]]; try (cbn in H; injection H as <- <-; easy).
    rewrite into_tuple in H. destruct (is_ellipsis y && _).
    + apply bind_Ok in H as (i & E & H). injection H as <- <-. cbn.
      apply (IH x) in E; [easy|now left|apply Hg; now left|apply Hi; now left|apply Hs; now left].
    + apply bind_Ok in H as (is & E & H). injection H as <- <-. pose proof (mapM_length _ _ _ E) as El.
      cbn [has_topy]. rewrite El, Hlen. cbn [length Nat.leb andb]. apply forallb_forall. intros r Hr.
      destruct (mapM_In _ _ _ _ E Hr) as (z & Hz & Ez). apply (IH z) in Ez; auto.
  - cbn in H. injection H as <- <-. easy.
  - cbn [into_rs] in H. destruct (map_type_cases c s o b H) as [[-> ->]|[(rel & -> & ->)|E]]; [easy|easy|injection E as -> ->; easy].
  - split_leaf t Ht H; try easy; discriminate.
Qed.

(** Brackets: a key of the table never comes from a text with a bracket. *)
Lemma before_bracket_none : forall s, ~ In c_lbr s -> before_bracket s = s.
Proof.
  induction s as [|c s IH]; intros H; [easy|]. cbn. destruct (N.eqb_spec c c_lbr) as [->|]; [exfalso; apply H; now left|].
  f_equal. apply IH. intros Hi. apply H. now right.
Qed.
Lemma in_join_of : forall (c : char) (sep : str) l, In c (join sep l) -> (exists x, In x l /\ In c x) \/ In c sep.
Proof.
  intros c sep l. induction l as [|x l IH]; intros H; [easy|]. destruct l as [|y l].
  - left. exists x. split; [now left|easy].
  - rewrite join_cons in H. apply in_app_or in H as [H|H]; [left; exists x; split; [now left|easy]|].
    apply in_app_or in H as [H|H]; [now right|]. destruct (IH H) as [(z & Hz & Hc)|Hs]; [left; exists z; split; [now right|easy]|now right].
Qed.
Lemma bracket_in_path : forall U s, In c_lbr s -> exists i, In i (segs (path_from_py U s)) /\ In 91%N i.
Proof.
  intros U s H. rewrite <- (join_split_char c_dot s) in H. apply in_join_of in H as [(p & Hp & Hc)|[H|[]]]; [|easy].
  exists (ident_from_py U p). split.
  - destruct s as [|c s]; [cbn in Hp; destruct Hp as [<-|[]]; easy|]. cbn [path_from_py segs]. apply in_or_app. right.
    apply in_map. apply filter_In. split; [easy|]. now destruct p.
  - unfold ident_from_py, py_to_rs. destruct (syn_ident_ok U p); [easy|]. apply in_or_app. now right.
Qed.
Lemma lt_get_In : forall lt p q, lt_get lt p = Some q -> exists k, In (k, q) lt /\ path_eqb k p = true.
Proof.
  intros lt p q H. unfold lt_get in H. destruct (find _ lt) as [[k v]|] eqn:E; [|easy]. injection H as <-.
  apply find_In in E as [E1 E2]. now exists k.
Qed.

Lemma prep_applicable : forall c t o b p, table_ok (cx_local c) ->
  good_keys t = true -> no_ip t = true -> small_tuples t = true ->
  into_rs c t = Ok (o, b) -> preprocess_borrowed c t = Ok p ->
  exists r, after p b = Some r /\ has_topy r = true.
Proof.
  intros c t o b p Hlt Hg Hi Hs H Hp.
  assert (Ho : has_topy o = true) by (apply (owned_topy c t); try easy; apply owned_of; now exists b).
  destruct t; try (cbn in H, Hp; injection H as <- <-; injection Hp as <-; eexists; split; [reflexivity|easy]).
  - (* TOther *)
    cbn [into_rs preprocess_borrowed] in *. unfold map_type in H. destruct (map_external c s) as [[o' b']|] eqn:E.
    + injection Hp as <-. injection H as -> ->. unfold map_external in E. destruct (cx_numpy c && is_ndarray s); [|easy].
      injection E as <- <-. eexists. split; reflexivity.
    + apply bind_Ok in H as (k & Ek & H). apply bind_Ok in Hp as (k' & Ek' & Hp). injection Hp as <-.
      destruct (lt_get (cx_local c) k) as [rel|] eqn:El.
      * destruct (syn_path_ok _ rel); [|easy]. injection H as <- <-.
        destruct (lt_mem (cx_local c) k'); eexists; split; reflexivity.
      * injection H as <- <-. unfold lt_mem. destruct (lt_get (cx_local c) k') as [rel|] eqn:El'; [|eexists; split; reflexivity].
        exfalso. unfold path_from_py_chk in Ek, Ek'.
        destruct (cx_dbg c && contains_str dcolon s); [easy|]. injection Ek' as <-.
        destruct (cx_dbg c && _); [easy|]. injection Ek as <-.
        destruct (in_dec N.eq_dec c_lbr s) as [Hb|Hb].
        -- apply lt_get_In in El' as (k & Hk & Heq). apply path_eqb_eq in Heq. subst k.
           destruct (bracket_in_path (cx_uni c) s Hb) as (i & Hii & Hc). now apply (Hlt _ _ Hk i).
        -- rewrite before_bracket_none in El by easy. congruence.
  - (* TOptional *)
    cbn [into_rs] in H. apply bind_Ok in H as (i & Ei & H). injection H as <- <-.
    assert (Hn : forall q, q = PrepNone -> exists r, after q (r_option i) = Some r /\ has_topy r = true)
      by (intros q ->; eexists; split; [reflexivity|exact Ho]).
    destruct t; try (cbn in Hp; injection Hp as <-; now apply Hn).
    cbn [preprocess_borrowed] in Hp. apply bind_Ok in Hp as (nd & En & Hp). injection Hp as <-.
    destruct nd; [|now apply Hn]. unfold dict_needs_prep in En.
    apply owned_of in Ei as (bi & Ei). cbn [into_rs] in Ei. apply bind_Ok in Ei as (v' & Ev & Ei).
    assert (E : is_hashable t1 && negb (mentions_pyany v') = false).
    { destruct (is_hashable t1); [|easy]. cbn [negb] in En. apply bind_Ok in En as (v'' & Ev' & En). unfold into_rs_owned in Ev'.
      rewrite Ev' in Ev. injection Ev as ->. injection En as ->. easy. }
    rewrite E in Ei. injection Ei as <- <-. eexists. split; reflexivity.
  - (* TDict *)
    cbn [preprocess_borrowed] in Hp. apply bind_Ok in Hp as (nd & En & Hp). injection Hp as <-.
    cbn [into_rs] in H. apply bind_Ok in H as (v' & Ev & H). unfold dict_needs_prep in En.
    destruct nd.
    + assert (E : is_hashable t1 && negb (mentions_pyany v') = false).
      { destruct (is_hashable t1); [|easy]. cbn [negb] in En. apply bind_Ok in En as (v'' & Ev' & En). unfold into_rs_owned in Ev'.
        rewrite Ev' in Ev. injection Ev as ->. injection En as ->. easy. }
      rewrite E in H. injection H as <- <-. eexists. split; reflexivity.
    + assert (E : is_hashable t1 && negb (mentions_pyany v') = true).
      { destruct (is_hashable t1); [|easy]. cbn [negb] in En. apply bind_Ok in En as (v'' & Ev' & En). unfold into_rs_owned in Ev'.
        rewrite Ev' in Ev. injection Ev as ->. injection En as ->. easy. }
      rewrite E in H. apply bind_Ok in H as (k' & Ek & H). injection H as <- <-.
      eexists. split; [reflexivity|]. exact Ho.
  - (* TFrozenSet *)
    cbn in Hp. injection Hp as <-. cbn [into_rs] in H. destruct (is_hashable t); [|injection H as <- <-; eexists; split; reflexivity].
    apply bind_Ok in H as (i & Ei & H). injection H as <- <-. eexists. split; [reflexivity|]. exact Ho.
  - cbn in Hp. injection Hp as <-. cbn [into_rs] in H. apply bind_Ok in H as (i & Ei & H). injection H as <- <-.
    eexists. split; [reflexivity|]. exact Ho.
  - cbn in Hp. injection Hp as <-. cbn [into_rs] in H. destruct (is_hashable t); [|injection H as <- <-; eexists; split; reflexivity].
    apply bind_Ok in H as (i & Ei & H). injection H as <- <-. eexists. split; [reflexivity|]. exact Ho.
  - destruct l as [|x [|y l]]; try (cbn in H, Hp; injection H as <- <-; injection Hp as <-; eexists; split; reflexivity).
    cbn in Hp. injection Hp as <-. rewrite into_tuple in H. destruct (is_ellipsis y && _).
    + apply bind_Ok in H as (i & Ei & H). injection H as <- <-. eexists. split; [reflexivity|]. exact Ho.
    + apply bind_Ok in H as (i & Ei & H). injection H as <- <-. eexists. split; [reflexivity|]. exact Ho.
Qed.

(** Totality: no panic in a release build if all relative paths are valid Rust paths. *)
Lemma into_rs_total : forall c t, cx_dbg c = false ->
  (forall k v, In (k, v) (cx_local c) -> syn_path_ok (cx_uni c) v = true) -> exists r, into_rs c t = Ok r.
Proof.
  intros c t Hd Hv.
  assert (Howned : forall x, (exists r, into_rs c x = Ok r) -> exists o, into_rs_owned c x = Ok o).
  { intros x ([o b] & E). exists o. apply owned_of. now exists b. }
  induction t as [x IH|l IH|k v IHk IHv|x IH|x IH|x IH|l IH|ps r|s|t Ht] using ptype_ind'.
  - destruct (Howned _ IH) as (o & Eo). unfold into_rs_owned in Eo. cbn [into_rs]. rewrite Eo. eexists. reflexivity.
  - eexists. reflexivity.
  - destruct (Howned _ IHv) as (o & Eo). destruct (Howned _ IHk) as (o' & Eo'). unfold into_rs_owned in *. cbn [into_rs]. rewrite Eo. cbn [obind].
    destruct (is_hashable k && _); [|eexists; reflexivity]. rewrite Eo'. eexists. reflexivity.
  - destruct (Howned _ IH) as (o & Eo). unfold into_rs_owned in Eo. cbn [into_rs]. destruct (is_hashable x); [|eexists; reflexivity].
    rewrite Eo. eexists. reflexivity.
  - destruct (Howned _ IH) as (o & Eo). unfold into_rs_owned in Eo. cbn [into_rs]. rewrite Eo. eexists. reflexivity.
  - destruct (Howned _ IH) as (o & Eo). unfold into_rs_owned in Eo. cbn [into_rs]. destruct (is_hashable x); [|eexists; reflexivity].
    rewrite Eo. eexists. reflexivity.
  - destruct l as [|x [|y l]]; [eexists; reflexivity|eexists; reflexivity|]. rewrite into_tuple. destruct (is_ellipsis y && _).
    + destruct (Howned x (IH x (or_introl eq_refl))) as (o & ->). eexists. reflexivity.
    + assert (E : exists is, mapM (into_rs_owned c) (x :: y :: l) = Ok is).
      { assert (Hall : forall z, In z (x :: y :: l) -> exists o, into_rs_owned c z = Ok o) by (intros z Hz; apply Howned; now apply IH).
        clear IH. induction (x :: y :: l) as [|z r IH]; [eexists; reflexivity|]. cbn [mapM].
        destruct (Hall z (or_introl eq_refl)) as (o & ->). cbn [obind].
        destruct IH as (is & ->); [intros; apply Hall; now right|]. eexists. reflexivity. }
      destruct E as (is & ->). eexists. reflexivity.
  - eexists. reflexivity.
  - cbn [into_rs]. unfold map_type. destruct (map_external c s) as [r|]; [now exists r|].
    unfold path_from_py_chk. rewrite Hd. cbn [andb obind]. destruct (lt_get (cx_local c) _) as [rel|] eqn:E; [|eexists; reflexivity].
    apply lt_get_In in E as (k & Hk & _). rewrite (Hv k rel Hk). eexists. reflexivity.
  - destruct t; try (exfalso; exact Ht); eexists; reflexivity.
Qed.

Lemma prep_total : forall c t, cx_dbg c = false ->
  (forall k v, In (k, v) (cx_local c) -> syn_path_ok (cx_uni c) v = true) -> exists p, preprocess_borrowed c t = Ok p.
Proof.
  intros c t Hd Hv.
  assert (Hdp : forall k v, exists b, dict_needs_prep c k v = Ok b).
  { intros k v. unfold dict_needs_prep. destruct (is_hashable k); [|eexists; reflexivity]. cbn [negb].
    destruct (into_rs_total c v Hd Hv) as ([o b] & E). assert (E' : into_rs_owned c v = Ok o) by (apply owned_of; now exists b).
    rewrite E'. eexists. reflexivity. }
  destruct t; try (eexists; reflexivity).
  - cbn [preprocess_borrowed]. destruct (map_external c s); [eexists; reflexivity|]. unfold path_from_py_chk. rewrite Hd. eexists. reflexivity.
  - destruct t; try (eexists; reflexivity). cbn [preprocess_borrowed]. destruct (Hdp t1 t2) as (b & ->). eexists. reflexivity.
  - cbn [preprocess_borrowed]. destruct (Hdp t1 t2) as (b & ->). eexists. reflexivity.
  - destruct l as [|x [|y l]]; eexists; reflexivity.
Qed.

(** ** C61 *)
Lemma mapM_Forall2 : forall {A B} (f : A -> outcome B) l r, mapM f l = Ok r -> Forall2 (fun x y => f x = Ok y) l r.
Proof.
  induction l as [|x l IH]; intros r H; [injection H as <-; constructor|]. cbn [mapM] in H.
  apply bind_Ok in H as (a & Ha & H). apply bind_Ok in H as (r' & Hr & H). injection H as <-. constructor; auto.
Qed.

Lemma owned_arrives : forall c t o, faithful t = true -> into_rs_owned c t = Ok o -> arrives o t.
Proof.
  intros c t. induction t as [x IH|l IH|k v IHk IHv|x IH|x IH|x IH|l IH|ps r|s|t Ht] using ptype_ind';
    intros o Hf H; apply owned_of in H as (b & H).
  - cbn in H. apply bind_Ok in H as (i & E & H). injection H as <- <-. apply ar_option. now apply IH.
  - cbn in H. injection H as <- <-. apply ar_untyped.
  - cbn [faithful] in Hf. apply andb_prop in Hf as [Hk Hv].
    cbn [into_rs] in H. apply bind_Ok in H as (v' & Hv' & H).
    destruct (is_hashable k && negb (mentions_pyany v')); [|injection H as <- <-; now apply ar_bound].
    apply bind_Ok in H as (k' & Hk' & H). injection H as <- <-. apply ar_dict; [now apply IHk|now apply IHv].
  - cbn [faithful] in Hf. apply negb_true_iff in Hf. cbn [into_rs] in H. rewrite Hf in H. injection H as <- <-. now apply ar_bound.
  - cbn in H. apply bind_Ok in H as (i & E & H). injection H as <- <-. apply ar_vec. now apply IH.
  - cbn [into_rs] in H. destruct (is_hashable x); [|injection H as <- <-; now apply ar_bound].
    apply bind_Ok in H as (k' & Hk' & H). injection H as <- <-. apply ar_set. now apply IH.
  - cbn [faithful] in Hf. apply andb_prop in Hf as [Hf Hne]. rewrite forallb_forall in Hf.
    destruct l as [|x [|y l]]; try (cbn in H; injection H as <- <-; now apply ar_bound).
    rewrite into_tuple in H. replace (is_ellipsis y && _) with false in H by (destruct y, l; easy).
    apply bind_Ok in H as (is & E & H). injection H as <- <-. apply ar_tuple. apply mapM_Forall2 in E. clear Hne.
    induction E as [|a r l0 l' Ha E IHE]; constructor.
    + apply IH; [now left|apply Hf; now left|easy].
    + apply IHE; intros; [apply IH|apply Hf]; try easy; now right.
  - cbn in H. injection H as <- <-. now apply ar_bound.
  - cbn [into_rs] in H. destruct (map_type_cases c s o b H) as [[-> ->]|[(rel & -> & ->)|E]];
      [apply ar_numpy|apply ar_local|injection E as -> ->; apply ar_untyped].
  - destruct t; try (exfalso; exact Ht); try discriminate; cbn in H; injection H as <- <-;
      first [apply ar_untyped | now apply ar_bound | constructor].
Qed.

(** The borrowed type is the owned one up to references, slices and conversions. *)
Lemma passed_arrives : forall c t o b p, table_ok (cx_local c) -> faithful t = true ->
  into_rs c t = Ok (o, b) -> preprocess_borrowed c t = Ok p ->
  exists r, after p b = Some r /\ arrives r t.
Proof.
  intros c t o b p Hlt Hf H Hp.
  assert (Ho : arrives o t) by (apply (owned_arrives c t); try easy; apply owned_of; now exists b).
  destruct t; try discriminate;
    try (cbn in H, Hp; injection H as <- <-; injection Hp as <-; eexists; split; [reflexivity|];
         first [exact Ho | apply ar_ref; first [exact Ho | apply ar_untyped | constructor]]).
  - (* TOther *)
    cbn [into_rs preprocess_borrowed] in *. unfold map_type in H. destruct (map_external c s) as [[o' b']|] eqn:E.
    + injection Hp as <-. injection H as -> ->. unfold map_external in E. destruct (cx_numpy c && is_ndarray s); [|easy].
      injection E as <- <-. eexists. split; [reflexivity|]. apply ar_ref, ar_numpy.
    + apply bind_Ok in H as (k & Ek & H). apply bind_Ok in Hp as (k' & Ek' & Hp). injection Hp as <-.
      destruct (lt_get (cx_local c) k) as [rel|] eqn:El.
      * destruct (syn_path_ok _ rel); [|easy]. injection H as <- <-.
        destruct (lt_mem (cx_local c) k'); eexists; (split; [reflexivity|]); apply ar_ref; [apply ar_local|apply ar_untyped].
      * injection H as <- <-. unfold lt_mem. destruct (lt_get (cx_local c) k') as [rel|] eqn:El';
          [|eexists; split; [reflexivity|]; apply ar_ref, ar_untyped].
        exfalso. unfold path_from_py_chk in Ek, Ek'.
        destruct (cx_dbg c && contains_str dcolon s); [easy|]. injection Ek' as <-.
        destruct (cx_dbg c && _); [easy|]. injection Ek as <-.
        destruct (in_dec N.eq_dec c_lbr s) as [Hb|Hb].
        -- apply lt_get_In in El' as (k & Hk & Heq). apply path_eqb_eq in Heq. subst k.
           destruct (bracket_in_path (cx_uni c) s Hb) as (i & Hii & Hc). now apply (Hlt _ _ Hk i).
        -- rewrite before_bracket_none in El by easy. congruence.
  - (* TOptional *)
    cbn [into_rs] in H. apply bind_Ok in H as (i & Ei & H). injection H as <- <-.
    assert (Hn : forall q, q = PrepNone -> exists r, after q (r_option i) = Some r /\ arrives r (TOptional t))
      by (intros q ->; eexists; split; [reflexivity|exact Ho]).
    destruct t; try (cbn in Hp; injection Hp as <-; now apply Hn).
    cbn [preprocess_borrowed] in Hp. apply bind_Ok in Hp as (nd & En & Hp). injection Hp as <-.
    destruct nd; [|now apply Hn]. unfold dict_needs_prep in En.
    apply owned_of in Ei as (bi & Ei). cbn [into_rs] in Ei. apply bind_Ok in Ei as (v' & Ev & Ei).
    assert (E : is_hashable t1 && negb (mentions_pyany v') = false).
    { destruct (is_hashable t1); [|easy]. cbn [negb] in En. apply bind_Ok in En as (v'' & Ev' & En). unfold into_rs_owned in Ev'.
      rewrite Ev' in Ev. injection Ev as ->. injection En as ->. easy. }
    rewrite E in Ei. injection Ei as <- <-. eexists. split; [reflexivity|]. apply ar_some. now apply ar_bound.
  - (* TDict *)
    cbn [preprocess_borrowed] in Hp. apply bind_Ok in Hp as (nd & En & Hp). injection Hp as <-.
    cbn [into_rs] in H. apply bind_Ok in H as (v' & Ev & H). unfold dict_needs_prep in En.
    assert (E : is_hashable t1 && negb (mentions_pyany v') = negb nd).
    { destruct (is_hashable t1); [|now injection En as <-]. cbn [negb] in En. apply bind_Ok in En as (v'' & Ev' & En). unfold into_rs_owned in Ev'.
      rewrite Ev' in Ev. injection Ev as ->. injection En as ->. easy. }
    rewrite E in H. destruct nd; cbn [negb] in H.
    + injection H as <- <-. eexists. split; [reflexivity|]. now apply ar_bound.
    + apply bind_Ok in H as (k' & Ek & H). injection H as <- <-. eexists. split; [reflexivity|]. apply ar_ref. exact Ho.
  - (* TFrozenSet *)
    cbn in Hp. injection Hp as <-. cbn [into_rs] in H. destruct (is_hashable t); [|injection H as <- <-; eexists; split; [reflexivity|]; apply ar_ref; exact Ho].
    apply bind_Ok in H as (i & Ei & H). injection H as <- <-. eexists. split; [reflexivity|]. apply ar_ref. exact Ho.
  - cbn in Hp. injection Hp as <-. cbn [into_rs] in H. apply bind_Ok in H as (i & Ei & H). injection H as <- <-.
    eexists. split; [reflexivity|]. apply ar_ref, ar_slice. now apply (owned_arrives c).
  - cbn in Hp. injection Hp as <-. cbn [into_rs] in H. destruct (is_hashable t); [|injection H as <- <-; eexists; split; [reflexivity|]; apply ar_ref; exact Ho].
    apply bind_Ok in H as (i & Ei & H). injection H as <- <-. eexists. split; [reflexivity|]. apply ar_ref. exact Ho.
  - destruct l as [|x [|y l]]; try (cbn in H, Hp; injection H as <- <-; injection Hp as <-; eexists; split; [reflexivity|]; apply ar_ref; now apply ar_bound).
    cbn in Hp. injection Hp as <-. cbn [faithful] in Hf. apply andb_prop in Hf as [_ Hne].
    rewrite into_tuple in H. replace (is_ellipsis y && _) with false in H by (destruct y, l; easy).
    apply bind_Ok in H as (i & Ei & H). injection H as <- <-. eexists. split; [reflexivity|]. exact Ho.
Qed.

(** [None] survives unless the annotation is an optional dict without a Rust counterpart. *)
Lemma none_kept : forall c t p, preprocess_borrowed c (TOptional t) = Ok p -> none_after p = NoneEmptyDict ->
  exists k v, t = TDict k v /\ dict_needs_prep c k v = Ok true.
Proof.
  intros c t p Hp Hn. destruct t; try (cbn in Hp; injection Hp as <-; discriminate).
  cbn [preprocess_borrowed] in Hp. apply bind_Ok in Hp as (nd & En & Hp). injection Hp as <-. destruct nd; [|discriminate].
  now exists t1, t2.
Qed.

(** ** C22 *)
Lemma before_bracket_app : forall s q, ~ In c_lbr s -> maybe_args q -> before_bracket (s ++ q) = s.
Proof.
  induction s as [|c s IH]; intros q Hs Hq.
  - destruct Hq as [->|(r & ->)]; reflexivity.
  - cbn. destruct (N.eqb_spec c c_lbr) as [->|]; [exfalso; apply Hs; now left|]. f_equal. apply IH; [|easy]. intros Hi. apply Hs. now right.
Qed.
Lemma before_bracket_idem : forall s, before_bracket (before_bracket s) = before_bracket s.
Proof.
  induction s as [|c s IH]; [easy|]. cbn. destruct (c =? c_lbr)%N eqn:E; [easy|]. cbn. rewrite E. now rewrite IH.
Qed.
Lemma last_opt_split : forall l (x : str), last_opt l = Some x -> exists l', l = l' ++ [x].
Proof.
  induction l as [|y l IH]; intros x H; [easy|]. destruct l as [|z l].
  - injection H as <-. now exists [].
  - destruct (IH x H) as (l' & ->). now exists (y :: l').
Qed.
Lemma ndarray_names : forall s, is_ndarray s = true -> names_ndarray (before_bracket s).
Proof.
  intros s H. unfold is_ndarray in H. destruct (last_opt (split_char c_dot (before_bracket s))) as [n|] eqn:E; [|easy].
  apply str_eqb_eq in H. apply last_opt_split in E as (l & E).
  exists (match l with [] => [] | _ => join [c_dot] l ++ [c_dot] end), n. split; [|split].
  - rewrite <- (join_split_char c_dot (before_bracket s)) at 1. rewrite E. destruct l as [|x l]; [reflexivity|].
    rewrite (join_app [c_dot] (x :: l) [n]) by easy. now rewrite <- app_assoc.
  - exact H.
  - destruct l as [|x l]; [now left|]. right. now exists (join [c_dot] (x :: l)).
Qed.

Definition keys_unique (lt : table) : Prop := forall k v v', In (k, v) lt -> In (k, v') lt -> v = v'.

Lemma lt_get_some : forall lt k v, keys_unique lt -> In (k, v) lt -> lt_get lt k = Some v.
Proof.
  intros lt k v Hu Hi. destruct (lt_get lt k) as [v'|] eqn:E.
  - apply lt_get_In in E as (k' & Hk & Heq). apply path_eqb_eq in Heq. subst k'. f_equal. now apply (Hu k).
  - exfalso. unfold lt_get in E. destruct (find _ lt) eqn:F; [easy|]. apply (find_none _ _ F) in Hi. cbn in Hi.
    assert (path_eqb k k = true) by now apply path_eqb_eq. congruence.
Qed.

Lemma other_path : forall c s q, (cx_dbg c = false \/ contains_str dcolon s = false) -> ~ In 91%N s -> maybe_args q ->
  (cx_numpy c = false \/ ~ names_ndarray s) ->
  into_rs c (TOther (s ++ q)) = match lt_get (cx_local c) (path_from_py (cx_uni c) s) with
    | Some rel => if syn_path_ok (cx_uni c) rel then Ok (RBound (RLocal rel), RRef (RBound (RLocal rel))) else Panic PUnwrap
    | None => Ok r_any end.
Proof.
  intros c s q Hd Hb Hq Hn. cbn [into_rs]. unfold map_type.
  assert (E : map_external c (s ++ q) = None).
  { unfold map_external. destruct Hn as [->|Hn]; [easy|]. destruct (is_ndarray (s ++ q)) eqn:E; [|now rewrite andb_false_r].
    exfalso. apply Hn. apply ndarray_names in E. now rewrite before_bracket_app in E. }
  rewrite E, before_bracket_app by easy. unfold path_from_py_chk.
  replace (cx_dbg c && contains_str dcolon s) with false by (destruct Hd as [->| ->]; [easy|now rewrite andb_false_r]).
  reflexivity.
Qed.

Lemma class_named : forall c s q rel, (cx_dbg c = false \/ contains_str dcolon s = false) -> ~ In 91%N s -> maybe_args q ->
  (cx_numpy c = false \/ ~ names_ndarray s) -> keys_unique (cx_local c) ->
  In (path_from_py (cx_uni c) s, rel) (cx_local c) -> syn_path_ok (cx_uni c) rel = true ->
  into_rs c (TOther (s ++ q)) = Ok (RBound (RLocal rel), RRef (RBound (RLocal rel))).
Proof. intros c s q rel Hd Hb Hq Hn Hu Hi Hs. rewrite other_path by easy. rewrite (lt_get_some _ _ rel) by easy. now rewrite Hs. Qed.

Lemma class_unnamed : forall c s q, (cx_dbg c = false \/ contains_str dcolon s = false) -> ~ In 91%N s -> maybe_args q ->
  (cx_numpy c = false \/ ~ names_ndarray s) ->
  (forall rel, ~ In (path_from_py (cx_uni c) s, rel) (cx_local c)) -> into_rs c (TOther (s ++ q)) = Ok r_any.
Proof.
  intros c s q Hd Hb Hq Hn Hi. rewrite other_path by easy. destruct (lt_get _ _) as [rel|] eqn:E; [|easy].
  exfalso. apply lt_get_In in E as (k & Hk & Heq). apply path_eqb_eq in Heq. subst k. now apply (Hi rel).
Qed.

(** Bad keys always give a hash collection without hashable key. *)
Lemma bad_key_unhashable : forall c k o, bad_key k = true -> into_rs_owned c k = Ok o -> has_hash o = false.
Proof.
  intros c k o Hk H. apply owned_of in H as (b & H). destruct k; try discriminate; try (cbn in H; injection H as <- <-; reflexivity).
  - cbn [into_rs] in H. apply bind_Ok in H as (v' & _ & H). destruct (is_hashable k1 && _).
    + apply bind_Ok in H as (k' & _ & H). injection H as <- <-. reflexivity.
    + injection H as <- <-. reflexivity.
  - cbn [into_rs] in H. destruct (is_hashable k); [apply bind_Ok in H as (k' & _ & H)|]; injection H as <- <-; reflexivity.
  - cbn [into_rs] in H. destruct (is_hashable k); [apply bind_Ok in H as (k' & _ & H)|]; injection H as <- <-; reflexivity.
Qed.
Lemma bad_set : forall c k o b, bad_key k = true -> into_rs c (TSet k) = Ok (o, b) ->
  keys_hashable o = false /\ keys_hashable b = false.
Proof.
  intros c k o b Hk H. cbn [into_rs] in H. replace (is_hashable k) with true in H by (destruct k; easy).
  apply bind_Ok in H as (i & Hi & H). injection H as <- <-.
  assert (E : has_hash i = false) by now apply (bad_key_unhashable c k). cbn. rewrite E. now rewrite !andb_false_r.
Qed.

(** The text of a class that is in the table, through reading and conversion. *)
Lemma class_text : forall c dbg n rel, plain_name n -> table_get n name_table = None ->
  (cx_dbg c = false \/ contains_str dcolon n = false) -> (cx_numpy c = false \/ ~ names_ndarray n) ->
  keys_unique (cx_local c) -> In (path_from_py (cx_uni c) n, rel) (cx_local c) -> syn_path_ok (cx_uni c) rel = true ->
  exists t, from_str dbg n = Ok t /\ into_rs c t = Ok (RBound (RLocal rel), RRef (RBound (RLocal rel))).
Proof.
  intros c dbg n rel Hp Ht Hd Hn Hu Hi Hs. exists (TOther n). split.
  - rewrite from_str_name by easy. unfold name_meaning. now rewrite Ht.
  - rewrite <- (app_nil_r n). apply class_named; try easy.
    + destruct Hp as (_ & Hc & _). intros Hb. apply Hc in Hb as [_ Hb]. apply Hb. cbn. tauto.
    + now left.
Qed.
Lemma keys_distinct : forall U l l', (forall s, In s (l ++ l') -> component s /\ s <> u "super") ->
  path_from_py U (dotted 0 l) = path_from_py U (dotted 0 l') -> dotted 0 l = dotted 0 l'.
Proof.
  intros U l l' H E. apply (f_equal to_py) in E. rewrite !path_py_roundtrip in E; try easy; try now left.
  - intros s Hs. apply H. apply in_or_app. now right.
  - intros Hs. now apply (H _ (in_or_app _ _ _ (or_intror Hs))).
  - intros s Hs. apply H. apply in_or_app. now left.
  - intros Hs. now apply (H _ (in_or_app _ _ _ (or_introl Hs))).
Qed.

Lemma plain_keys : forall c k, In k [TBool; TLong; TString; TPath] -> exists k' b, into_rs c k = Ok (k', b) /\ has_hash k' = true /\
  into_rs c (TSet k) = Ok (r_hashset k', RRef (r_hashset k')) /\ into_rs c (TFrozenSet k) = Ok (r_hashset k', RRef (r_hashset k')) /\
  forall v, In v [TBool; TLong; TFloat; TString; TPath; TBytes; TList TLong; TOptional TString] -> exists v' b', into_rs c v = Ok (v', b') /\
    into_rs c (TDict k v) = Ok (r_hashmap k' v', RRef (r_hashmap k' v')).
Proof.
  intros c k Hk. cbn [In] in Hk. repeat destruct Hk as [<-|Hk]; try easy; eexists; eexists; (split; [reflexivity|]); (split; [reflexivity|]);
    (split; [reflexivity|]); (split; [reflexivity|]); intros v Hv; cbn [In] in Hv; repeat destruct Hv as [<-|Hv]; try easy;
    eexists; eexists; split; reflexivity.
Qed.
