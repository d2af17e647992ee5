(** * Lemmas: what becomes of the bindings if more is asked for *)
From Coq Require Import Permutation Lia.
From Verif Require Import Base Model_Ident Model_Path Model_Import Model_Text Model_Config Model_Type Model_IntoRs Model_World Model_Out
  Model_Function Model_Property Model_Class Model_Module Model_Parse Model_Codegen Spec_Path Spec_Names Spec_Rust Spec_Call Spec_Items Spec_Tree Spec_Api Spec_Attr Spec_Safe Spec_Out Spec_Use Spec_Hash Spec_More
  Proof_Base Proof_Ident Proof_Path Proof_Text Proof_IntoRs Proof_Function Proof_Fresh Proof_Items Proof_Module Proof_Parse Proof_Forest Proof_Err Proof_Api Proof_Honest Proof_Calm Proof_Rooted
  Proof_Parts Proof_Switch Proof_Embed Proof_Attr Proof_Distinct Proof_Doc Proof_Use Proof_Full Proof_Order Proof_Hash Proof_Deps Proof_Term Proof_Scope Proof_Twin.

(** ** Conversion with a larger table *)
Definition grown_at (U : uni) (lt lt' : table) (s : str) : Prop :=
  forall q, q = path_from_py U s \/ q = path_from_py U (before_bracket s) -> forall v, lt_get lt q = Some v -> lt_get lt' q = Some v.
Lemma key_fixed : forall c c' k, is_hashable k = true -> bad_key k = false -> into_rs c k = into_rs c' k.
Proof. intros c c' k H B. destruct k; try discriminate; reflexivity. Qed.
Lemma key_plain : forall c k o b, is_hashable k = true -> bad_key k = false -> into_rs c k = Ok (o, b) -> mentions_pyany o = false.
Proof. intros c k o b H B E. destruct k; try discriminate; injection E as <- <-; reflexivity. Qed.
Section conv.
  Variables (d n : bool) (U : uni) (lt lt' : table).
  Let c := mk_ctx d n U lt.
  Let c' := mk_ctx d n U lt'.
  Lemma map_type_grown : forall s o b o' b', grown_at U lt lt' s -> map_type c s = Ok (o, b) -> map_type c' s = Ok (o', b') -> sharper o o' /\ sharper b b' /\ (mentions_pyany o = false -> mentions_pyany o' = false).
  Proof.
    intros s o b o' b' G H H'. unfold map_type in H, H'. change (map_external c' s) with (map_external c s) in H'. destruct (map_external c s) as [[e f]|].
    { injection H as <- <-. injection H' as <- <-. split; [apply sh_same|split; [apply sh_same|auto]]. }
    subst c c'. cbn [cx_dbg cx_uni cx_local] in H, H'. unfold path_from_py_chk in H, H'. destruct (_ && _); [discriminate|]. cbn [obind] in H, H'.
    destruct (lt_get lt (path_from_py U (before_bracket s))) as [v|] eqn:E.
    - rewrite (G _ (or_intror eq_refl) v E) in H'. rewrite H in H'. injection H' as <- <-. split; [apply sh_same|split; [apply sh_same|auto]].
    - injection H as <- <-. destruct (lt_get lt' _) as [v|].
      + destruct (syn_path_ok _ _); [|discriminate]. injection H' as <- <-. split; [apply sh_class|split; [apply sh_class_arg|discriminate]].
      + injection H' as <- <-. split; [apply sh_same|split; [apply sh_same|auto]].
  Qed.
  Definition better (p p' : rty * rty) : Prop :=
    sharper (fst p) (fst p') /\ sharper (snd p) (snd p') /\ (mentions_pyany (fst p) = false -> mentions_pyany (fst p') = false).
  Lemma better_same : forall p, better p p.
  Proof. intros p. split; [apply sh_same|split; [apply sh_same|auto]]. Qed.
  Lemma tuple_grown : forall l r r', (forall y, In y l -> forall p p', into_rs c y = Ok p -> into_rs c' y = Ok p' -> better p p') ->
    mapM (into_rs_owned c) l = Ok r -> mapM (into_rs_owned c') l = Ok r' -> Forall2 sharper r r' /\ (existsb mentions_pyany r = false -> existsb mentions_pyany r' = false).
  Proof.
    induction l as [|a l IH]; intros r r' K H H'; cbn [mapM] in H, H'; [injection H as <-; injection H' as <-; split; [constructor|auto]|].
    apply bind_Ok in H as (o & Ho & H). apply bind_Ok in H as (q & Hq & H). injection H as <-. apply bind_Ok in H' as (o' & Ho' & H'). apply bind_Ok in H' as (q' & Hq' & H'). injection H' as <-.
    unfold into_rs_owned in Ho, Ho'. destruct (into_rs c a) as [p| | |] eqn:E; try discriminate. injection Ho as <-. destruct (into_rs c' a) as [p'| | |] eqn:E'; try discriminate. injection Ho' as <-.
    destruct (K a (or_introl eq_refl) p p' E E') as (B1 & _ & B3). destruct (IH q q') as [F M]; [intros y Hy; apply K; now right|exact Hq|exact Hq'|].
    split; [now constructor|]. cbn [existsb]. rewrite !orb_false_iff. intros [M1 M2]. split; auto.
  Qed.
  Lemma into_rs_grown : forall t p p', good_keys t = true -> (forall s, In s (texts t) -> grown_at U lt lt' s) -> into_rs c t = Ok p -> into_rs c' t = Ok p' -> better p p'.
  Proof.
    intros t. induction t as [x IH|l IH|k v IHk IHv|x IH|x IH|x IH|l IH|ps r|s|t Ht] using ptype_ind'; intros p p' G H E E'; cbn [texts good_keys] in H, G.
    - cbn [into_rs] in E, E'. destruct (into_rs c x) as [q| | |] eqn:F; try discriminate. destruct (into_rs c' x) as [q'| | |] eqn:F'; try discriminate. injection E as <-. injection E' as <-.
      destruct (IH q q' G H eq_refl eq_refl) as (B1 & _ & B3). split; [now apply sh_option|]. split; [now apply sh_option|]. cbn. rewrite !orb_false_r. exact B3.
    - injection E as <-. injection E' as <-. apply better_same.
    - apply andb_true_iff in G as [G Gv]. apply andb_true_iff in G as [Gb Gk]. apply negb_true_iff in Gb. cbn [into_rs] in E, E'.
      destruct (into_rs c v) as [q| | |] eqn:F; try discriminate. destruct (into_rs c' v) as [q'| | |] eqn:F'; try discriminate. cbn [omap obind] in E, E'.
      destruct (IHv q q' Gv (fun s Hs => H s (in_or_app _ _ _ (or_intror Hs))) eq_refl eq_refl) as (B1 & _ & B3).
      destruct (is_hashable k) eqn:Hk; cbn [andb] in E, E'; [|injection E as <-; injection E' as <-; apply better_same].
      rewrite <- (key_fixed c c' k Hk Gb) in E'. destruct (into_rs c k) as [[ko kb]| | |] eqn:Ek; try (destruct (mentions_pyany (fst q')); [|discriminate]; destruct (mentions_pyany (fst q)) eqn:Mq; [|rewrite (B3 eq_refl) in *]; try discriminate).
      + pose proof (key_plain c k ko kb Hk Gb Ek) as Pk. cbn [omap obind fst] in E, E'. destruct (mentions_pyany (fst q)) eqn:Mq; cbn [negb] in E; injection E as <-.
        * destruct (mentions_pyany (fst q')) eqn:Mq'; cbn [negb] in E'; injection E' as <-; [apply better_same|]. split; [apply sh_dict|]. split; [apply sh_dict_arg|]. intros _. cbn. now rewrite Pk, Mq'.
        * rewrite (B3 eq_refl) in E'. cbn [negb] in E'. injection E' as <-. split; [now apply sh_map|]. split; [now apply sh_ref, sh_map|]. cbn. rewrite Pk, (B3 eq_refl). auto.
      + injection E as <-. injection E' as <-. apply better_same.
      + injection E as <-. injection E' as <-. apply better_same.
      + injection E as <-. injection E' as <-. apply better_same.
    - apply andb_true_iff in G as [Gb Gk]. apply negb_true_iff in Gb. cbn [into_rs] in E, E'. destruct (is_hashable x) eqn:Hx; [rewrite <- (key_fixed c c' x Hx Gb) in E'|]; rewrite E in E'; injection E' as <-; apply better_same.
    - cbn [into_rs] in E, E'. destruct (into_rs c x) as [q| | |] eqn:F; try discriminate. destruct (into_rs c' x) as [q'| | |] eqn:F'; try discriminate. injection E as <-. injection E' as <-.
      destruct (IH q q' G H eq_refl eq_refl) as (B1 & _ & B3). split; [now apply sh_vec|]. split; [now apply sh_ref, sh_slice|]. exact B3.
    - apply andb_true_iff in G as [Gb Gk]. apply negb_true_iff in Gb. cbn [into_rs] in E, E'. destruct (is_hashable x) eqn:Hx; [rewrite <- (key_fixed c c' x Hx Gb) in E'|]; rewrite E in E'; injection E' as <-; apply better_same.
    - assert (K : forall y, In y l -> forall p p', into_rs c y = Ok p -> into_rs c' y = Ok p' -> better p p').
      { intros y Hy q q' Eq Eq'. apply (IH y Hy); [now apply (proj1 (forallb_forall _ _) G)| |exact Eq|exact Eq']. intros s Hs. apply H. apply in_flat_map. now exists y. }
      destruct l as [|a [|b l]]; [injection E as <-; injection E' as <-; apply better_same..|]. rewrite !into_tuple in E, E'. destruct (_ && _).
      + unfold into_rs_owned in E, E'. destruct (into_rs c a) as [q| | |] eqn:F; try discriminate. destruct (into_rs c' a) as [q'| | |] eqn:F'; try discriminate. injection E as <-. injection E' as <-.
        destruct (K a (or_introl eq_refl) q q' F F') as (B1 & _ & B3). split; [now apply sh_vec|]. split; [now apply sh_ref, sh_slice|]. exact B3.
      + apply bind_Ok in E as (r & Hr & E). injection E as <-. apply bind_Ok in E' as (r' & Hr' & E'). injection E' as <-. destruct (tuple_grown _ r r' K Hr Hr') as [F M].
        split; [now apply sh_tuple|]. split; [now apply sh_tuple|]. exact M.
    - injection E as <-. injection E' as <-. apply better_same.
    - destruct p as [o b], p' as [o' b']. apply (map_type_grown s); auto. apply H. now left.
    - assert (Et : into_rs c t = into_rs c' t) by (destruct t; easy). rewrite Et in E. rewrite E in E'. injection E' as <-. apply better_same.
  Qed.
  Lemma owned_grown : forall t o o', good_keys t = true -> (forall s, In s (texts t) -> grown_at U lt lt' s) -> into_rs_owned c t = Ok o -> into_rs_owned c' t = Ok o' ->
    sharper o o' /\ (mentions_pyany o = false -> mentions_pyany o' = false).
  Proof.
    intros t o o' G H E E'. unfold into_rs_owned in E, E'. destruct (into_rs c t) as [q| | |] eqn:F; try discriminate. destruct (into_rs c' t) as [q'| | |] eqn:F'; try discriminate.
    injection E as <-. injection E' as <-. destruct (into_rs_grown t q q' G H F F') as (B1 & _ & B3). now split.
  Qed.
  Lemma borrowed_grown : forall t o o', good_keys t = true -> (forall s, In s (texts t) -> grown_at U lt lt' s) -> into_rs_borrowed c t = Ok o -> into_rs_borrowed c' t = Ok o' -> sharper o o'.
  Proof.
    intros t o o' G H E E'. unfold into_rs_borrowed in E, E'. destruct (into_rs c t) as [q| | |] eqn:F; try discriminate. destruct (into_rs c' t) as [q'| | |] eqn:F'; try discriminate.
    injection E as <-. injection E' as <-. now destruct (into_rs_grown t q q' G H F F') as (_ & B2 & _).
  Qed.
  Lemma needs_grown : forall k v b b', good_keys v = true -> (forall s, In s (texts v) -> grown_at U lt lt' s) -> dict_needs_prep c k v = Ok b -> dict_needs_prep c' k v = Ok b' -> b = false -> b' = false.
  Proof.
    intros k v b b' G H E E' ->. unfold dict_needs_prep in E, E'. destruct (is_hashable k); [|discriminate]. cbn [negb] in E, E'. apply bind_Ok in E as (o & Eo & E). injection E as E.
    apply bind_Ok in E' as (o' & Eo' & E'). injection E' as <-. now apply (owned_grown v o o' G H Eo Eo').
  Qed.
  Lemma prep_grown : forall t p p', good_keys t = true -> (forall s, In s (texts t) -> grown_at U lt lt' s) -> preprocess_borrowed c t = Ok p -> preprocess_borrowed c' t = Ok p' -> p' = p \/ p' = PrepNone.
  Proof.
    assert (D : forall k v p p' a, good_keys (TDict k v) = true -> (forall s, In s (texts (TDict k v)) -> grown_at U lt lt' s) ->
      (let! b := dict_needs_prep c k v in Ok (if b then a else PrepNone)) = Ok p -> (let! b := dict_needs_prep c' k v in Ok (if b then a else PrepNone)) = Ok p' -> p' = p \/ p' = PrepNone).
    { intros k v p p' a G H E E'. cbn [good_keys texts] in G, H. apply andb_true_iff in G as [_ G]. apply bind_Ok in E as (b & Eb & E). injection E as <-. apply bind_Ok in E' as (b' & Eb' & E'). injection E' as <-.
      destruct b; [destruct b'; auto|]. rewrite (needs_grown k v false b' G); auto. intros s Hs. apply H, in_or_app. now right. }
    intros t p p' G H E E'. destruct t; try (left; cbn in E, E'; congruence).
    - assert (Gs : grown_at U lt lt' s) by (apply H; now left). cbn [preprocess_borrowed] in E, E'. change (map_external c' s) with (map_external c s) in E'. destruct (map_external c s); [left; congruence|].
      subst c c'. cbn [cx_dbg cx_uni cx_local] in E, E'. unfold path_from_py_chk in E, E'. destruct (_ && _); [discriminate|]. cbn [obind] in E, E'. unfold lt_mem in E, E'.
      destruct (lt_get lt _) as [v|] eqn:K; [rewrite (Gs _ (or_introl eq_refl) v K) in E'|destruct (lt_get lt' _)]; injection E as <-; injection E' as <-; auto.
    - cbn [preprocess_borrowed] in E, E'. destruct t; try (left; congruence). exact (D t1 t2 p p' PrepOptDict G H E E').
    - exact (D t1 t2 p p' PrepIntoDict G H E E').
  Qed.
End conv.

(** ** Functions, variables and classes *)
Definition kept_impl (i i' : fn_impl) : Prop :=
  match i, i' with IFunction a, IFunction b => Forall2 kept a b | IMethod t a, IMethod t' b => Forall2 kept t t' /\ Forall2 kept a b | _, _ => False end.
Lemma kept_refl : forall l, Forall2 kept l l.
Proof. induction l; constructor; [apply kp_same|assumption]. Qed.
Lemma kept_app : forall a a' b b', Forall2 kept a a' -> Forall2 kept b b' -> Forall2 kept (a ++ b) (a' ++ b').
Proof. intros. now apply Forall2_app. Qed.
Lemma mapM_pairs : forall {A B C} (f g : A -> outcome B) (R : B -> B -> Prop) (ids : list C) l r r', (forall a b b', In a l -> f a = Ok b -> g a = Ok b' -> R b b') ->
  mapM f l = Ok r -> mapM g l = Ok r' -> Forall2 (fun x y => fst x = fst y /\ R (snd x) (snd y)) (combine ids r) (combine ids r').
Proof.
  intros A B C f g R ids l. revert ids. induction l as [|a l IH]; intros ids r r' K H H'; cbn [mapM] in H, H'; [injection H as <-; injection H' as <-; destruct ids; constructor|].
  apply bind_Ok in H as (b & Hb & H). apply bind_Ok in H as (q & Hq & H). injection H as <-. apply bind_Ok in H' as (b' & Hb' & H'). apply bind_Ok in H' as (q' & Hq' & H'). injection H' as <-.
  destruct ids as [|i ids]; [constructor|]. cbn [combine]. constructor; [split; [reflexivity|]; apply (K a); auto; now left|]. apply IH; auto. intros y z z' Hy. apply K. now right.
Qed.
Lemma mapM_rel : forall {A B} (f g : A -> outcome B) (R : B -> B -> Prop) l r r', (forall a b b', In a l -> f a = Ok b -> g a = Ok b' -> R b b') ->
  mapM f l = Ok r -> mapM g l = Ok r' -> Forall2 R r r'.
Proof.
  intros A B f g R l. induction l as [|a l IH]; intros r r' K H H'; cbn [mapM] in H, H'; [injection H as <-; injection H' as <-; constructor|].
  apply bind_Ok in H as (b & Hb & H). apply bind_Ok in H as (q & Hq & H). injection H as <-. apply bind_Ok in H' as (b' & Hb' & H'). apply bind_Ok in H' as (q' & Hq' & H'). injection H' as <-.
  constructor; [apply (K a); auto; now left|]. apply IH; auto. intros y z z' Hy. apply K. now right.
Qed.
Section items.
  Variables (cfg : config) (imp : str -> bool) (d n : bool) (U : uni) (lt lt' : table).
  Let g := mk_gctx cfg imp (mk_ctx d n U lt).
  Let g' := mk_gctx cfg imp (mk_ctx d n U lt').
  Definition same_fresh (l k : list ident) : Prop := fresh U "new" l = fresh U "new" k /\ fresh U "call" l = fresh U "call" k.
  Definition same_access (l k : list ident) (p : property) : Prop := forall nm, path_name (pr_name p) = Ok nm ->
    getter_ident U l nm = getter_ident U k nm /\ prefixed_ident U l "set_" nm = prefixed_ident U k "set_" nm.
  Lemma taken_access : forall l k p, (forall z, name_taken l z = name_taken k z) -> same_access l k p.
  Proof. intros l k p N nm _. unfold getter_ident, prefixed_ident. now rewrite !N. Qed.
  Definition fine (t : ptype) : Prop := good_keys t = true /\ forall s, In s (texts t) -> grown_at U lt lt' s.
  Lemma contract_grown : forall t l k nm ps ps' rt rt' b q b' q', (same_fresh l k \/ t = FFunction \/ t = FClosure) ->
    Forall2 (fun a b => fst a = fst b /\ sharper (snd a) (snd b)) ps ps' -> sharper rt rt' ->
    gen_contract U t l nm ps rt = Ok (b, q) -> gen_contract U t k nm ps' rt' = Ok (b', q') -> b = b' /\ same_head q q'.
  Proof.
    intros t l k nm ps ps' rt rt' b q b' q' D F S E E'. unfold gen_contract in E, E'. destruct t as [|cp m|].
    - injection E as <- <-. injection E' as <- <-. repeat split; auto.
    - destruct D as [[D1 D2]|[D|D]]; [|discriminate D..]. destruct m; try (injection E as <- <-; injection E' as <- <-; repeat split; auto; fail);
        (first [rewrite <- D1 in E'|rewrite <- D2 in E']; clear D1 D2; destruct (fresh U _ l) as [z| | |]; [|discriminate..]); cbn [obind] in E, E'; (destruct (ident_to_syn U z) as [y| | |]; [|discriminate..]); cbn [obind] in E, E'; injection E as <- <-; injection E' as <- <-; repeat split; auto.
    - injection E as <- <-. injection E' as <- <-. repeat split; auto.
  Qed.
  Lemma fn_grown : forall l k f i i', (same_fresh l k \/ fn_typ f = FFunction \/ fn_typ f = FClosure) -> (forall t, In t (fn_types f) -> fine t) ->
    fn_generate g l f = Ok i -> fn_generate g' k f = Ok i' -> kept_impl i i'.
  Proof.
    intros l k f i i' D H E E'. unfold fn_generate in E, E'. change (g_uni g') with (g_uni g) in E'. change (gen_doc g') with (gen_doc g) in E'.
    destruct (gen_doc g (fn_doc f)) as [docs| | |]; [|discriminate..]. cbn [obind] in E, E'. destruct (path_name (fn_name f)) as [nm| | |]; [|discriminate..]. cbn [obind] in E, E'.
    destruct (fn_ident (g_uni g) nm) as [id|]; [|injection E as <-; injection E' as <-; constructor]. destruct (mapM (param_ident (g_uni g)) (fn_params f)) as [ids| | |]; [|discriminate..]. cbn [obind] in E, E'.
    assert (Kp : forall p, In p (fn_params f) -> fine (p_ann p)) by (intros p Hp; apply H; unfold fn_types; apply in_or_app; left; now apply in_map).
    assert (Kr : fine (fn_ret f)) by (apply H; unfold fn_types; apply in_or_app; right; now left).
    apply bind_Ok in E as (preps & Hp & E). apply bind_Ok in E' as (preps' & Hp' & E'). apply bind_Ok in E as (tys & Ht & E). apply bind_Ok in E' as (tys' & Ht' & E').
    apply bind_Ok in E as (rt & Hr & E). apply bind_Ok in E' as (rt' & Hr' & E'). apply bind_Ok in E as ([pb q] & Hq & E). apply bind_Ok in E' as ([pb' q'] & Hq' & E').
    assert (F1 : Forall2 (fun a b => fst a = fst b /\ sharper (snd a) (snd b)) (combine ids tys) (combine ids tys')).
    { refine (mapM_pairs _ _ sharper ids _ _ _ _ Ht Ht'). intros p b b' Hin Eb Eb'. destruct (Kp p Hin) as [G T]. exact (borrowed_grown d n U lt lt' _ _ _ G T Eb Eb'). }
    assert (F2 : Forall2 (fun a b => fst a = fst b /\ (snd b = snd a \/ snd b = PrepNone)) (combine ids preps) (combine ids preps')).
    { refine (mapM_pairs _ _ (fun a b => b = a \/ b = PrepNone) ids _ _ _ _ Hp Hp'). intros p b b' Hin Eb Eb'. destruct (Kp p Hin) as [G T]. exact (prep_grown d n U lt lt' _ _ _ G T Eb Eb'). }
    destruct Kr as [Gr Tr]. destruct (owned_grown d n U lt lt' _ _ _ Gr Tr Hr Hr') as [S _].
    destruct (contract_grown _ l k id _ _ _ _ _ _ _ _ D F1 S Hq Hq') as [<- C].
    change (gen_disp g') with (gen_disp g) in E'. destruct (gen_disp g f) as [[dd|]| | |]; [|injection E as <-; injection E' as <-; repeat constructor|discriminate..]. cbn [obind] in E, E'.
    destruct (gen_pos (g_uni g) (fn_params f)) as [pos| | |]; [|discriminate..]. cbn [obind] in E, E'. destruct (gen_kw (g_uni g) (fn_params f)) as [kw| | |]; [|discriminate..]. cbn [obind] in E, E'.
    injection E as <-. injection E' as <-. set (bd := match fn_typ f with FMethod _ (MConstructor | MCallable) => _ | _ => _ end).
    assert (SC : same_call (mk_fn q (is_bound (fn_typ f)) (combine ids preps) dd bd) (mk_fn q' (is_bound (fn_typ f)) (combine ids preps') dd bd)) by (split; [exact C|]; split; [reflexivity|]; split; [exact F2|]; now split).
    assert (L : Forall2 kept (docs ++ (if pb then [GPub] else []) ++ [GFn (mk_fn q (is_bound (fn_typ f)) (combine ids preps) dd bd)])
        (docs ++ (if pb then [GPub] else []) ++ [GFn (mk_fn q' (is_bound (fn_typ f)) (combine ids preps') dd bd)])).
    { apply kept_app; [apply kept_refl|]. apply kept_app; [apply kept_refl|]. constructor; [now apply kp_fn|constructor]. }
    destruct (is_bound (fn_typ f)); [|exact L]. split; [|exact L]. constructor; [now apply kp_decl|constructor].
  Qed.
  Lemma get_grown : forall l k p t i t' i', same_access l k p -> fine (pr_ann p) -> gen_getter g l p = Ok (t, i) -> gen_getter g' k p = Ok (t', i') -> Forall2 kept t t' /\ Forall2 kept i i'.
  Proof.
    intros l k p t i t' i' N [G T] E E'. unfold gen_getter in E, E'. change (g_uni g') with (g_uni g) in E'. change (gen_doc g') with (gen_doc g) in E'. change (prop_disp g') with (prop_disp g) in E'.
    destruct (gen_doc g (pr_doc p)) as [docs| | |]; [|discriminate..]. cbn [obind] in E, E'. destruct (path_name (pr_name p)) as [nm| | |] eqn:En; [|discriminate..]. cbn [obind] in E, E'.
    assert (Eg : getter_ident (g_uni g) l nm = getter_ident (g_uni g) k nm) by exact (proj1 (N nm En)). rewrite <- Eg in E'.
    destruct (getter_ident (g_uni g) l nm) as [[id|]| | |]; [|injection E as <- <-; injection E' as <- <-; now split|discriminate..]. cbn [obind] in E, E'.
    apply bind_Ok in E as (o & Eo & E). apply bind_Ok in E' as (o' & Eo' & E'). destruct (owned_grown d n U lt lt' _ _ _ G T Eo Eo') as [S _].
    destruct (prop_disp g p) as [dd| | |]; [|discriminate..]. cbn [obind] in E, E'. injection E as <- <-. injection E' as <- <-.
    assert (C : same_head (mk_contract id (owner_is_class (pr_owner p)) [] (RetType o)) (mk_contract id (owner_is_class (pr_owner p)) [] (RetType o'))) by (split; [reflexivity|]; split; [reflexivity|]; split; [constructor|exact S]).
    split.
    - unfold declare. destruct (owner_is_class (pr_owner p)); [|constructor]. constructor; [now apply kp_decl|constructor].
    - apply kept_app; [apply kept_refl|]. constructor; [|constructor]. apply kp_fn. split; [exact C|]. split; [reflexivity|]. split; [constructor|]. now split.
  Qed.
  Lemma set_grown : forall l k p t i t' i', same_access l k p -> fine (pr_ann p) -> gen_setter g l p = Ok (t, i) -> gen_setter g' k p = Ok (t', i') -> Forall2 kept t t' /\ Forall2 kept i i'.
  Proof.
    intros l k p t i t' i' N [G T] E E'. unfold gen_setter in E, E'. change (g_uni g') with (g_uni g) in E'. change (gen_doc g') with (gen_doc g) in E'. change (prop_disp g') with (prop_disp g) in E'.
    destruct (gen_doc g (pr_setter_doc p)) as [docs| | |]; [|discriminate..]. cbn [obind] in E, E'. destruct (path_name (pr_name p)) as [nm| | |] eqn:En; [|discriminate..]. cbn [obind] in E, E'.
    assert (Eg : prefixed_ident (g_uni g) l "set_" nm = prefixed_ident (g_uni g) k "set_" nm) by exact (proj2 (N nm En)). rewrite <- Eg in E'.
    destruct (prefixed_ident (g_uni g) l "set_" nm) as [[id|]| | |]; [|injection E as <- <-; injection E' as <- <-; now split|discriminate..]. cbn [obind] in E, E'.
    apply bind_Ok in E as (pp & Ep & E). apply bind_Ok in E' as (pp' & Ep' & E'). apply bind_Ok in E as (o & Eo & E). apply bind_Ok in E' as (o' & Eo' & E').
    pose proof (prep_grown d n U lt lt' _ _ _ G T Ep Ep') as P. pose proof (borrowed_grown d n U lt lt' _ _ _ G T Eo Eo') as S.
    destruct (prop_disp g p) as [dd| | |]; [|discriminate..]. cbn [obind] in E, E'. injection E as <- <-. injection E' as <- <-.
    assert (C : same_head (mk_contract id (owner_is_class (pr_owner p)) [(p_value, o)] RetUnit) (mk_contract id (owner_is_class (pr_owner p)) [(p_value, o')] RetUnit)) by (split; [reflexivity|]; split; [reflexivity|]; split; [constructor; [now split|constructor]|exact I]).
    split.
    - unfold declare. destruct (owner_is_class (pr_owner p)); [|constructor]. constructor; [now apply kp_decl|constructor].
    - apply kept_app; [apply kept_refl|]. constructor; [|constructor]. apply kp_fn. split; [exact C|]. split; [reflexivity|]. split; [constructor; [now split|constructor]|]. now split.
  Qed.
  Lemma prop_grown : forall l k p i i', same_access l k p -> fine (pr_ann p) -> prop_generate g l p = Ok i -> prop_generate g' k p = Ok i' -> kept_impl i i'.
  Proof.
    intros l k p i i' N Hf E E'. unfold prop_generate in E, E'. apply bind_Ok in E as ([gt gi] & Hg & E). apply bind_Ok in E as ([st si] & Hs & E). injection E as <-.
    apply bind_Ok in E' as ([gt' gi'] & Hg' & E'). apply bind_Ok in E' as ([st' si'] & Hs' & E'). injection E' as <-.
    destruct (get_grown l k p gt gi gt' gi' N Hf Hg Hg') as [G1 G2].
    assert (K : Forall2 kept st st' /\ Forall2 kept si si').
    { destruct (pr_mutable p); [now apply (set_grown l k p st si st' si' N Hf Hs Hs')|]. injection Hs as <- <-. injection Hs' as <- <-. now split. }
    destruct K as [S1 S2]. destruct (pr_owner p).
    - constructor; [apply kp_same|]. apply kept_app; [exact G2|]. destruct (pr_mutable p); [|constructor]. constructor; [apply kp_same|exact S2].
    - split; now apply kept_app.
  Qed.
  Lemma members_grown : forall a b, Forall2 kept_impl a b -> forall m m', Forall2 kept (mb_struct m) (mb_struct m') -> Forall2 kept (mb_defs m) (mb_defs m') -> Forall2 kept (mb_impls m) (mb_impls m') ->
    let r := fold_left add_member a m in let r' := fold_left add_member b m' in
    Forall2 kept (mb_struct r) (mb_struct r') /\ Forall2 kept (mb_defs r) (mb_defs r') /\ Forall2 kept (mb_impls r) (mb_impls r').
  Proof.
    intros a b F. induction F as [|i i' a b H F IH]; intros m m' A B C; [now split|]. cbn [fold_left]. apply IH; destruct i as [x|t x], i' as [x'|t' x']; try easy; cbn [add_member mb_struct mb_defs mb_impls];
      first [assumption|now apply kept_app|destruct H; now apply kept_app].
  Qed.
  Lemma class_grown : forall c r r', (forall t, In t (class_types c) -> fine t) -> class_generate g c = Ok r -> class_generate g' c = Ok r' -> Forall2 kept r r'.
  Proof.
    intros c r r' H E E'. unfold class_generate in E, E'. change (g_uni g') with (g_uni g) in E'. change (gen_doc g') with (gen_doc g) in E'.
    destruct (gen_doc g (cl_doc c)) as [docs| | |]; [|discriminate..]. cbn [obind] in E, E'. destruct (path_name (cl_name c)) as [nm| | |]; [|discriminate..]. cbn [obind] in E, E'.
    destruct (struct_ident (g_uni g) nm) as [id|]; [|injection E as <-; injection E' as <-; constructor]. destruct (mapM _ (cl_methods c)) as [scope| | |]; [|discriminate..]. cbn [obind] in E, E'.
    apply bind_Ok in E as (fs & Hfs & E). apply bind_Ok in E' as (fs' & Hfs' & E'). apply bind_Ok in E as (ps & Hps & E). apply bind_Ok in E' as (ps' & Hps' & E').
    assert (F1 : Forall2 kept_impl fs fs').
    { refine (mapM_rel _ _ kept_impl _ _ _ _ Hfs Hfs'). intros f i i' Hin Ei Ei'. apply (fn_grown scope scope f i i'); [left; now split| |exact Ei|exact Ei'].
      intros t Ht. apply H. unfold class_types. apply in_or_app. left. apply in_flat_map. now exists f. }
    assert (F2 : Forall2 kept_impl ps ps').
    { refine (mapM_rel _ _ kept_impl _ _ _ _ Hps Hps'). intros p i i' Hin Ei Ei'. refine (prop_grown _ _ p i i' (taken_access _ _ _ (fun _ => eq_refl)) _ Ei Ei').
      apply H. unfold class_types. apply in_or_app. right. now apply in_map. }
    destruct (ident_to_syn (g_uni g) (ident_from_py (g_uni g) (id ++ u "Methods"))) as [tid| | |]; [|discriminate..]. cbn [obind] in E, E'. injection E as <-. injection E' as <-.
    assert (F3 : Forall2 kept_impl (fs ++ ps) (fs' ++ ps')) by now apply Forall2_app.
    destruct (members_grown _ _ F3 (mk_members [] [] []) (mk_members [] [] [])) as (M1 & M2 & M3); [constructor..|].
    apply kept_app; [apply kept_refl|]. do 5 (apply Forall2_cons; [apply kp_same|]). apply Forall2_cons; [now apply kp_impl|].
    do 6 (apply Forall2_cons; [apply kp_same|]). apply Forall2_cons; [now apply kp_trait|]. apply Forall2_cons; [apply kp_same|].
    apply Forall2_cons; [now apply kp_impl_for|constructor].
  Qed.
End items.

(** ** The tables *)
Lemma table_grown : forall dbg U m k ts ts' lt lt' q, local_types dbg U m ts = Ok lt -> local_types dbg U k ts' = Ok lt' -> m_name m = m_name k ->
  (forall i, In i (m_imports m) -> In i (m_imports k)) -> (forall p, In p ts -> In p ts') ->
  (forall p p', stands_for U ts' k q p -> stands_for U ts' k q p' -> p = p') -> forall v, lt_get lt q = Some v -> lt_get lt' q = Some v.
Proof.
  intros dbg U m k ts ts' lt lt' q H H' En Ei Et Hu v E. apply table_parts in H as (own & al & -> & O & A). apply table_parts in H' as (own' & al' & -> & O' & A').
  assert (K : exists p, stands_for U ts' k q p /\ relative_to (m_name k) p false = Ok v).
  { apply lt_some in E. apply in_app_or in E as [E|E]; rewrite <- in_rev in E.
    - apply A in E as (im & p & E1 & E2 & E3 & E4 & E5). rewrite En in E5. exists p. split; [|exact E5]. split; [now apply Et|]. right. exists im. split; [now apply Ei|]. now apply (key_seen dbg).
    - apply O in E as [E1 E2]. rewrite En in E2. exists q. split; [|exact E2]. split; [now apply Et|now left]. }
  destruct K as (p & S & R).
  assert (V : forall v', In (q, v') (rev al' ++ rev own') -> v' = v).
  { intros v' Hv. apply in_app_or in Hv as [Hv|Hv]; rewrite <- in_rev in Hv.
    - apply A' in Hv as (im & p' & E1 & E2 & E3 & E4 & E5). assert (p' = p) as ->; [|congruence]. apply Hu; [|exact S]. split; [exact E2|]. right. exists im. split; [exact E1|]. now apply (key_seen dbg).
    - apply O' in Hv as [E1 E2]. assert (q = p) as <-; [|congruence]. apply Hu; [|exact S]. split; [exact E1|now left]. }
  assert (I : exists v', In (q, v') (rev al' ++ rev own')).
  { apply lt_some in E. apply in_app_or in E as [E|E]; rewrite <- in_rev in E.
    - apply A in E as (im & p' & E1 & E2 & E3 & E4 & E5). rewrite En in E5. exists v. apply in_or_app. left. rewrite <- in_rev. apply A'. exists im, p'. repeat split; auto.
    - apply O in E as [E1 E2]. rewrite En in E2. exists v. apply in_or_app. right. rewrite <- in_rev. apply O'. split; auto. }
  destruct I as (v' & I). destruct (lt_get (rev al' ++ rev own') q) as [z|] eqn:Ez; [|now destruct (lt_none _ _ Ez v')]. f_equal. apply V. now apply lt_some.
Qed.

(** ** The forests *)
Section forests.
  Variables (x : penv) (numpy : bool) (fuel : nat) (l l' : list request) (c c' : codegen) (ms ms' : list module).
  Let U := pe_uni x.
  Let w := pe_world x.
  Hypothesis Ho : order_ok (pe_ord x).
  Hypothesis Hw : honest U w.
  Hypothesis Hd : names_differ w.
  Hypothesis Hl : asked_modules w l.
  Hypothesis Hl' : asked_modules w l'.
  Hypothesis HS : incl (flat_map (asked w) l) (flat_map (asked w) l').
  Hypothesis Hc : asks x fuel l cg_new = Ok c.
  Hypothesis Hf : final_modules x fuel c = Ok ms.
  Hypothesis Hc' : asks x fuel l' cg_new = Ok c'.
  Hypothesis Hf' : final_modules x fuel c' = Ok ms'.

  Lemma mo_asked : forall m, In m (cg_modules c) -> In m (cg_modules c').
  Proof.
    intros m Hm. pose proof (asks_state x fuel l c Hc) as F. pose proof (asks_state x fuel l' c' Hc') as F'.
    assert (K : exists q, In q (flat_map (asked w) l) /\ parsed_as x fuel q m).
    { clear - F Hm. fold w in F. induction F as [|a b q r Hp F IH]; [easy|]. destruct Hm as [<-|Hm]; [exists a; split; [now left|exact Hp]|]. destruct (IH Hm) as (z & Hz & Hq). exists z. split; [now right|exact Hq]. }
    destruct K as (q & Hq & o & -> & Hp). apply HS in Hq. destruct (asked_parsed x fuel l' c' o Hc' Hq) as (m' & Hm' & Hp'). rewrite Hp in Hp'. now injection Hp' as <-.
  Qed.
  Lemma mo_vis : forall ch q, vis ms ch q -> vis ms' ch q.
  Proof.
    intros ch q H. destruct (final_vis x Ho fuel c ms Hf) as (inp & Hin & V). destruct (final_vis x Ho fuel c' ms' Hf') as (inp' & Hin' & V').
    destruct (inputs_iff x Hw Hd fuel c inp Hin) as [I1 _]. destruct (inputs_iff x Hw Hd fuel c' inp' Hin') as [I1' _].
    destruct (proj1 (V ch q) H) as (m & Hm & Hq). refine (proj2 (V' ch q) _). exists m. split; [|exact Hq]. apply I1'. apply I1 in Hm as [Hm|(G & o & (m0 & k & i & A0 & A1 & A2 & A3 & A4) & He & Hp)]; [left; now apply mo_asked|].
    right. split; [exact G|]. exists o. split; [|now split]. exists m0, k, i. split; [now apply mo_asked|]. now repeat split.
  Qed.
  Lemma mo_present : forall ch, present ms ch -> present ms' ch.
  Proof. intros ch (m & R). assert (H : vis ms ch None) by now exists m. apply mo_vis in H as (m' & R' & _). now exists m'. Qed.
  Lemma mo_holds : forall ch it, holds ms ch it -> holds ms' ch it.
  Proof. intros ch it (m & R & Hi). assert (H : vis ms ch (Some it)) by now exists m. apply mo_vis in H as (m' & R' & Hi'). now exists m'. Qed.
  (** A module with an item is read from its object, whatever was asked for. *)
  Lemma item_parsed : forall l c ms, asked_modules w l -> asks x fuel l cg_new = Ok c -> final_modules x fuel c = Ok ms -> forall ch it, holds ms ch it ->
    exists d m0 n t k0, ch = d ++ [m_name k0] /\ is_module w t /\ mod_parse x n t = Ok k0 /\ has k0 it /\
      (forall it', has k0 it' -> holds ms ch it') /\ m0 = k0.
  Proof.
    clear l c ms Hl Hc Hf HS. intros l c ms Hl Hc Hf ch it (k & R & Hi). destruct (final_vis x Ho fuel c ms Hf) as (inp & Hin & V).
    assert (H : vis ms ch (Some it)) by now exists k. apply V in H as (m0 & Hm0 & [(ch' & E & k0 & R0 & Hi0)|[E _]]); [|discriminate].
    destruct (input_from x (honest_named _ _ Hw) fuel l c Hl Hc inp m0 Hin Hm0) as (o & Hmo & Hp). pose proof (Proof_Api.reach_within _ _ _ R0) as (m1 & [<-|[]] & W).
    destruct (Proof_Distinct.parsed_within x Ho Hw fuel o m0 Hmo Hp k0 W) as (n & t & Ht & Hk). destruct (reach_last _ _ _ R0) as (d & Ed).
    exists (parents (m_name m0) ++ d), k0, n, t, k0. split; [rewrite E, Ed; apply app_assoc|]. split; [exact Ht|]. split; [exact Hk|]. split; [exact Hi0|]. split; [|reflexivity].
    intros it' Hi'. assert (H : vis ms ch (Some it')); [apply V; exists m0; split; [exact Hm0|]; left; exists ch'; split; [exact E|]; now exists k0|]. exact H.
  Qed.
  Lemma mo_back : forall ch it it', holds ms ch it -> holds ms' ch it' -> holds ms ch it'.
  Proof.
    intros ch it it' H H'. destruct (item_parsed l c ms Hl Hc Hf ch it H) as (d & _ & n & t & k & E & Ht & Hp & _ & K & _).
    destruct (item_parsed l' c' ms' Hl' Hc' Hf' ch it' H') as (d' & _ & n' & t' & k' & E' & Ht' & Hp' & Hi' & _ & _). rewrite E in E'. apply app_inj_tail in E' as [_ E'].
    assert (k = k') as <- by exact (same_parse x Ho Hw Hd t t' k k' Ht Ht' n n' Hp Hp' E').
    now apply K.
  Qed.
End forests.

(** ** Larger forests *)
Definition more_forest (ms ms' : list module) : Prop := forall ch, (present ms ch -> present ms' ch) /\ forall it, holds ms ch it -> holds ms' ch it.
Lemma exists_more : forall ms ms' p, more_forest ms ms' -> existsb (path_exists p) ms = true -> existsb (path_exists p) ms' = true.
Proof.
  intros ms ms' p S H. apply existsb_exists in H as (m & Hm & H). apply path_exists_found in H as (k & Hk & H). destruct (within_reach k m Hk ms Hm) as (ch & R).
  assert (G : exists k', reach ms' ch k' /\ ((exists s, In s (m_subs k') /\ m_name s = p) \/ (exists it, has k' it /\ item_path it = Some p /\ forall j, it <> AnImport j))).
  { destruct H as [(s & Hs & En)|(it & Hit & Ep & Hn)].
    - assert (Q : present ms (ch ++ [p])) by (exists s; rewrite <- En; now apply (reach_next ms ch k)). apply (proj1 (S _)) in Q as (s' & Q). destruct (reach_back _ _ _ _ Q (reach_ne _ _ _ R)) as (k' & R' & Hs' & En').
      exists k'. split; [exact R'|]. left. now exists s'.
    - assert (Q : holds ms ch it) by now exists k. apply (proj2 (S _)) in Q as (k' & R' & Hit'). exists k'. split; [exact R'|]. right. now exists it. }
  destruct G as (k' & R' & G). destruct (Proof_Api.reach_within _ _ _ R') as (m' & Hm' & Hk'). apply existsb_exists. exists m'. split; [exact Hm'|]. now apply (path_exists_from p k' m').
Qed.
Lemma types_more : forall ms ms', more_forest ms ms' -> forall p, In p (all_types ms) -> In p (all_types ms').
Proof.
  intros ms ms' S p Hp. apply all_types_In in Hp as (m & k & Hm & Hk & Hp). apply all_types_In. destruct (within_reach k m Hk ms Hm) as (ch & R).
  assert (G : exists it, has k it /\ ((exists c, it = AClass c /\ cl_name c = p) \/ it = ATypeVar p)).
  { destruct Hp as [Hp|Hp]; [apply in_map_iff in Hp as (c & <- & Hc); exists (AClass c); split; [exact Hc|left; now exists c]|exists (ATypeVar p); now split; [|right]]. }
  destruct G as (it & Hit & G). assert (Q : holds ms ch it) by now exists k. apply (proj2 (S _)) in Q as (k' & R' & Hit'). destruct (Proof_Api.reach_within _ _ _ R') as (m' & Hm' & Hk').
  exists m', k'. split; [exact Hm'|]. split; [exact Hk'|]. destruct G as [(c & -> & <-)| ->]; [left; now apply in_map|now right].
Qed.
Lemma mirrors_once : forall ch a b, mirrors ch a -> mirrors ch b -> a = b.
Proof.
  induction ch as [|p ch IH]; intros a b A B; inversion A as [|? i ? ? Hi A']; inversion B as [|? j ? ? Hj B']; subst; [reflexivity|]. f_equal; [exact (ends_unique p i j Hi Hj)|now apply IH].
Qed.
Lemma Forall2_left : forall {A B} (R : A -> B -> Prop) l k a, Forall2 R l k -> In a l -> exists b, In b k /\ R a b.
Proof. intros A B R l k a F. induction F as [|y z l k H F IH]; intros Ha; [easy|]. destruct Ha as [<-|Ha]; [exists z; split; [now left|exact H]|]. destruct (IH Ha) as (b & Hb & K). exists b. split; [now right|exact K]. Qed.
Lemma scope_names : forall l k s s', mapM (fun f => path_name (fn_name f)) l = Ok s -> mapM (fun f => path_name (fn_name f)) k = Ok s' -> (forall f : func, In f l <-> In f k) -> forall z, name_taken s z = name_taken s' z.
Proof.
  assert (K : forall l k s s', mapM (fun f => path_name (fn_name f)) l = Ok s -> mapM (fun f => path_name (fn_name f)) k = Ok s' -> (forall f : func, In f l -> In f k) -> forall z, mem_str z s = true -> mem_str z s' = true).
  { intros l k s s' H H' I z Hz. apply mem_str_In in Hz. apply mem_str_In. destruct (mapM_In _ _ _ _ H Hz) as (f & Hf & E). apply I in Hf. destruct (mapM_In_l _ _ _ _ H' Hf) as (z' & Hz' & E'). congruence. }
  intros l k s s' H H' I z. unfold name_taken. f_equal.
  destruct (mem_str z s) eqn:E, (mem_str z s') eqn:E'; try reflexivity.
  - rewrite (K l k s s' H H' (fun f => proj1 (I f)) z E) in E'. discriminate.
  - rewrite (K k l s' s H' H (fun f => proj2 (I f)) z E') in E. discriminate.
Qed.

Lemma prelude_total : forall U k, uni_ok U -> named_items k -> (forall j, In j (m_prelude k) -> counterpart k j -> rust_ident U j) -> exists l, gen_prelude U k = Ok l.
Proof.
  intros U k HU Hnm Hsp. unfold gen_prelude. destruct (m_prelude k) as [|i0 r0] eqn:Ep; [eexists; reflexivity|]. rewrite <- Ep in *. clear Ep i0 r0.
  assert (F : exists kept, filterM (fun i => ident_exists k i false) (m_prelude k) = Ok kept).
  { clear - Hnm. induction (m_prelude k) as [|j r [q IH]]; [now exists []|]. cbn [filterM]. destruct (ident_exists_iff k false j Hnm) as (b & -> & _). cbn [obind].
    rewrite IH. cbn [obind]. eexists. reflexivity. }
  destruct F as [kept Hk]. rewrite Hk. cbn [obind].
  assert (M : mapM (ident_to_syn U) kept = Ok kept).
  { assert (Q : forall j, In j kept -> rust_ident U j).
    { intros j Hj. apply (filterM_In _ _ _ Hk) in Hj as [Hin Hj]. destruct (ident_exists_iff k false j Hnm) as (b & Eb & Hu). rewrite Eb in Hj. injection Hj as ->.
      apply (Hsp j Hin). now apply uses_counterpart, Hu. }
    clear - Q HU. induction kept as [|j r IH]; [reflexivity|]. cbn [mapM]. rewrite (to_syn_ok U j HU) by (apply Q; now left). cbn [obind].
    rewrite IH; [reflexivity|]. intros y Hy. apply Q. now right. }
  rewrite M. cbn [obind]. destruct kept as [|j0 r0]; [eexists; reflexivity|]. destruct (first_unused_total U k Hnm) as [cc Hcc]. rewrite Hcc. cbn [obind].
  destruct (first_unused_spec U k _ _ cc Hnm Hcc) as (j & _ & -> & _ & _).
  assert (Hid : py_identifier U (u "call")).
  { destruct HU as (H1 & H2 & _). eexists; eexists; (split; [reflexivity|]); (split; [right; now rewrite H1|]); cbn [In]; intuition subst; rewrite H2; easy. }
  destruct (candidate_plain U "call" j HU Hid) as [_ Hs]; [reflexivity..|]. unfold ident_to_syn, as_rs. rewrite Hs. eexists. reflexivity.
Qed.

(** ** The outputs *)
Section outputs.
  Variables (x : penv) (numpy : bool) (fuel : nat) (l l' : list request) (c c' : codegen) (ms ms' : list module) (out out' : list frag).
  Let U := pe_uni x.
  Let w := pe_world x.
  Hypothesis HU : uni_ok U.
  Hypothesis Ho : order_ok (pe_ord x).
  Hypothesis Hw : honest U w.
  Hypothesis Hd : names_differ w.
  Hypothesis Hl : asked_modules w l.
  Hypothesis Hl' : asked_modules w l'.
  Hypothesis HS : incl (flat_map (asked w) l) (flat_map (asked w) l').
  Hypothesis HG : forall n s, given l n = Some s -> given l' n = Some s.
  Hypothesis Hc : asks x fuel l cg_new = Ok c.
  Hypothesis Hf : final_modules x fuel c = Ok ms.
  Hypothesis Hg : cg_generate x numpy fuel c = Ok out.
  Hypothesis Hc' : asks x fuel l' cg_new = Ok c'.
  Hypothesis Hf' : final_modules x fuel c' = Ok ms'.
  Hypothesis Hg' : cg_generate x numpy fuel c' = Ok out'.
  Hypothesis Ht : traverse_submodules (pe_cfg x) = true.
  Hypothesis Hv : forall m k, In m ms' -> within k m -> one_meaning U (all_types ms') k.
  Let X := gen_ctx x numpy ms.
  Let X' := gen_ctx x numpy ms'.
  Lemma mo_forest : more_forest ms ms'.
  Proof.
    intros ch. split.
    - exact (mo_present x fuel l l' c c' ms ms' Ho Hw Hd HS Hc Hf Hc' Hf' ch).
    - exact (mo_holds x fuel l l' c c' ms ms' Ho Hw Hd HS Hc Hf Hc' Hf' ch).
  Qed.
  Lemma mo_sib : siblings_differ ms.
  Proof. exact (final_siblings x Ho Hw fuel l c ms Hl Hc Hf). Qed.
  Lemma mo_sib' : siblings_differ ms'.
  Proof. exact (final_siblings x Ho Hw fuel l' c' ms' Hl' Hc' Hf'). Qed.
  Section pair.
    Variables (ch : list path) (m k : module) (P P' : parts).
    Hypothesis R : reach ms ch m.
    Hypothesis R' : reach ms' ch k.
    Hypothesis HP : parts_of X m P.
    Hypothesis HP' : parts_of X' k P'.
    Lemma mo_name : m_name m = m_name k.
    Proof. destruct (reach_last _ _ _ R) as (d & E). destruct (reach_last _ _ _ R') as (d' & E'). rewrite E in E'. now apply app_inj_tail in E' as [_ E']. Qed.
    Lemma mo_item : forall it, has m it -> has k it.
    Proof. intros it H. assert (Q : holds ms ch it) by now exists m. apply (proj2 (mo_forest ch)) in Q as (k' & Q & Hi). now rewrite <- (reach_once _ _ _ R' mo_sib' k' Q). Qed.
    Lemma mo_same : forall it it', has m it -> has k it' -> has m it'.
    Proof.
      intros it it' H H'. assert (Q : holds ms ch it) by now exists m. assert (Q' : holds ms' ch it') by now exists k.
      destruct (mo_back x fuel l l' c c' ms ms' Ho Hw Hd Hl Hl' Hc Hf Hc' Hf' ch it it' Q Q') as (m' & Q2 & Hi). now rewrite <- (reach_once _ _ _ R mo_sib m' Q2).
    Qed.
    Lemma mo_sub : forall s, In s (m_subs m) -> exists s', In s' (m_subs k) /\ m_name s' = m_name s.
    Proof.
      intros s Hs. assert (Q : present ms (ch ++ [m_name s])) by (exists s; now apply (reach_next ms ch m)). apply (proj1 (mo_forest _)) in Q as (s' & Q). destruct (reach_back _ _ _ _ Q (reach_ne _ _ _ R)) as (k' & Q' & Hs' & En).
      rewrite (reach_once _ _ _ R' mo_sib' k' Q') in Hs'. now exists s'.
    Qed.
    Lemma mo_fine : forall t, In t (module_types k) -> fine U (pt_lt P) (pt_lt P') t.
    Proof.
      intros t Hin. destruct (Proof_Api.reach_within _ _ _ R') as (k0 & H0 & Hk). destruct (Hv k0 k H0 Hk t Hin) as [G M]. split; [exact G|]. intros s Hs q Hq v E.
      refine (table_grown (pe_dbg x) U m k (all_types ms) (all_types ms') _ _ q (po_lt _ _ _ HP) (po_lt _ _ _ HP') mo_name _ (types_more _ _ mo_forest) _ v E); [intros i; exact (mo_item (AnImport i))|].
      intros p p' S1 S2. exact (M s q p p' Hs Hq S1 S2).
    Qed.
    Lemma mo_source : forall s, m_source m = Some s -> m_source k = Some s.
    Proof.
      intros s Hs. pose proof mo_name as En. pose proof R as Q. pose proof R' as Q'. inversion Q as [l1 m1 Hm1 E1 E2 E3|l1 m1 c1 k1 Hm1 Hr E1 E2 E3]; subst l1.
      - subst m1. rewrite <- E2 in Q'. inversion Q' as [l2 m2 Hm2 F1 F2 F3|l2 m2 c2 k2 Hm2 Hr F1 F2 F3]; [subst l2 m2|inversion Hr; congruence].
        rewrite (proj1 (final_source x fuel l c ms Hc Hf m Hm1)) in Hs. rewrite (proj1 (final_source x fuel l' c' ms' Hc' Hf' k Hm2)), <- En. now apply HG.
      - exfalso. subst k1. destruct (final_source x fuel l c ms Hc Hf m1 Hm1) as [_ S1]. destruct (Proof_Api.reach_within _ _ _ Hr) as (s0 & Hs0 & Ws). rewrite (S1 s0 Hs0 m Ws) in Hs. discriminate.
    Qed.
    Lemma mo_counterpart : forall i, counterpart m i -> counterpart k i.
    Proof.
      intros i [(s & Hs & E)|(it & p & Hit & Ep & Hi & Hn)].
      - left. destruct (mo_sub s Hs) as (s' & Hs' & En). exists s'. split; [exact Hs'|]. now rewrite En.
      - right. exists it, p. split; [now apply mo_item|]. now repeat split.
    Qed.
    Lemma mo_prelude : forall n ex, In (GMod n [GPub; GUseSuper ex]) (pt_prelude P) -> exists n' ex', In (GMod n' [GPub; GUseSuper ex']) (pt_prelude P') /\ incl ex ex' /\ (n' = n \/ exists b, In (GMod n b) (pt_subs P')).
    Proof.
      intros n ex E. destruct (Proof_Api.reach_within _ _ _ R) as (m0 & Hm0 & Hm). destruct (Proof_Api.reach_within _ _ _ R') as (k0 & Hk0 & Hk).
      pose proof (final_items_named x Ho Hw fuel l c ms Hl Hc Hf m0 m Hm0 Hm) as Nm. pose proof (final_items_named x Ho Hw fuel l' c' ms' Hl' Hc' Hf' k0 k Hk0 Hk) as Nk.
      pose proof (po_prelude _ _ _ HP) as H. pose proof (po_prelude _ _ _ HP') as H'. change (mx_cfg X') with (mx_cfg X) in H'. change (mx_uni X') with U in H'. change (mx_uni X) with U in H.
      destruct (generate_preludes _); cbn [when] in H, H'; [|injection H as H; now rewrite <- H in E].
      destruct (prelude_shape _ _ _ H) as [K|(id & ex0 & K & Hgp)]; [now rewrite K in E|]. destruct (prelude_made U m _ HU Nm Hgp) as [[K' _]|(cc & ex1 & j & K' & Iff & Hr & Ecc & Hu & Hj)]; [now rewrite K' in E|].
      rewrite K' in E. destruct E as [E|[E|[]]]; [discriminate|]. injection E as -> ->.
      assert (Nex : exists i, In i ex).
      { destruct ex as [|i r]; [|exists i; now left]. exfalso. rewrite K' in Hgp. clear - Hgp. unfold gen_prelude in Hgp. destruct (m_prelude m); [discriminate|]. apply bind_Ok in Hgp as (kp & _ & Hgp). apply bind_Ok in Hgp as (e & _ & Hgp).
        destruct e; [discriminate|]. apply bind_Ok in Hgp as (z & _ & Hgp). apply bind_Ok in Hgp as (z' & _ & Hgp). discriminate. }
      destruct Nex as (i0 & Hi0). pose proof (proj1 (Iff i0) Hi0) as [Hp0 Hc0].
      assert (Sp : forall j, In j (m_prelude k) -> counterpart k j -> rust_ident U j).
      { intros q Hq Hcq. assert (Hq' : In q (m_prelude m)) by exact (mo_same (AnExport i0) (AnExport q) Hp0 Hq).
        destruct Hcq as [(s & Hs & Es)|(it & p & Hit & Ep & Hi & Hn)].
        - destruct (when_In _ _ _ _ (po_subs _ _ _ HP') Ht s Hs) as (fr & Efr & _). apply mod_generate_inv in Efr as (_ & id' & _ & Hid & Hri & _). apply path_name_ends in Hid. now rewrite (ends_unique _ _ _ Es Hid).
        - apply Hr, Iff. split; [exact Hq'|]. right. exists it, p. split; [exact (mo_same (AnExport i0) it Hp0 Hit)|]. now repeat split. }
      destruct (prelude_total U k HU Nk Sp) as (lk & Hlk). rewrite Hlk in H'. injection H' as H'. rewrite <- H'.
      destruct (prelude_made U k _ HU Nk Hlk) as [[_ K2]|(cc' & ex' & j' & K2 & Iff' & _ & Ecc' & Hu' & Hj')].
      - destruct (K2 i0); [exact (mo_item (AnExport i0) Hp0)|now apply mo_counterpart].
      - exists cc', ex'. split; [rewrite K2; right; now left|]. split; [intros i Hi; apply Iff' ; apply Iff in Hi as [Hi1 Hi2]; split; [exact (mo_item (AnExport i) Hi1)|now apply mo_counterpart]|].
        destruct (Nat.lt_trichotomy j j') as [L|[->|L]]; [|left; congruence|].
        + right. specialize (Hj' j L). rewrite <- Ecc in Hj'.
          assert (Q : exists s, In s (m_subs k) /\ ends (m_name s) n).
          { destruct Hj' as [[Hs|(it & p & Hit & Ep & Hi & Hn)]|(im & Him & Ei)]; [exact Hs|destruct Hu..].
            - left. right. exists it, p. split; [exact (mo_same (AnExport i0) it Hp0 Hit)|]. now repeat split.
            - right. exists im. split; [exact (mo_same (AnExport i0) (AnImport im) Hp0 Him)|exact Ei]. }
          destruct Q as (s & Hs & Es). destruct (when_In _ _ _ _ (po_subs _ _ _ HP') Ht s Hs) as (fr & Efr & Inc). destruct (module_in X' s fr Efr) as (Q' & n' & _ & Hn' & Hin').
          rewrite (ends_unique _ _ _ Hn' Es) in Hin'. eexists. apply Inc. exact Hin'.
        + destruct Hu'. specialize (Hj j' L). rewrite <- Ecc' in Hj. destruct Hj as [Hj|(im & Him & Ei)]; [left; now apply mo_counterpart|right]. exists im. split; [exact (mo_item (AnImport im) Him)|exact Ei].
    Qed.
    Lemma mo_body : forall y, In y (pt_body m P) -> leads y = false ->
      (exists n ex n' ex', y = GMod n [GPub; GUseSuper ex] /\ In (GMod n' [GPub; GUseSuper ex']) (pt_body k P') /\ incl ex ex' /\ (n' = n \/ exists b, In (GMod n b) (pt_body k P'))) \/ exists y', In y' (pt_body k P') /\ kept y y'.
    Proof.
      intros y Hy Hlead. destruct (Proof_Api.reach_within _ _ _ R) as (m0 & Hm0 & Hm). pose proof (final_typed x fuel l c ms Ho Hc Hf m0 m Hm0 Hm) as T.
      assert (Ty : forall f, In f (m_functions m) -> fn_typ f = FFunction \/ fn_typ f = FClosure) by apply T. clear T.
      destruct (body_frag X m P y HP Ty Hy) as [E|[(a & b & s & -> & E)|[(v & -> & E)|[(n & b & -> & E)|[(n & -> & E)|[E|[(d & -> & _ & E)|[(d & -> & _ & E)|(n & b & -> & E)]]]]]]]]; [congruence|..].
      - right. eexists. split; [|apply kp_same]. unfold pt_body. apply in_or_app. left. unfold gen_embed in E |- *. destruct (m_source m) as [src|] eqn:Es; [|easy]. rewrite (mo_source src Es), <- mo_name. exact E.
      - right. eexists. split; [|apply kp_same]. unfold pt_body. apply in_or_app. right. apply in_or_app. left.
        destruct (when_from _ _ _ _ _ (po_imports _ _ _ HP) E) as (B & i & fr & Hi & Ei & Hin). apply filter_In in Hi as [Hi He].
        destruct (when_In _ _ _ _ (po_imports _ _ _ HP') B i) as (fr' & Ei' & Inc); [apply filter_In; split; [exact (mo_item (AnImport i) Hi)|exact (exists_more ms ms' _ mo_forest He)]|].
        apply Inc. change (mx_uni X') with (mx_uni X) in Ei'. rewrite Ei in Ei'. now injection Ei' as <-.
      - left. pose proof (po_prelude _ _ _ HP) as Hpre. destruct (generate_preludes _); [|injection Hpre as Hpre; now rewrite <- Hpre in E]. cbn in Hpre.
        apply prelude_shape in Hpre as [Ep|(id & ex & Ep & _)]; pose proof E as E0; rewrite Ep in E; [easy|]. destruct E as [E|[E|[]]]; [discriminate|]. injection E as <- <-.
        destruct (mo_prelude id ex E0) as (n' & ex' & Hin & Hinc & Hne). exists id, ex, n', ex'. split; [reflexivity|]. split; [unfold pt_body; do 2 (apply in_or_app; right); apply in_or_app; now left|]. split; [exact Hinc|].
        destruct Hne as [Hne|(b & Hb)]; [now left|right]. exists b. unfold pt_body. do 7 (apply in_or_app; right). exact Hb.
      - right. eexists. split; [|apply kp_same]. unfold pt_body. do 3 (apply in_or_app; right). apply in_or_app. left.
        destruct (when_from _ _ _ _ _ (po_vars _ _ _ HP) E) as (B & i & fr & Hi & Ei & Hin). destruct (when_In _ _ _ _ (po_vars _ _ _ HP') B i (mo_item (ATypeVar i) Hi)) as (fr' & Ei' & Inc).
        apply Inc. change (mx_uni X') with (mx_uni X) in Ei'. rewrite Ei in Ei'. now injection Ei' as <-.
      - right. destruct (when_from _ _ _ _ _ (po_classes _ _ _ HP) E) as (B & i & fr & Hi & Ei & Hin). destruct (when_In _ _ _ _ (po_classes _ _ _ HP') B i (mo_item (AClass i) Hi)) as (fr' & Ei' & Inc).
        assert (F : Forall2 kept fr fr').
        { refine (class_grown _ _ _ _ _ _ _ i fr fr' _ Ei Ei'). intros t Hin'. apply mo_fine. unfold module_types. apply in_or_app. left. apply in_flat_map. exists i. split; [exact (mo_item (AClass i) Hi)|exact Hin']. }
        destruct (Forall2_left _ _ _ y F Hin) as (y' & Hy' & K). exists y'. split; [|exact K]. unfold pt_body. do 4 (apply in_or_app; right). apply in_or_app. left. now apply Inc.
      - right. destruct (when_from _ _ _ _ _ (po_fns _ _ _ HP) E) as (B & i & fr & Hi & Ei & Hin). destruct (when_In _ _ _ _ (po_fns _ _ _ HP') B i (mo_item (AFunction i) Hi)) as (fr' & Ei' & Inc).
        assert (F : Forall2 kept fr fr').
        { unfold fn_frags in Ei, Ei'. apply bind_Ok in Ei as (im & Em & Ei). apply bind_Ok in Ei' as (im' & Em' & Ei').
          assert (K : kept_impl im im').
          { refine (fn_grown _ _ _ _ _ _ _ _ _ i im im' (or_intror (Ty i Hi)) _ Em Em'). intros t Hin'. apply mo_fine. unfold module_types. apply in_or_app. right. apply in_or_app. left. apply in_flat_map. exists i. split; [exact (mo_item (AFunction i) Hi)|exact Hin']. }
          destruct im as [fr0|], im' as [fr0'|]; try easy. injection Ei as <-. injection Ei' as <-. exact K. }
        destruct (Forall2_left _ _ _ _ F Hin) as (y' & Hy' & K). exists y'. split; [|exact K]. unfold pt_body. do 5 (apply in_or_app; right). apply in_or_app. left. now apply Inc.
      - right. destruct (when_from _ _ _ _ _ (po_props _ _ _ HP) E) as (B & i & fr & Hi & Ei & Hin). destruct (when_In _ _ _ _ (po_props _ _ _ HP') B i (mo_item (AProperty i) Hi)) as (fr' & Ei' & Inc).
        assert (F : Forall2 kept fr fr').
        { unfold prop_frags in Ei, Ei'. apply bind_Ok in Ei as (im & Em & Ei). apply bind_Ok in Ei' as (im' & Em' & Ei').
          assert (N : forall z, name_taken (pt_scope P) z = name_taken (pt_scope P') z).
          { apply (scope_names _ _ _ _ (po_scope _ _ _ HP) (po_scope _ _ _ HP')). intros f. split; [exact (mo_item (AFunction f))|exact (mo_same (AProperty i) (AFunction f) Hi)]. }
          assert (K : kept_impl im im').
          { refine (prop_grown _ _ _ _ _ _ _ _ _ i im im' (taken_access _ _ _ _ N) _ Em Em'). apply mo_fine. unfold module_types. do 2 (apply in_or_app; right). apply in_map. exact (mo_item (AProperty i) Hi). }
          destruct im as [fr0|], im' as [fr0'|]; try easy. injection Ei as <-. injection Ei' as <-. exact K. }
        destruct (Forall2_left _ _ _ _ F Hin) as (y' & Hy' & K). exists y'. split; [|exact K]. unfold pt_body. do 6 (apply in_or_app; right). apply in_or_app. left. now apply Inc.
      - right. destruct (when_from _ _ _ _ _ (po_subs _ _ _ HP) E) as (B & s & fr & Hs & Es & Hin). destruct (mo_sub s Hs) as (s' & Hs' & En).
        destruct (when_In _ _ _ _ (po_subs _ _ _ HP') B s' Hs') as (fr' & Es' & Inc). destruct (generated_mods X s fr n b Es Hin) as (Q & _ & Hn & _). destruct (module_in X' s' fr' Es') as (Q' & n' & _ & Hn' & Hin').
        apply path_name_ends in Hn. rewrite En in Hn'. rewrite (ends_unique _ _ _ Hn' Hn) in Hin'. eexists. split; [|apply kp_mod]. unfold pt_body. do 7 (apply in_or_app; right). apply Inc. exact Hin'.
    Qed.
  End pair.
  Lemma mo_output : forall ns k y, at_path out ns k -> In y k -> leads y = false ->
    (exists ex, y = GUseSuper ex) \/ exists k', at_path out' ns k' /\ ((exists y', In y' k' /\ kept y y') \/
      exists n ex n' ex', y = GMod n [GPub; GUseSuper ex] /\ In (GMod n' [GPub; GUseSuper ex']) k' /\ incl ex ex' /\ (n' = n \/ exists b, In (GMod n b) k')).
  Proof.
    intros ns b y Hb Hy Hlead. destruct (output_named x numpy fuel c out ms Hf Hg ns b Hb) as [[-> K]|[(ex & ->)|(ch & m & P & R & M & HP & ->)]].
    - right. destruct (K y Hy) as [E|(n & b0 & ->)]; [congruence|]. assert (b = out) as -> by now inversion Hb. exists out'.
      destruct (output_from x numpy fuel c out ms Hf Hg _ Hy) as (m & lm & Hm & Em & Hin). destruct (generated_mods X m lm n b0 Em Hin) as (Q & _ & Hn & _). apply path_name_ends in Hn.
      assert (Z : present ms [m_name m]) by (exists m; now apply reach_here). apply (proj1 (mo_forest _)) in Z as (k & Z). pose proof (mo_name [m_name m] m k (reach_here ms m Hm) Z) as En.
      assert (Hk : In k ms') by (inversion Z as [l2 m2 Hm2 F1 F2|l2 m2 c2 k2 Hm2 Hr F1 F2]; subst; [exact Hm2|inversion Hr]).
      destruct (output_of x numpy fuel c' out' ms' Hf' Hg' k Hk) as (lk & Ek & Il). destruct (module_in X' k lk Ek) as (Q' & n' & _ & Hn' & Hin'). rewrite <- En in Hn'. rewrite (ends_unique _ _ _ Hn' Hn) in Hin'.
      split; [constructor|]. left. eexists. split; [apply Il; exact Hin'|apply kp_mod].
    - left. destruct Hy as [<-|[<-|[]]]; [discriminate|now exists ex].
    - right. assert (Z : present ms ch) by now exists m. apply (proj1 (mo_forest _)) in Z as (k & R').
      destruct (output_reached x numpy fuel c' out' ms' Hf' Hg' ch k (or_introl Ht) R') as (ns' & P' & M' & HP' & A'). rewrite (mirrors_once ch ns' ns M' M) in A'.
      destruct (mo_body ch m k P P' R R' HP HP' y Hy Hlead) as [(n & ex & n' & ex' & E & Hin & Hinc & Hne)|(y' & Hy' & Q)]; exists (pt_body k P'); (split; [exact A'|]); [right; now exists n, ex, n', ex'|left; now exists y'].
  Qed.
End outputs.
