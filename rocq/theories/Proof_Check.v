(** * Lemmas: the bodies of the generated functions check (C68) *)
From Coq Require Import Bool.
From Verif Require Import Base Model_Ident Model_Path Model_Import Model_Text Model_Config Model_Type Model_IntoRs Model_World Model_Out
  Model_Function Model_Property Model_Class Model_Module Model_Parse Model_Codegen Spec_Path Spec_Names Spec_Call Spec_Rust Spec_Items Spec_Tree Spec_Api Spec_Out Spec_Attr Spec_Full Spec_Use Spec_Sig Spec_Check
  Proof_Base Proof_Ident Proof_Path Proof_Type Proof_Ann Proof_IntoRs Proof_Function Proof_Call Proof_Method Proof_Module
  Proof_Parse Proof_Forest Proof_Err Proof_Api Proof_Honest Proof_Rooted Proof_Parts Proof_Property Proof_Scope Proof_Attr Proof_Shown Proof_Full Proof_Calm Proof_Use Proof_Clash Proof_Acts Proof_Sig.

(** ** Types *)
Lemma sound_option : forall i, sound (r_option i) = sound i.
Proof. intros i. unfold sound. cbn. destruct (keys_hashable i), (paths_exist i), (small i); reflexivity. Qed.
Lemma sound_vec : forall i, sound (RVec i) = sound i /\ sound (RRef (RSlice i)) = sound i.
Proof. intros i. split; reflexivity. Qed.
Lemma sound_set : forall i, sound (r_hashset i) = sound i && has_hash i.
Proof. intros i. unfold sound. cbn. destruct (keys_hashable i), (paths_exist i), (small i), (has_hash i); reflexivity. Qed.
Lemma sound_map : forall k v, sound (r_hashmap k v) = sound k && has_hash k && sound v.
Proof. intros k v. unfold sound. cbn. destruct (keys_hashable k), (paths_exist k), (small k), (has_hash k), (keys_hashable v), (paths_exist v), (small v); reflexivity. Qed.
Lemma sound_tuple : forall l, sound (RTup l) = (length l <=? 12) && forallb sound l.
Proof.
  intros l. unfold sound at 1. cbn [keys_hashable paths_exist small]. destruct (length l <=? 12); cbn [andb]; [|now rewrite !andb_false_r].
  induction l as [|x l IH]; [reflexivity|]. cbn [forallb]. rewrite <- IH. unfold sound.
  destruct (keys_hashable x), (paths_exist x), (small x), (forallb keys_hashable l), (forallb paths_exist l), (forallb small l); reflexivity.
Qed.
Lemma sound_ref : forall i, sound (RRef i) = sound i.
Proof. reflexivity. Qed.
Lemma forallb_same : forall {A} (f g : A -> bool) l, (forall x, In x l -> f x = g x) -> forallb f l = forallb g l.
Proof. intros A f g l H. induction l as [|x l IH]; [reflexivity|]. cbn. rewrite (H x) by now left. rewrite IH; [reflexivity|]. intros y Hy. apply H. now right. Qed.

Lemma owned_sound : forall c t o b, into_rs c t = Ok (o, b) -> has_topy o = sound o /\ has_from o = sound o.
Proof.
  intros c t. induction t as [x IH|l IH|k v IHk IHv|x IH|x IH|x IH|l IH|ps r|s|t Ht] using ptype_ind'; intros o b H.
  - cbn in H. apply bind_Ok in H as (i & Hi & H). injection H as <- <-. apply owned_of in Hi as (bi & Hi). apply IH in Hi as [H1 H2].
    rewrite sound_option. cbn. now rewrite H1, H2, !orb_false_r.
  - cbn in H. injection H as <- <-. split; reflexivity.
  - cbn [into_rs] in H. apply bind_Ok in H as (v' & Hv' & H). apply owned_of in Hv' as (bv & Hv').
    destruct (is_hashable k && negb (mentions_pyany v')); [|injection H as <- <-; split; reflexivity].
    apply bind_Ok in H as (k' & Hk' & H). injection H as <- <-. apply owned_of in Hk' as (bk & Hk'). apply IHk in Hk' as [K1 K2]. apply IHv in Hv' as [V1 V2].
    rewrite sound_map. cbn. now rewrite K1, K2, V1, V2.
  - cbn [into_rs] in H. destruct (is_hashable x); [|injection H as <- <-; split; reflexivity].
    apply bind_Ok in H as (k' & Hk' & H). injection H as <- <-. apply owned_of in Hk' as (bk & Hk'). apply IH in Hk' as [K1 K2]. rewrite sound_set. cbn. now rewrite K1, K2, !orb_false_r.
  - cbn in H. apply bind_Ok in H as (i & Hi & H). injection H as <- <-. apply owned_of in Hi as (bi & Hi). exact (IH _ _ Hi).
  - cbn [into_rs] in H. destruct (is_hashable x); [|injection H as <- <-; split; reflexivity].
    apply bind_Ok in H as (k' & Hk' & H). injection H as <- <-. apply owned_of in Hk' as (bk & Hk'). apply IH in Hk' as [K1 K2]. rewrite sound_set. cbn. now rewrite K1, K2, !orb_false_r.
  - destruct l as [|x [|y l]]; try (cbn in H; injection H as <- <-; split; reflexivity).
    rewrite into_tuple in H. destruct (is_ellipsis y && _).
    + apply bind_Ok in H as (i & Hi & H). injection H as <- <-. apply owned_of in Hi as (bi & Hi). exact (IH x (or_introl eq_refl) _ _ Hi).
    + apply bind_Ok in H as (is & Hi & H). injection H as <- <-. rewrite sound_tuple. pose proof (mapM_length _ _ _ Hi) as El. cbn [has_topy has_from].
      replace (1 <=? length is) with true by (rewrite El; reflexivity). cbn [andb].
      rewrite (forallb_same has_topy sound is), (forallb_same has_from sound is); [split; reflexivity|..];
        (intros r Hr; destruct (mapM_In _ _ _ _ Hi Hr) as (z & Hz & Ez); apply owned_of in Ez as (bz & Ez); apply (IH z Hz _ _ Ez)).
  - cbn in H. injection H as <- <-. split; reflexivity.
  - cbn [into_rs] in H. destruct (map_type_cases c s o b H) as [[-> ->]|[(rel & -> & ->)|E]]; [split; reflexivity|split; reflexivity|injection E as -> ->; split; reflexivity].
  - split_leaf t Ht H; split; reflexivity.
Qed.

(** The type after the preparation can be passed exactly if the type of the parameter is sound. *)
Definition passable (p : prep) (b : rty) : bool := match after p b with Some r => has_topy r | None => false end.
Lemma needs_same : forall c k v o b nd, into_rs c (TDict k v) = Ok (o, b) -> dict_needs_prep c k v = Ok nd ->
  exists v', into_rs_owned c v = Ok v' /\ is_hashable k && negb (mentions_pyany v') = negb nd.
Proof.
  intros c k v o b nd H En. cbn [into_rs] in H. apply bind_Ok in H as (v' & Hv' & _). exists v'. split; [exact Hv'|]. unfold dict_needs_prep in En.
  destruct (is_hashable k); cbn [negb andb] in *; [|injection En as <-; reflexivity]. apply bind_Ok in En as (v'' & Hv'' & En). unfold into_rs_owned in Hv''. rewrite Hv'' in Hv'. injection Hv' as ->. now injection En as <-.
Qed.
Lemma passable_sound : forall c t o b p, table_ok (cx_local c) -> into_rs c t = Ok (o, b) -> preprocess_borrowed c t = Ok p -> passable p b = sound b.
Proof.
  intros c t o b p Hlt H Hp. destruct (owned_sound c t o b H) as [Ho _].
  destruct t; try (cbn in H, Hp; injection H as <- <-; injection Hp as <-; reflexivity).
  - cbn [into_rs preprocess_borrowed] in *. unfold map_type in H. destruct (map_external c s) as [[o' b']|] eqn:E.
    + injection Hp as <-. injection H as -> ->. unfold map_external in E. destruct (cx_numpy c && is_ndarray s); [|easy]. injection E as <- <-. reflexivity.
    + apply bind_Ok in H as (k & Ek & H). apply bind_Ok in Hp as (k' & Ek' & Hp). injection Hp as <-.
      destruct (lt_get (cx_local c) k) as [rel|] eqn:El.
      * destruct (syn_path_ok _ rel); [|easy]. injection H as <- <-. destruct (lt_mem (cx_local c) k'); reflexivity.
      * injection H as <- <-. unfold lt_mem. destruct (lt_get (cx_local c) k') as [rel|] eqn:El'; [|reflexivity].
        exfalso. unfold path_from_py_chk in Ek, Ek'.
        destruct (cx_dbg c && contains_str dcolon s); [easy|]. injection Ek' as <-. destruct (cx_dbg c && _); [easy|]. injection Ek as <-.
        destruct (in_dec N.eq_dec c_lbr s) as [Hb|Hb].
        -- apply lt_get_In in El' as (k & Hk & Heq). apply path_eqb_eq in Heq. subst k. destruct (bracket_in_path (cx_uni c) s Hb) as (i & Hii & Hc). now apply (Hlt _ _ Hk i).
        -- rewrite before_bracket_none in El by easy. congruence.
  - cbn [into_rs] in H. apply bind_Ok in H as (i & Ei & H). injection H as <- <-. apply owned_of in Ei as (bi & Ei).
    assert (Hn : forall q, q = PrepNone -> passable q (r_option i) = sound (r_option i)) by (intros q ->; exact Ho).
    destruct t; try (cbn in Hp; injection Hp as <-; now apply Hn).
    cbn [preprocess_borrowed] in Hp. apply bind_Ok in Hp as (nd & En & Hp). injection Hp as <-. destruct nd; [|now apply Hn].
    destruct (needs_same _ _ _ _ _ _ Ei En) as (v' & Hv' & E). cbn [into_rs] in Ei. unfold into_rs_owned in Hv'. rewrite Hv' in Ei. cbn [obind] in Ei. rewrite E in Ei. cbn in Ei. injection Ei as <- <-. reflexivity.
  - cbn [preprocess_borrowed] in Hp. apply bind_Ok in Hp as (nd & En & Hp). injection Hp as <-. destruct (needs_same _ _ _ _ _ _ H En) as (v' & Hv' & E).
    cbn [into_rs] in H. unfold into_rs_owned in Hv'. rewrite Hv' in H. cbn [obind] in H. rewrite E in H. destruct nd; cbn [negb] in H; [injection H as <- <-; reflexivity|].
    apply bind_Ok in H as (k' & Ek & H). injection H as <- <-. exact Ho.
  - cbn [into_rs] in H. cbn in Hp. injection Hp as <-. destruct (is_hashable t); [|injection H as <- <-; reflexivity]. apply bind_Ok in H as (k' & Ek & H). injection H as <- <-. exact Ho.
  - cbn [into_rs] in H. cbn in Hp. injection Hp as <-. apply bind_Ok in H as (k' & Ek & H). injection H as <- <-. exact Ho.
  - cbn [into_rs] in H. cbn in Hp. injection Hp as <-. destruct (is_hashable t); [|injection H as <- <-; reflexivity]. apply bind_Ok in H as (k' & Ek & H). injection H as <- <-. exact Ho.
  - destruct l as [|x [|y l]]; try (cbn in H, Hp; injection H as <- <-; injection Hp as <-; reflexivity).
    cbn in Hp. injection Hp as <-. rewrite into_tuple in H. destruct (is_ellipsis y && _); apply bind_Ok in H as (i & Ei & H); injection H as <- <-; exact Ho.
Qed.

(** ** The parameters of a function *)
Lemma distinct_ok : forall l, distinct l = true <-> NoDup l.
Proof.
  induction l as [|x l IH]; cbn; [split; [constructor|reflexivity]|]. rewrite andb_true_iff, IH, negb_true_iff. split.
  - intros [H1 H2]. constructor; [|exact H2]. intros K. apply mem_str_In in K. congruence.
  - intros H. inversion H; subst. split; [|assumption]. destruct (mem_str x l) eqn:E; [apply mem_str_In in E; contradiction|reflexivity].
Qed.
Definition entry := (ident * rty * prep)%type.
Definition e_name (e : entry) : ident := fst (fst e).
Definition e_ty (e : entry) : rty := snd (fst e).
Definition e_prep (e : entry) : prep := snd e.
Lemma var_cons : forall E x t y, var ((x, t) :: E) y = if str_eqb x y then Some t else var E y.
Proof. intros E x t y. unfold var. cbn. now destruct (str_eqb x y). Qed.
Lemma prepare_all : forall (L : list entry) E, NoDup (map e_name L) -> (forall e, In e L -> var E (e_name e) = Some (e_ty e)) ->
  match prepare E (map (fun e => (e_name e, e_prep e)) L) with
  | Some E' => (forall e, In e L -> var E' (e_name e) = after (e_prep e) (e_ty e) /\ after (e_prep e) (e_ty e) <> None) /\ (forall y, ~ In y (map e_name L) -> var E' y = var E y)
  | None => exists e, In e L /\ after (e_prep e) (e_ty e) = None
  end.
Proof.
  induction L as [|e L IH]; intros E Hn He; [cbn; split; [intros e []|reflexivity]|]. inversion Hn as [|? ? Hx Hn']; subst. cbn [map prepare].
  pose proof (He e (or_introl eq_refl)) as E0.
  assert (K : forall E1 t', (forall y, ~ In y [e_name e] -> var E1 y = var E y) -> var E1 (e_name e) = Some t' -> after (e_prep e) (e_ty e) = Some t' ->
    match prepare E1 (map (fun e => (e_name e, e_prep e)) L) with
    | Some E' => (forall e', In e' (e :: L) -> var E' (e_name e') = after (e_prep e') (e_ty e') /\ after (e_prep e') (e_ty e') <> None) /\ (forall y, ~ In y (map e_name (e :: L)) -> var E' y = var E y)
    | None => exists e', In e' (e :: L) /\ after (e_prep e') (e_ty e') = None
    end).
  { intros E1 t' H1 H2 H3. specialize (IH E1 Hn'). destruct (prepare E1 _) as [E'|].
    - destruct IH as [I1 I2].
      { intros e' He'. rewrite H1; [apply He; now right|]. intros [Eq|[]]. apply Hx. rewrite Eq. now apply in_map. }
      split; [intros e' [<-|He']; [rewrite (I2 _ Hx), H2, H3; split; [reflexivity|discriminate]|now apply I1]|]. intros y Hy. rewrite I2; [apply H1|]; cbn in *; tauto.
    - destruct IH as (e' & He' & Ha).
      { intros e' He'. rewrite H1; [apply He; now right|]. intros [Eq|[]]. apply Hx. rewrite Eq. now apply in_map. }
      exists e'. split; [now right|exact Ha]. }
  destruct (e_prep e) eqn:Ep; rewrite ?E0; try (destruct (after _ (e_ty e)) as [t'|] eqn:Ea; [|exists e; split; [now left|now rewrite Ep]];
    apply (K ((e_name e, t') :: E) t'); [intros y Hy; rewrite var_cons; destruct (str_eqb (e_name e) y) eqn:Es; [apply str_eqb_eq in Es; destruct Hy; now left|reflexivity]|rewrite var_cons, str_eqb_refl; reflexivity|reflexivity]).
  apply (K E (e_ty e)); [reflexivity|exact E0|reflexivity].
Qed.

(** ** Calls *)
Definition first_kind (k : pkind) (ps : list param) : list param := match find (fun p => pkind_eqb (p_kind p) k) ps with Some p => [p] | None => [] end.
Definition fixed_params (ps : list param) : list param := of_kinds [PositionalOnly; PositionalOrKeyword] ps.
Definition named_params (ps : list param) : list param := of_kinds [KeywordOnly] ps.
Lemma forallb_map : forall {A B} (f : B -> bool) (g : A -> B) l, forallb f (map g l) = forallb (fun x => f (g x)) l.
Proof. intros A B f g l. induction l as [|x l IH]; [reflexivity|]. cbn. now rewrite IH. Qed.
Lemma call_shape : forall U ps pos kw, (forall p, In p ps -> syn_ident_ok U (pid p) = true) -> gen_pos U ps = Ok pos -> gen_kw U ps = Ok kw ->
  args_vars (gen_args pos kw) = map pid (fixed_params ps ++ first_kind VarPositional ps ++ first_kind VarKeyword ps ++ named_params ps) /\
  forall E, (forall q, In q (first_kind VarPositional ps) -> var_is E is_tuple_ref (pid q) = true) -> (forall q, In q (first_kind VarKeyword ps) -> var_is E is_bound_dict (pid q) = true) ->
    args_check E (gen_args pos kw) = forallb (given_object E) (map pid (fixed_params ps ++ named_params ps)).
Proof.
  intros U ps pos kw Hok Hp Hk. unfold gen_pos in Hp. apply bind_Ok in Hp as (fixed & Hf & Hp). apply param_idents_Ok in Hf as [-> _]. fold (fixed_params ps) in Hp.
  unfold gen_kw in Hk. apply bind_Ok in Hk as (ids & Hi & Hk). apply param_idents_Ok in Hi as [-> _]. fold (named_params ps) in Hk.
  assert (V : forall k, match find (fun p => pkind_eqb (p_kind p) k) ps with Some p => param_ident_opt U p | None => None end = match first_kind k ps with v :: _ => Some (pid v) | [] => None end).
  { intros k. unfold first_kind. destruct (find (fun p => pkind_eqb (p_kind p) k) ps) as [v|] eqn:Ev; [|reflexivity]. apply find_some in Ev as [Hv _]. unfold param_ident_opt. now rewrite param_ident_iff by now apply Hok. }
  assert (O : forall k, first_kind k ps = [] \/ exists v, first_kind k ps = [v]) by (intros k; unfold first_kind; destruct (find (fun p => pkind_eqb (p_kind p) k) ps); eauto).
  rewrite V in Hp, Hk. rewrite !map_app.
  set (names := map (fun p => as_py (p_name p)) (named_params ps)) in *.
  assert (S : map snd (combine names (map pid (named_params ps))) = map pid (named_params ps)) by (apply snd_combine; unfold names; now rewrite !map_length).
  assert (SF : forall E, forallb (fun e => given_object E (snd e)) (combine names (map pid (named_params ps))) = forallb (fun q => given_object E (pid q)) (named_params ps)).
  { intros E. rewrite <- (forallb_map (given_object E) snd), S. apply forallb_map. }
  assert (SN : combine names (map pid (named_params ps)) = [] -> named_params ps = []) by (intros K; rewrite K in S; now destruct (named_params ps)).
  destruct (O VarPositional) as [Ov|(v & Ov)], (O VarKeyword) as [Ok|(k & Ok)]; rewrite Ov, Ok in *;
    destruct (fixed_params ps) as [|f0 fr] eqn:Ef; cbn [map] in Hp; injection Hp as <-;
    destruct (combine names (map pid (named_params ps))) as [|n0 nr] eqn:En; try rewrite (SN eq_refl) in *; injection Hk as <-;
    cbn [gen_args fst snd args_vars pos_vars kw_vars args_check pos_checks kw_checks];
    (split; [try rewrite <- S; cbn [map app]; rewrite ?map_app, <- ?app_assoc, ?app_nil_r; reflexivity|]);
    intros E Q1 Q2; rewrite ?forallb_app, ?forallb_map, <- ?SF; cbn [map app forallb andb]; rewrite ?forallb_map, ?andb_true_r;
    try (pose proof (Q1 v (or_introl eq_refl)) as A1; assert (A2 : var_is E into_tuple_arg (pid v) = true) by (unfold var_is in *; destruct (var E (pid v)); [|discriminate]; unfold into_tuple_arg; now rewrite A1); rewrite ?A1, ?A2);
    try (pose proof (Q2 k (or_introl eq_refl)) as A3; rewrite ?A3); rewrite ?andb_true_r; reflexivity.
Qed.

(** ** Functions *)
Lemma two_mapMs : forall {A B C} (f : A -> outcome B) (g : A -> outcome C) l bs cs, mapM f l = Ok bs -> mapM g l = Ok cs ->
  exists Z : list (A * B * C), l = map (fun z => fst (fst z)) Z /\ bs = map (fun z => snd (fst z)) Z /\ cs = map snd Z /\ forall z, In z Z -> f (fst (fst z)) = Ok (snd (fst z)) /\ g (fst (fst z)) = Ok (snd z).
Proof.
  intros A B C f g. induction l as [|x l IH]; intros bs cs Hb Hc.
  - injection Hb as <-. injection Hc as <-. exists []. repeat split; intros; contradiction.
  - cbn [mapM] in *. apply bind_Ok in Hb as (b & Eb & Hb). apply bind_Ok in Hb as (bs' & Hb' & Hb). injection Hb as <-. apply bind_Ok in Hc as (c & Ec & Hc). apply bind_Ok in Hc as (cs' & Hc' & Hc). injection Hc as <-.
    destruct (IH bs' cs' Hb' Hc') as (Z & -> & -> & -> & HZ). exists ((x, b, c) :: Z). repeat split; destruct H as [<-|H]; try assumption; now apply HZ.
Qed.
Lemma combine_maps : forall {A B C} (f : A -> B) (g : A -> C) l, combine (map f l) (map g l) = map (fun x => (f x, g x)) l.
Proof. intros A B C f g l. induction l as [|x l IH]; [reflexivity|]. cbn. now rewrite IH. Qed.
Lemma var_In : forall (L : list entry) e, NoDup (map e_name L) -> In e L -> var (map (fun e => (e_name e, e_ty e)) L) (e_name e) = Some (e_ty e).
Proof.
  induction L as [|e' L IH]; intros e Hn He; [destruct He|]. inversion Hn as [|? ? Hx Hn']; subst. cbn [map]. rewrite var_cons. destruct He as [->|He]; [now rewrite str_eqb_refl|].
  destruct (str_eqb (e_name e') (e_name e)) eqn:Es; [|now apply IH]. apply str_eqb_eq in Es. exfalso. apply Hx. rewrite Es. now apply in_map.
Qed.
Definition kinds_typed (f : func) : Prop :=
  forall q, In q (fn_params f) -> match p_kind q with VarPositional => p_ann q = ann_args | VarKeyword => p_ann q = ann_kwargs | _ => True end.
Definition fits_place (t : ftype) (pl : place) : Prop :=
  match t with FMethod _ (MInstance | MCallable) => pl = InTrait | FMethod _ MConstructor => pl = InImpl | _ => pl <> InTrait end.
Lemma of_kinds_In : forall ks ps q, In q (of_kinds ks ps) <-> In q ps /\ In (p_kind q) ks.
Proof.
  intros ks ps q. unfold of_kinds. rewrite filter_In. split; intros [H1 H2]; (split; [exact H1|]).
  - apply existsb_exists in H2 as (k & Hk & E). destruct (p_kind q), k; try discriminate; exact Hk.
  - apply existsb_exists. exists (p_kind q). split; [exact H2|]. now destruct (p_kind q).
Qed.
Lemma first_kind_In : forall k ps q, In q (first_kind k ps) -> In q ps /\ p_kind q = k.
Proof.
  intros k ps q H. unfold first_kind in H. destruct (find (fun p => pkind_eqb (p_kind p) k) ps) as [v|] eqn:E; [|destruct H]. destruct H as [<-|[]]. apply find_some in E as [E1 E2]. split; [exact E1|]. destruct (p_kind v), k; try discriminate; reflexivity.
Qed.
Lemma NoDup_filter_map : forall {A B} (g : A -> B) (f : A -> bool) l, NoDup (map g l) -> NoDup (map g (filter f l)).
Proof.
  intros A B g f l. induction l as [|x l IH]; intros H; [constructor|]. inversion H as [|? ? Hx Hn]; subst. cbn. destruct (f x); [|now apply IH]. cbn. constructor; [|now apply IH].
  intros K. apply Hx. apply in_map_iff in K as (y & E & Hy). apply filter_In in Hy as [Hy _]. rewrite <- E. now apply in_map.
Qed.
Lemma same_param : forall ps p q, NoDup (map pid ps) -> In p ps -> In q ps -> pid p = pid q -> p = q.
Proof.
  induction ps as [|x ps IH]; intros p q Hn Hp Hq E; [destruct Hp|]. inversion Hn as [|? ? Hx Hn']; subst. destruct Hp as [<-|Hp], Hq as [<-|Hq]; [reflexivity|..|now apply IH].
  - exfalso. apply Hx. rewrite E. now apply in_map.
  - exfalso. apply Hx. rewrite <- E. now apply in_map.
Qed.
Lemma NoDup_app_disjoint : forall {A} (l k : list A), NoDup l -> NoDup k -> (forall x, In x l -> In x k -> False) -> NoDup (l ++ k).
Proof.
  intros A l k Hl Hk H. induction l as [|x l IH]; [exact Hk|]. inversion Hl as [|? ? Hx Hl']; subst. cbn. constructor.
  - intros K. apply in_app_or in K as [K|K]; [contradiction|]. apply (H x); [now left|exact K].
  - apply IH; [exact Hl'|]. intros y Hy Hy'. apply (H y); [now right|exact Hy'].
Qed.
Lemma used_once : forall ps, NoDup (map pid ps) -> NoDup (map pid (fixed_params ps ++ first_kind VarPositional ps ++ first_kind VarKeyword ps ++ named_params ps)).
Proof.
  intros ps Hn.
  assert (K1 : forall q, In q (fixed_params ps) -> In q ps /\ (p_kind q = PositionalOnly \/ p_kind q = PositionalOrKeyword)).
  { intros q Hq. apply of_kinds_In in Hq as [Hq [K|[K|[]]]]; auto. }
  assert (K2 : forall q, In q (named_params ps) -> In q ps /\ p_kind q = KeywordOnly). { intros q Hq. apply of_kinds_In in Hq as [Hq [K|[]]]; auto. }
  assert (K3 : forall k, NoDup (map pid (first_kind k ps))).
  { intros k. unfold first_kind. destruct (find _ ps); repeat constructor. intros []. }
  rewrite !map_app. repeat apply NoDup_app_disjoint; try apply K3; try (now apply NoDup_filter_map); intros z Hz Hz';
    rewrite ?in_app_iff in Hz'; apply in_map_iff in Hz as (p & <- & Hp).
  - apply first_kind_In in Hp as [P1 P2]. apply in_map_iff in Hz' as (q & E & Hq). apply K2 in Hq as [Q1 Q2]. apply (same_param ps) in E; try assumption. congruence.
  - apply first_kind_In in Hp as [P1 P2]. assert (Q : exists q, pid q = pid p /\ In q ps /\ p_kind q <> p_kind p).
    { destruct Hz' as [Hz'|Hz']; apply in_map_iff in Hz' as (q & E & Hq); exists q; (split; [exact E|]); [apply first_kind_In in Hq as [Q1 Q2]|apply K2 in Hq as [Q1 Q2]]; (split; [exact Q1|]); congruence. }
    destruct Q as (q & E & Hq & Hk). apply Hk. f_equal. now apply (same_param ps).
  - destruct (K1 p Hp) as [P1 P2]. assert (Q : exists q, pid q = pid p /\ In q ps /\ p_kind q <> p_kind p).
    { destruct Hz' as [Hz'|[Hz'|Hz']]; apply in_map_iff in Hz' as (q & E & Hq); exists q; (split; [exact E|]); [apply first_kind_In in Hq as [Q1 Q2]|apply first_kind_In in Hq as [Q1 Q2]|apply K2 in Hq as [Q1 Q2]]; (split; [exact Q1|]); destruct P2 as [P2|P2]; congruence. }
    destruct Q as (q & E & Hq & Hk). apply Hk. f_equal. now apply (same_param ps).
Qed.

Lemma fn_checks : forall g scope f impl d pl, table_ok (cx_local (g_cx g)) -> kinds_typed f -> fn_generate g scope f = Ok impl -> In (GFn d) (frags_of impl) ->
  NoDup (map fst (k_params (f_contract d))) -> fits_place (fn_typ f) pl ->
  (checks pl d = true <-> forall t, In t (sig_types (f_contract d)) -> sound t = true).
Proof.
  intros g scope f impl d pl Ht Hkt H Hin Hnd Hpl.
  destruct (fn_generate_inv _ _ _ _ _ H Hin) as (name & id & preps & tys & rt & public & dd & pos & kw & _ & _ & Hpreps & Htys & Hrt & Hok & Hk & Hd & Hpos & Hkw & Ely & Epr & Edisp & Eb).
  destruct (two_mapMs _ _ _ _ _ Htys Hpreps) as (Z & Eps & Ety & Epp & HZ).
  set (L := map (fun z : param * rty * prep => (pid (fst (fst z)), snd (fst z), snd z)) Z : list entry).
  assert (Kp : k_params (f_contract d) = map (fun e => (e_name e, e_ty e)) L /\ k_self (f_contract d) = is_bound (fn_typ f) /\
    match fn_typ f with FMethod _ MConstructor => k_ret (f_contract d) = RetSelf | _ => k_ret (f_contract d) = RetType rt end).
  { unfold L. rewrite map_map. cbn. rewrite Ety, Eps, map_map, combine_maps in Hk. unfold gen_contract in Hk. destruct (fn_typ f) as [|cp mk|]; [|destruct mk|];
      try (injection Hk as _ Hk; rewrite <- Hk; repeat split; reflexivity); apply bind_Ok in Hk as (cn & _ & Hk); apply bind_Ok in Hk as (n & _ & Hk); injection Hk as _ Hk; rewrite <- Hk; repeat split; reflexivity. }
  destruct Kp as (Kp & Ks & Kr). rewrite Kp, map_map in Hnd. change (map (fun e => fst (e_name e, e_ty e)) L) with (map e_name L) in Hnd.
  assert (Epl : map pid (fn_params f) = map e_name L) by (unfold L; now rewrite Eps, !map_map).
  assert (Epr' : f_prep d = map (fun e => (e_name e, e_prep e)) L) by (unfold L; rewrite map_map, Epr, Epp, Eps, map_map, combine_maps; reflexivity).
  assert (HL : forall e, In e L -> exists q o, In q (fn_params f) /\ e_name e = pid q /\ into_rs (g_cx g) (p_ann q) = Ok (o, e_ty e) /\ preprocess_borrowed (g_cx g) (p_ann q) = Ok (e_prep e)).
  { intros e He. unfold L in He. apply in_map_iff in He as (z & <- & Hz). destruct (HZ z Hz) as [Z1 Z2]. exists (fst (fst z)). unfold into_rs_borrowed in Z1. destruct (into_rs (g_cx g) _) as [[o b]| | |] eqn:E; try discriminate. injection Z1 as Z1.
    exists o. split; [rewrite Eps; now apply (in_map (fun z => fst (fst z)))|]. split; [reflexivity|]. split; [unfold e_ty; cbn; congruence|exact Z2]. }
  assert (LQ : forall q, In q (fn_params f) -> exists e o, In e L /\ e_name e = pid q /\ into_rs (g_cx g) (p_ann q) = Ok (o, e_ty e) /\ preprocess_borrowed (g_cx g) (p_ann q) = Ok (e_prep e)).
  { intros q Hq. rewrite Eps in Hq. apply in_map_iff in Hq as (z & <- & Hz). destruct (HZ z Hz) as [Z1 Z2]. unfold into_rs_borrowed in Z1. destruct (into_rs (g_cx g) _) as [[o b]| | |] eqn:E; try discriminate. injection Z1 as Z1.
    exists (pid (fst (fst z)), snd (fst z), snd z), o. split; [now apply (in_map (fun z => (pid (fst (fst z)), snd (fst z), snd z)))|]. split; [reflexivity|]. split; [cbn; congruence|exact Z2]. }
  assert (PS : forall e, In e L -> passable (e_prep e) (e_ty e) = sound (e_ty e)).
  { intros e He. destruct (HL e He) as (q & o & _ & _ & E1 & E2). exact (passable_sound _ _ _ _ _ Ht E1 E2). }
  assert (RS : has_from rt = sound rt). { apply owned_of in Hrt as (b & Hrt). exact (proj2 (owned_sound _ _ _ _ Hrt)). }
  assert (Var : forall q e o, In q (fn_params f) -> into_rs (g_cx g) (p_ann q) = Ok (o, e_ty e) -> preprocess_borrowed (g_cx g) (p_ann q) = Ok (e_prep e) ->
    (p_kind q = VarPositional -> after (e_prep e) (e_ty e) = Some (RRef (bound_of "PyTuple")) /\ sound (e_ty e) = true) /\
    (p_kind q = VarKeyword -> after (e_prep e) (e_ty e) = Some (bound_of "PyDict") /\ sound (e_ty e) = true)).
  { intros q e o Hq E1 E2. split; intros Eq; specialize (Hkt q Hq); rewrite Eq in Hkt; rewrite Hkt in E1, E2; cbn in E1, E2; injection E1 as _ E1; injection E2 as E2; rewrite <- E1, <- E2; split; reflexivity. }
  destruct (call_shape _ _ _ _ Hok Hpos Hkw) as [Bv Bc]. set (a := gen_args pos kw) in *.
  assert (Eb' : f_body d = BCall a \/ f_body d = BCallMethod (as_py name) a) by (rewrite Eb; destruct (fn_typ f) as [|cp mk|]; [|destruct mk|]; auto).
  (* the parts that always hold *)
  assert (C1 : Bool.eqb (k_self (f_contract d)) (match pl with InTrait => true | _ => false end) = true).
  { rewrite Ks. unfold fits_place in Hpl. destruct (fn_typ f) as [|cp mk|]; [|destruct mk|]; cbn; try (rewrite Hpl); try reflexivity; destruct pl; try reflexivity; congruence. }
  assert (C2 : match f_disp d with DSelf => k_self (f_contract d) | DImport _ => true end = true).
  { rewrite Edisp, Ks. unfold gen_disp in Hd. destruct (fn_typ f) as [|cp mk|]; [|destruct mk|]; try (injection Hd as <-; reflexivity); try discriminate;
      try (apply bind_Ok in Hd as (q1 & _ & Hd)); try (apply bind_Ok in Hd as (q2 & _ & Hd)); injection Hd as <-; reflexivity. }
  assert (C3 : negb (needs_py d) || has_py d = true).
  { unfold has_py. rewrite Ely, Ks. destruct (is_bound (fn_typ f)), (negb (needs_py d)); reflexivity. }
  assert (C4 : forallb (fun e => negb (mem_str (fst e) own_names)) (k_params (f_contract d)) = true).
  { apply forallb_forall. intros [y t] Hy. rewrite Kp in Hy. apply in_map_iff in Hy as (e & E & He). destruct (HL e He) as (q & o & _ & En & _). injection E as <- _. cbn [fst]. rewrite En. reflexivity. }
  assert (C5 : distinct (body_vars (f_body d)) = true).
  { apply distinct_ok. rewrite <- Epl in Hnd. destruct Eb' as [-> | ->]; cbn [body_vars]; rewrite Bv; now apply used_once. }
  assert (C7 : result_checks pl d = match k_ret (f_contract d) with RetType t => sound t | _ => true end).
  { unfold result_checks, fits_place in *. destruct (fn_typ f) as [|cp mk|]; [|destruct mk|]; rewrite Kr, ?Hpl; destruct Eb' as [-> | ->]; first [exact RS|reflexivity]. }
  (* the preparations and the call *)
  assert (C6 : match prepare (k_params (f_contract d)) (f_prep d) with Some E => body_checks E (f_body d) | None => false end = true <-> forall e, In e L -> sound (e_ty e) = true).
  { rewrite Kp, Epr'. pose proof (prepare_all L (map (fun e => (e_name e, e_ty e)) L) Hnd (fun e He => var_In L e Hnd He)) as PA.
    destruct (prepare _ _) as [E'|].
    - destruct PA as [PA _].
      assert (G : forall q, In q (fn_params f) -> exists e o, In e L /\ e_name e = pid q /\ into_rs (g_cx g) (p_ann q) = Ok (o, e_ty e) /\ preprocess_borrowed (g_cx g) (p_ann q) = Ok (e_prep e) /\
        var E' (pid q) = after (e_prep e) (e_ty e) /\ given_object E' (pid q) = sound (e_ty e)).
      { intros q Hq. destruct (LQ q Hq) as (e & o & He & En & E1 & E2). exists e, o. do 4 (split; [assumption|]). rewrite <- En. destruct (PA e He) as [A1 A2]. split; [exact A1|].
        unfold given_object, var_is. rewrite A1, <- (PS e He). reflexivity. }
      assert (Eb6 : body_checks E' (f_body d) = args_check E' a) by (destruct Eb' as [-> | ->]; reflexivity). rewrite Eb6, Bc, forallb_map.
      + rewrite forallb_forall. split.
        * intros K e He. destruct (HL e He) as (q & o & Hq & En & E1 & E2). destruct (Var q e o Hq E1 E2) as [V1 V2]. destruct (p_kind q) eqn:Eq; try (now apply V1); try (now apply V2).
          all: rewrite <- (PS e He); specialize (K q); unfold given_object, var_is in K; rewrite <- En, (proj1 (PA e He)) in K; apply K; apply in_or_app; first [left; apply of_kinds_In; split; [exact Hq|rewrite Eq; cbn; auto; fail]|right; apply of_kinds_In; split; [exact Hq|rewrite Eq; cbn; auto; fail]].
        * intros K q Hq. assert (Hq' : In q (fn_params f)) by (apply in_app_or in Hq as [Hq|Hq]; now apply of_kinds_In in Hq).
          destruct (G q Hq') as (e & o & He & _ & _ & _ & _ & Eg). rewrite Eg. now apply K.
      + intros q Hq. apply first_kind_In in Hq as [Hq Eq]. destruct (G q Hq) as (e & o & He & _ & E1 & E2 & Ev & _). destruct (Var q e o Hq E1 E2) as [V1 _]. destruct (V1 Eq) as [V1' _].
        unfold var_is. rewrite Ev, V1'. reflexivity.
      + intros q Hq. apply first_kind_In in Hq as [Hq Eq]. destruct (G q Hq) as (e & o & He & _ & E1 & E2 & Ev & _). destruct (Var q e o Hq E1 E2) as [_ V1]. destruct (V1 Eq) as [V1' _].
        unfold var_is. rewrite Ev, V1'. reflexivity.
    - destruct PA as (e & He & Ea). split; [discriminate|]. intros K. specialize (K e He). rewrite <- (PS e He) in K. unfold passable in K. rewrite Ea in K. discriminate. }
  unfold checks. rewrite C1, C2, C3, C4, C5, C7. cbn [andb]. rewrite andb_true_iff, C6. unfold sig_types. rewrite Kp, map_map. cbn [snd].
  split.
  - intros [K1 K2] t Hin'. apply in_app_or in Hin' as [Hin'|Hin']; [apply in_map_iff in Hin' as (e & <- & He); now apply K1|]. destruct (k_ret (f_contract d)); try destruct Hin' as [<-|[]]; try contradiction. exact K2.
  - intros K. split; [intros e He; apply K; apply in_or_app; left; now apply (in_map (fun e => e_ty e))|]. destruct (k_ret (f_contract d)); try reflexivity. apply K. apply in_or_app. right. now left.
Qed.

(** ** Accessors *)
Lemma frags_docs : forall g o docs d, gen_doc g o = Ok docs -> ~ In (GFn d) docs.
Proof. intros g o docs d H K. destruct (doc_only _ _ _ H _ K) as (t & E). discriminate. Qed.
Lemma accessor_checks : forall g scope p impl d pl, table_ok (cx_local (g_cx g)) -> prop_generate g scope p = Ok impl -> In (GFn d) (frags_of impl) ->
  (match pr_owner p with OwnerClass => pl = InTrait | OwnerModule => pl <> InTrait end) ->
  (checks pl d = true <-> forall t, In t (sig_types (f_contract d)) -> sound t = true).
Proof.
  intros g scope p impl d pl Ht H Hin Hpl. unfold prop_generate in H. apply bind_Ok in H as ([gt gi] & Hg & H). apply bind_Ok in H as ([st si] & Hs & H).
  assert (K : In (GFn d) gi \/ pr_mutable p = true /\ In (GFn d) si).
  { destruct (pr_owner p); injection H as <-; cbn [frags_of] in Hin.
    - destruct Hin as [Hin|Hin]; [discriminate|]. apply in_app_or in Hin as [Hin|Hin]; [now left|]. destruct (pr_mutable p); [|destruct Hin]. destruct Hin as [Hin|Hin]; [discriminate|]. now right.
    - apply in_app_or in Hin as [Hin|Hin]; [now left|]. destruct (pr_mutable p); [now right|]. injection Hs as _ <-. destruct Hin. }
  assert (Hd : forall y, prop_disp g p = Ok y -> (pr_owner p = OwnerModule /\ exists L, y = DImport L) \/ (pr_owner p = OwnerClass /\ y = DSelf)).
  { intros y Hy. unfold prop_disp in Hy. destruct (pr_owner p); [left|right; injection Hy as <-; now split]. apply bind_Ok in Hy as (q & _ & Hy). apply bind_Ok in Hy as (L & _ & Hy). injection Hy as <-. split; [reflexivity|now exists L]. }
  assert (Pl : (pr_owner p = OwnerModule -> match pl with InTrait => true | _ => false end = false) /\ (pr_owner p = OwnerClass -> pl = InTrait)).
  { split; intros E; rewrite E in Hpl; [destruct pl; congruence|exact Hpl]. }
  destruct Pl as [Pl1 Pl2]. destruct K as [K|[Em K]].
  - unfold gen_getter in Hg. apply bind_Ok in Hg as (docs & Hdoc & Hg). apply bind_Ok in Hg as (n & Hn & Hg). apply bind_Ok in Hg as (id & Hid & Hg). destruct id as [id|]; [|injection Hg as _ <-; destruct K].
    apply bind_Ok in Hg as (t & Hty & Hg). apply bind_Ok in Hg as (dd & Hdd & Hg). injection Hg as _ <-. apply in_app_or in K as [K|[K|[]]]; [now destruct (frags_docs _ _ _ _ Hdoc K)|]. injection K as <-.
    apply owned_of in Hty as (b & Hty). destruct (owned_sound _ _ _ _ Hty) as [_ Es].
    assert (E : checks pl (mk_fn (mk_contract id (owner_is_class (pr_owner p)) [] (RetType t)) false [] dd (BGet (as_py n))) = has_from t).
    { destruct (Hd _ Hdd) as [[E (L & ->)]|[E ->]]; rewrite E; unfold checks, needs_py, has_py, result_checks; cbn -[has_from]; [now rewrite (Pl1 E)|now rewrite (Pl2 E)]. }
    rewrite E, Es. unfold sig_types. cbn. split; [now intros K t' [<-|[]]|]. intros K. apply K. now left.
  - rewrite Em in Hs. unfold gen_setter in Hs. apply bind_Ok in Hs as (docs & Hdoc & Hs). apply bind_Ok in Hs as (n & Hn & Hs). apply bind_Ok in Hs as (id & Hid & Hs). destruct id as [id|]; [|injection Hs as _ <-; destruct K].
    apply bind_Ok in Hs as (pr & Hpr & Hs). apply bind_Ok in Hs as (t & Hty & Hs). apply bind_Ok in Hs as (dd & Hdd & Hs). injection Hs as _ <-. apply in_app_or in K as [K|[K|[]]]; [now destruct (frags_docs _ _ _ _ Hdoc K)|]. injection K as <-.
    assert (Es : passable pr t = sound t).
    { unfold into_rs_borrowed in Hty. destruct (into_rs (g_cx g) (pr_ann p)) as [[o b]| | |] eqn:Eo; try discriminate. injection Hty as <-. exact (passable_sound _ _ _ _ _ Ht Eo Hpr). }
    assert (Ep : match prepare [(p_value, t)] [(p_value, pr)] with Some E => given_object E p_value | None => false end = passable pr t).
    { pose proof (prepare_all [(p_value, t, pr)] [(p_value, t)]) as PA. cbn [map e_name e_prep fst snd] in PA. destruct (prepare _ _) as [E'|].
      - destruct PA as [PA _]; [repeat constructor; easy|intros e [<-|[]]; reflexivity|]. destruct (PA _ (or_introl eq_refl)) as [A1 _]. cbn [e_name e_ty e_prep fst snd] in A1. unfold given_object, var_is, passable. now rewrite A1.
      - destruct PA as (e & [<-|[]] & Ea); [repeat constructor; easy|intros e [<-|[]]; reflexivity|]. cbn [e_ty e_prep fst snd] in Ea. unfold passable. now rewrite Ea. }
    assert (E : checks pl (mk_fn (mk_contract id (owner_is_class (pr_owner p)) [(p_value, t)] RetUnit) (owner_is_class (pr_owner p)) [(p_value, pr)] dd (BSet (as_py n) p_value)) = passable pr t).
    { rewrite <- Ep. destruct (Hd _ Hdd) as [[E (L & ->)]|[E ->]]; rewrite E; unfold checks, needs_py, has_py, result_checks; cbn -[prepare given_object]; [rewrite (Pl1 E)|rewrite (Pl2 E)]; cbn -[prepare given_object]; rewrite andb_true_r; reflexivity. }
    rewrite E, Es. unfold sig_types. cbn. split; [now intros K t' [<-|[]]|]. intros K. apply K. now left.
Qed.

(** ** The parameters that collect the rest *)
Lemma generic_typed : forall q, In q generic_params -> match p_kind q with VarPositional => p_ann q = ann_args | VarKeyword => p_ann q = ann_kwargs | _ => True end.
Proof. intros q [<-|[<-|[]]]; reflexivity. Qed.
Lemma fn_parse_kinds : forall e o n t f, fn_parse e o n t = Ok f -> kinds_typed f.
Proof.
  intros e o n t f H. unfold fn_parse in H. apply bind_Ok in H as (doc & _ & H). destruct (w_signature _ o) as [sg|]; [|injection H as <-; exact generic_typed].
  apply bind_Ok in H as (ps0 & H0 & H). apply bind_Ok in H as (ret & _ & H). apply bind_Ok in H as (t1 & _ & H). destruct (infer_self t1 _) as [t2 ps2] eqn:E2. apply bind_Ok in H as (ps3 & H3 & H). injection H as <-.
  set (R := fun q => match p_kind q with VarPositional => p_ann q = ann_args | VarKeyword => p_ann q = ann_kwargs | _ => True end).
  assert (G : forall q, In q generic_params -> R q) by exact generic_typed.
  assert (P0 : forall q, In q ps0 -> R q).
  { intros q Hq. destruct (mapM_In _ _ _ _ H0 Hq) as (sp & _ & E). unfold read_param in E. apply bind_Ok in E as (nm & _ & E). apply bind_Ok in E as (k & _ & E). apply bind_Ok in E as (an & Ea & E). injection E as <-. unfold R. cbn.
    destruct k; try exact I; now injection Ea as <-. }
  assert (P1 : forall q, In q (filter (fun p => negb (str_eqb (as_rs (p_name p)) r_underscore)) ps0) -> R q) by (intros q Hq; apply filter_In in Hq as [Hq _]; auto).
  revert E2 P1. generalize (filter (fun p => negb (str_eqb (as_rs (p_name p)) r_underscore)) ps0). intros ps1 E2 P1.
  assert (P2 : forall q, In q ps2 -> R q).
  { unfold infer_self in E2. destruct t1 as [|cp mk|]; [|destruct mk; try destruct (first_is_self ps1); injection E2 as _ <-; exact P1|];
      (destruct ps1 as [|p r]; [injection E2 as _ <-; exact P1|]; destruct (first_is_self _); [|injection E2 as _ <-; exact P1];
       destruct (p_kind p) eqn:Ek; injection E2 as _ <-; try exact G; (intros q [<-|Hq]; [unfold R; cbn; try (rewrite Ek); exact I|apply P1; now right])). }
  assert (P3 : forall q, In q ps3 -> R q).
  { unfold drop_receiver in H3. destruct (fix_empty n t2 ps2) as [|cp mk|]; [|destruct mk|]; try (injection H3 as <-; exact P2); (destruct ps2; [discriminate|]; injection H3 as <-; intros q Hq; apply P2; now right). }
  intros q Hq. cbn [fn_params] in Hq. unfold guard_self in Hq. destruct (existsb _ ps3); [now apply G|now apply P3].
Qed.

(** ** Names without brackets *)
Definition unbracketed (p : path) : Prop := forall i, In i (segs p) -> ~ In 91%N i.
Lemma ident_unbracketed : forall U s, ~ In 91%N s -> ~ In 91%N (ident_from_py U s).
Proof. intros U s H K. unfold ident_from_py, py_to_rs in K. destruct (syn_ident_ok U s); [contradiction|]. apply in_app_or in K as [K|K]; [|contradiction]. destruct K as [K|[K|[]]]; discriminate. Qed.
Lemma In_join : forall (c : char) (sep : str) l s, In s l -> In c s -> In c (join sep l).
Proof.
  intros c sep l s. induction l as [|a l IH]; intros Hs Hc; [destruct Hs|]. destruct l as [|b l]; [destruct Hs as [<-|[]]; exact Hc|].
  rewrite join_cons' by easy. destruct Hs as [<-|Hs]; [apply in_or_app; now left|]. apply in_or_app. right. apply in_or_app. right. now apply IH.
Qed.
Lemma path_unbracketed : forall U s, ~ In 91%N s -> unbracketed (path_from_py U s).
Proof.
  intros U s H i Hi. destruct s as [|a s]; [destruct Hi|]. cbn [path_from_py segs] in Hi. apply in_app_or in Hi as [Hi|Hi].
  - apply repeat_spec in Hi as ->. intros K. repeat (destruct K as [K|K]; [discriminate|]). destruct K.
  - apply in_map_iff in Hi as (p & <- & Hp). apply filter_In in Hp as [Hp _]. apply ident_unbracketed. intros K. apply H. rewrite <- (join_split_char c_dot (a :: s)). exact (In_join _ _ _ _ Hp K).
Qed.
Lemma as_py_incl : forall i (c : char), In c (as_py i) -> In c i.
Proof. intros i c H. unfold as_py, rs_as_py in H. destruct (strip_prefix _ i) as [t|] eqn:E; [|exact H]. apply strip_prefix_Some in E as ->. apply in_or_app. now right. Qed.
Lemma py_unbracketed : forall p, unbracketed p -> ~ In 91%N (to_py p).
Proof.
  intros p H K. unfold to_py in K. apply in_join_of in K as [(s & Hs & K)|[K|[]]]; [|discriminate]. rewrite map_map in Hs. apply in_map_iff in Hs as (i & <- & Hi).
  destruct (str_eqb _ _) in K; [destruct K|]. apply as_py_incl in K. exact (H i Hi K).
Qed.
Lemma snoc_unbracketed : forall p i, unbracketed p -> ~ In 91%N i -> unbracketed (path_snoc p i).
Proof. intros p i Hp Hi j Hj. cbn in Hj. apply in_app_or in Hj as [Hj|[<-|[]]]; [now apply Hp|exact Hi]. Qed.
Definition unbracketed_item (it : item) : Prop := forall p, item_path it = Some p -> unbracketed p.
Lemma parsed_unbracketed : forall x fuel o m, no_brackets (pe_world x) -> honest (pe_uni x) (pe_world x) -> is_module (pe_world x) o -> mod_parse x fuel o = Ok m ->
  forall k it, within k m -> has k it -> unbracketed_item it.
Proof.
  intros x fuel o m [Hb1 Hb2] Hw Hmo Hm. apply (parsed_items x (fun n o E => proj1 (hn_import _ _ Hw n o E)) unbracketed_item) with (fuel := fuel) (o := o); [discriminate|..]; auto.
  - intros o' name a it Ho' Hn (s & Hs & Hr & _) Hit p E. apply read_attr_inv in Hr as [Ea _].
    assert (Ep : p = path_snoc name (at_name a)).
    { destruct it as [i|i|c|q|f|q]; cbn [reads item_path] in *; [discriminate|injection E as <-..].
      - destruct Hit as [_ H]. now apply read_import_target in H.
      - destruct Hit as [_ H]. now apply class_parse_typed in H as [-> _].
      - now destruct Hit.
      - destruct Hit as [[_ H]|[_ H]]; now apply fn_parse_typed in H as [-> _].
      - destruct Hit as [_ H]. now apply prop_parse_typed in H as (-> & _). }
    rewrite Ep. unfold module_path in Hn. apply chk_path in Hn. subst name. apply snoc_unbracketed; [now apply path_unbracketed, Hb1|]. rewrite Ea. now apply ident_unbracketed, (Hb2 o').
  - intros o' name c i it it' Ho' Hn Hi Et _ Hmv p E. apply moved_path in Hmv. rewrite Hmv in E. injection E as <-. now apply Hi.
Qed.
Lemma alias_unbracketed : forall dbg U im p key, alias_key dbg U im p = Ok key -> unbracketed p -> unbracketed (im_target im) -> unbracketed key.
Proof.
  intros dbg U im p key H Hp Ht. unfold alias_key in H.
  assert (T : forall tn, path_name (im_target im) = Ok tn -> ~ In 91%N tn). { intros tn E. apply ends_name in E as (q & E). apply Ht. rewrite E. apply in_or_app. right. now left. }
  destruct (strip_prefix _ (to_py p)) as [s|] eqn:E.
  - apply strip_prefix_Some in E. apply bind_Ok in H as (q & Hq & H). apply bind_Ok in H as (tn & Htn & H). apply chk_path in Hq. subst q.
    assert (Hs : ~ In 91%N s). { intros K. apply (py_unbracketed p Hp). rewrite E. apply in_or_app. now right. }
    pose proof (path_unbracketed U s Hs) as Q. unfold set_first in H. destruct (segs (path_from_py U s)) as [|a r] eqn:Er; [discriminate|]. injection H as <-.
    intros i [<-|Hi]; [now apply T|]. apply Q. rewrite Er. now right.
  - apply bind_Ok in H as (tn & Htn & H). injection H as <-. intros i [<-|[]]. now apply T.
Qed.
Lemma table_unbracketed : forall dbg U m ts lt, local_types dbg U m ts = Ok lt -> (forall p, In p ts -> unbracketed p) -> (forall i, In i (m_imports m) -> unbracketed (im_target i)) -> table_ok lt.
Proof.
  intros dbg U m ts lt H Ht Hi k v Hin. unfold local_types in H. apply bind_Ok in H as (own & Ho & H). apply bind_Ok in H as (al & Ha & H). injection H as H. subst lt.
  apply in_rev in Hin. apply in_app_or in Hin as [Hin|Hin].
  - destruct (mapM_In _ _ _ _ Ho Hin) as (p & Hp & E). apply bind_Ok in E as (r & Er & E). injection E as -> ->. now apply Ht.
  - apply in_concat in Hin as (e & He & Hin). destruct (mapM_In _ _ _ _ Ha He) as (im & Him & Em). unfold alias_entries in Em.
    destruct (mapM_In _ _ _ _ Em Hin) as (p & Hp & E). apply filter_In in Hp as [Hp _]. apply bind_Ok in E as (key & Hk & E). apply bind_Ok in E as (r & Er & E). injection E as -> ->.
    exact (alias_unbracketed _ _ _ _ _ Hk (Ht p Hp) (Hi im Him)).
Qed.

(** ** Classes *)
Definition well_typed (pl : place) (d : fn_def) : Prop :=
  NoDup (map fst (k_params (f_contract d))) -> (checks pl d = true <-> forall t, In t (sig_types (f_contract d)) -> sound t = true).
Lemma fn_place : forall g scope f impl, fn_generate g scope f = Ok impl -> (fn_typ f = FFunction \/ fn_typ f = FClosure \/ exists cp k, fn_typ f = FMethod cp k) ->
  match impl with IFunction l => forall d, In (GFn d) l -> fits_place (fn_typ f) InImpl /\ (~ (exists cp k, fn_typ f = FMethod cp k) -> fits_place (fn_typ f) AtModule) | IMethod _ l => forall d, In (GFn d) l -> fits_place (fn_typ f) InTrait end.
Proof.
  intros g scope f impl H Ht. unfold fn_generate in H. apply bind_Ok in H as (docs & Hd & H). apply bind_Ok in H as (nm & _ & H). destruct (fn_ident _ nm) as [id|]; [|injection H as <-; intros d []].
  apply bind_Ok in H as (ids & _ & H). apply bind_Ok in H as (preps & _ & H). apply bind_Ok in H as (tys & Hty & H). apply bind_Ok in H as (rt & Hr & H).
  apply bind_Ok in H as ([pb k] & Hk & H). apply bind_Ok in H as (od & _ & H). destruct od as [dd|]; [|injection H as <-; intros d []].
  apply bind_Ok in H as (pos & _ & H). apply bind_Ok in H as (kw & _ & H).
  destruct (is_bound (fn_typ f)) eqn:Eb; injection H as <-; intros d _; unfold fits_place, is_bound in *; (destruct (fn_typ f) as [|cp mk|]; [|destruct mk|]); try discriminate; try reflexivity; try (split; [discriminate|intros _; discriminate]);
    (split; [try reflexivity; discriminate|intros K; destruct K; eauto]).
Qed.
Lemma class_checks : forall x g c l, table_ok (cx_local (g_cx g)) -> class_generate g c = Ok l -> origin_item x (AClass c) -> forall y, In y l ->
  match y with GImpl _ b => forall d, In (GFn d) b -> well_typed InImpl d | GImplFor _ _ b => forall d, In (GFn d) b -> well_typed InTrait d | GFn _ => False | _ => True end.
Proof.
  intros x g c l Ht H (a & o & i & cd & Ho & Ha & Hp & Ed & Hs) y Hy.
  destruct (class_attrs_ok _ _ _ _ Hp) as [M1 M2].
  assert (Em : cl_methods c = cl_methods cd) by now rewrite Ed. assert (Epr : cl_props c = cl_props cd) by now rewrite Ed. rewrite <- Em in M1. rewrite <- Epr in M2.
  unfold class_generate in H. apply bind_Ok in H as (docs & Hdoc & H). apply bind_Ok in H as (nm & Hnm & H).
  destruct (struct_ident (g_uni g) nm) as [id|] eqn:Eid; [|injection H as <-; destruct Hy]. apply bind_Ok in H as (scope & _ & H).
  apply bind_Ok in H as (ms & Hms & H). apply bind_Ok in H as (ps & Hps & H). apply bind_Ok in H as (tid & _ & H).
  set (m := fold_left add_member (ms ++ ps) (mk_members [] [] [])) in *.
  assert (M : forall e, (In (GFn e) (mb_struct m) -> well_typed InImpl e) /\ (In (GFn e) (mb_impls m) -> well_typed InTrait e)).
  { intros e. pose proof (member_from (fun b z => forall e, z = GFn e -> if b : bool then well_typed InImpl e else well_typed InTrait e) (ms ++ ps) (mk_members [] [] []) (GFn e)) as K.
    assert (K1 : forall impl, In impl (ms ++ ps) -> In (GFn e) (frags_of impl) -> match impl with IFunction _ => well_typed InImpl e | IMethod _ _ => well_typed InTrait e end).
    { intros impl Hi Hin. apply in_app_or in Hi as [Hi|Hi].
      - destruct (mapM_In _ _ _ _ Hms Hi) as (f & Hf & Hg). destruct (M1 f Hf) as (j & b & A1 & A2 & A3).
        pose proof (fn_parse_kinds _ _ _ _ _ A3) as Kt. destruct (fn_parse_typed _ _ _ _ _ A3) as [_ Ty]. cbn in Ty.
        pose proof (fn_place _ _ _ _ Hg (or_intror (or_intror Ty))) as Pl. destruct impl as [li|ti li]; cbn [frags_of] in Hin; intros Hnd.
        + destruct (Pl e Hin) as [Pl' _]. exact (fn_checks _ _ _ _ e InImpl Ht Kt Hg Hin Hnd Pl').
        + exact (fn_checks _ _ _ _ e InTrait Ht Kt Hg Hin Hnd (Pl e Hin)).
      - destruct (mapM_In _ _ _ _ Hps Hi) as (p & Hpp & Hg). destruct (M2 p Hpp) as (j & b & A1 & A2 & A3 & _).
        assert (Ei : exists t l', impl = IMethod t l') by (unfold prop_generate in Hg; apply bind_Ok in Hg as ([gt gi] & _ & Hg); apply bind_Ok in Hg as ([st si] & _ & Hg); rewrite A3 in Hg; injection Hg as <-; eauto).
        destruct Ei as (t & l' & ->). intros _. apply (accessor_checks _ _ _ _ e InTrait Ht Hg Hin). now rewrite A3. }
    split; intros He.
    - apply (proj1 (K (or_introl He) ltac:(easy) ltac:(easy) ltac:(intros l' Hl' Hz e' E; injection E as <-; exact (K1 (IFunction l') Hl' Hz)) ltac:(intros t l' Hl' Hz e' E; injection E as <-; exact (K1 (IMethod t l') Hl' Hz)))); auto.
    - apply (proj2 (K (or_intror He) ltac:(easy) ltac:(easy) ltac:(intros l' Hl' Hz e' E; injection E as <-; exact (K1 (IFunction l') Hl' Hz)) ltac:(intros t l' Hl' Hz e' E; injection E as <-; exact (K1 (IMethod t l') Hl' Hz)))); auto. }
  injection H as <-. apply in_app_or in Hy as [Hy|Hy]; [destruct (doc_only _ _ _ Hdoc _ Hy) as [t ->]; exact I|].
  cbn [app In trait_docs] in Hy. repeat (destruct Hy as [<-|Hy]; [first [exact I|exact (fun e => proj1 (M e))|exact (fun e => proj2 (M e))]|]). destruct Hy.
Qed.

(** ** The output *)
Section output.
  Variable x : penv.
  Let U := pe_uni x.
  Hypothesis Ho : order_ok (pe_ord x).
  Hypothesis Hw : honest U (pe_world x).
  Hypothesis Hb : no_brackets (pe_world x).
  Variables (numpy : bool) (fuel : nat) (l : list request) (c : codegen) (ms : list module) (out : list frag).
  Hypothesis Hl : asked_modules (pe_world x) l.
  Hypothesis Hc : asks x fuel l cg_new = Ok c.
  Hypothesis Hf : final_modules x fuel c = Ok ms.
  Hypothesis Hout : cg_generate x numpy fuel c = Ok out.
  Let X := gen_ctx x numpy ms.

  Lemma final_unbracketed : forall m k it, In m ms -> within k m -> has k it -> unbracketed_item it.
  Proof. apply (final_module_items x Ho (honest_named _ _ Hw) fuel l c ms Hl Hc Hf). intros o m k it Hmo Hm. exact (parsed_unbracketed x fuel o m Hb Hw Hmo Hm k it). Qed.
  Lemma scope_table : forall m m0 P, In m0 ms -> within m m0 -> parts_of X m P -> table_ok (cx_local (g_cx (pt_ctx X P))).
  Proof.
    intros m m0 P Hm0 Hm HP. apply (table_unbracketed _ _ _ _ _ (po_lt _ _ _ HP)).
    - intros p Hp. apply all_types_In in Hp as (m1 & k1 & Hm1 & Hk1 & [Hp|Hp]).
      + apply in_map_iff in Hp as (cl & <- & Hcl). now apply (final_unbracketed m1 k1 (AClass cl) Hm1 Hk1 Hcl).
      + now apply (final_unbracketed m1 k1 (ATypeVar p) Hm1 Hk1 Hp).
    - intros i Hi. now apply (final_unbracketed m0 m (AnImport i) Hm0 Hm Hi).
  Qed.
  Lemma output_checks : forall ns k pl d, at_path out ns k -> stands_at k pl d -> well_typed pl d.
  Proof.
    intros ns k pl d A Hs.
    destruct (scope_module x Ho Hw numpy fuel l c ms out Hl Hc Hf Hout ns k A) as [[-> K]|[(ex & ->)|(m & m0 & P & Hm0 & Hm & En & HP & ->)]].
    - exfalso. destruct pl; cbn in Hs; [|destruct Hs as (n & b & Hs & _)|destruct Hs as (t & n & b & Hs & _)]; destruct (K _ Hs) as [E|(n' & b' & E)]; discriminate.
    - exfalso. destruct pl; cbn in Hs; [|destruct Hs as (n & b & Hs & _)|destruct Hs as (t & n & b & Hs & _)]; repeat (destruct Hs as [Hs|Hs]; [discriminate|]); destruct Hs.
    - pose proof (scope_table m m0 P Hm0 Hm HP) as Ht. destruct (final_typed x fuel l c ms Ho Hc Hf m0 m Hm0 Hm) as (T1 & T2 & T3). pose proof (fun y => body_frag X m P y HP T3) as B.
      assert (Or : forall it, has m it -> origin_item x it) by (intros it; exact (final_origin x fuel l c ms Ho Hw Hl Hc Hf m0 m it Hm0 Hm)).
      assert (Cl : forall y, In y (pt_classes P) -> match y with GImpl _ b => forall d, In (GFn d) b -> well_typed InImpl d | GImplFor _ _ b => forall d, In (GFn d) b -> well_typed InTrait d | GFn _ => False | _ => True end).
      { intros y Hy. destruct (when_from _ _ _ _ _ (po_classes _ _ _ HP) Hy) as (_ & cl & lc & Hcl & Hlc & Hin). exact (class_checks x _ cl lc Ht Hlc (Or (AClass cl) Hcl) y Hin). }
      destruct pl; cbn [stands_at] in Hs.
      + destruct (B _ Hs) as [K|[(?&?&?&E&_)|[(v'&E&K)|[(?&?&E&K)|[(?&E&K)|[K|[(d'&E&_&K)|[(d'&E&_&K)|(?&?&E&K)]]]]]]]]; try discriminate; [now destruct (Cl _ K)|..]; injection E as <-.
        * destruct (when_from _ _ _ _ _ (po_fns _ _ _ HP) K) as (_ & f & lf & Hff & Hlf & Hin). unfold fn_frags in Hlf. apply bind_Ok in Hlf as (i & Hi & Hlf).
          destruct i as [l'|t l']; [|discriminate]. injection Hlf as ->. destruct (Or (AFunction f) Hff) as (a & t & _ & Hp & _). intros Hnd.
          apply (fn_checks _ _ f _ d AtModule Ht (fn_parse_kinds _ _ _ _ _ Hp) Hi Hin Hnd). destruct (T3 f Hff) as [-> | ->]; discriminate.
        * destruct (when_from _ _ _ _ _ (po_props _ _ _ HP) K) as (_ & p & lf & Hff & Hlf & Hin). unfold prop_frags in Hlf. apply bind_Ok in Hlf as (i & Hi & Hlf).
          destruct i as [l'|t l']; [|discriminate]. injection Hlf as ->. intros _. apply (accessor_checks _ _ p _ d AtModule Ht Hi Hin). destruct (T2 p Hff) as [-> _]. discriminate.
      + destruct Hs as (n & b & Hs & Hd). destruct (B _ Hs) as [K|[(?&?&?&E&_)|[(v'&E&K)|[(?&?&E&K)|[(?&E&K)|[K|[(d'&E&_&K)|[(d'&E&_&K)|(?&?&E&K)]]]]]]]]; try discriminate. exact (Cl _ K d Hd).
      + destruct Hs as (t & n & b & Hs & Hd). destruct (B _ Hs) as [K|[(?&?&?&E&_)|[(v'&E&K)|[(?&?&E&K)|[(?&E&K)|[K|[(d'&E&_&K)|[(d'&E&_&K)|(?&?&E&K)]]]]]]]]; try discriminate. exact (Cl _ K d Hd).
  Qed.

  (** *** The names that the bodies use *)
  Hypothesis HU : uni_ok U.
  Lemma given_function : forall s, In s given_names -> forall pre t, In pre (map u ["f_"; "get_"; "set_"]%string) -> ident_from_py U (pre ++ t) = s -> False.
  Proof.
    intros s Hs pre t Hp E. unfold ident_from_py, py_to_rs in E. destruct Hp as [<-|[<-|[<-|[]]]]; destruct (syn_ident_ok U _) in E; (destruct Hs as [<-|[<-|[<-|[<-|[<-|[<-|[<-|[<-|[]]]]]]]]]; discriminate).
  Qed.
  Lemma prefixed_is : forall scope pre n id, prefixed_ident U scope pre n = Ok (Some id) -> id = ident_from_py U (u pre ++ as_py n).
  Proof. exact (prefixed_shape U). Qed.
  Lemma hidden_value_in : forall ns m m0 P s, at_path out ns (pt_body m P) -> In m0 ms -> within m m0 -> ns = segs (m_name m) -> parts_of X m P -> In s given_names -> hides_value (pt_body m P) s -> in_use m s.
  Proof.
    intros ns m m0 P s A Hm0 Hm En HP Hs [(d & Hd & Ek)|[H|(v & H & Hv)]].
    2,3: apply (hidden_in x HU Ho Hw numpy fuel l c ms out Hl Hc Hf Hout ns m m0 P s A Hm0 Hm En HP Hs); first [now left|do 4 right; now exists v].
    destruct (final_typed x fuel l c ms Ho Hc Hf m0 m Hm0 Hm) as (T1 & T2 & T3).
    destruct (body_frag X m P _ HP T3 Hd) as [K|[(?&?&?&E&_)|[(v'&E&K)|[(?&?&E&K)|[(?&E&K)|[K|[(d'&E&_&K)|[(d'&E&_&K)|(?&?&E&K)]]]]]]]]; try discriminate; try injection E as <-.
    - exfalso. destruct (when_from _ _ _ _ _ (po_classes _ _ _ HP) K) as (_ & cl & lc & _ & Hlc & Hin). pose proof (class_shape_frag _ _ _ _ Hlc Hin). discriminate.
    - destruct (when_from _ _ _ _ _ (po_fns _ _ _ HP) K) as (_ & f & lf & Hff & Hlf & Hin). destruct (fn_shape _ _ _ _ Hlf (T3 f Hff)) as (n & Hn & [[_ ->]|(docs & d' & a & Hdoc & Hid & _ & ->)]); [destruct Hin|].
      apply in_app_or in Hin as [Hin|[Hin|[Hin|[]]]]; [now destruct (frags_docs _ _ _ _ Hdoc Hin)|discriminate|]. injection Hin as ->. rewrite Ek in Hid.
      left. right. exists (AFunction f), (fn_name f). split; [exact Hff|]. split; [reflexivity|]. split; [|discriminate]. apply ends_name. rewrite Hn. f_equal. unfold fn_ident in Hid.
      destruct (syn_ident_ok _ _) in Hid; [destruct (mem_str _ _) in Hid; [discriminate|now injection Hid as ->]|]. cbv zeta in Hid. destruct (syn_ident_ok _ _) in Hid; [|discriminate]. injection Hid as Hid. exfalso.
      refine (given_function s Hs (u "f_") _ _ Hid). cbn; auto.
    - destruct (when_from _ _ _ _ _ (po_props _ _ _ HP) K) as (_ & p & lf & Hff & Hlf & Hin). unfold prop_frags in Hlf. apply bind_Ok in Hlf as (i & Hi & Hlf).
      assert (Hin' : In (GFn d) (frags_of i)) by (destruct i; [injection Hlf as ->; exact Hin|discriminate]).
      unfold prop_generate in Hi. apply bind_Ok in Hi as ([gt gi] & Hg & Hi). apply bind_Ok in Hi as ([st si] & Hst & Hi).
      assert (Kd : In (GFn d) gi \/ pr_mutable p = true /\ In (GFn d) si).
      { destruct (T2 p Hff) as [Eo _]. rewrite Eo in Hi. injection Hi as <-. cbn [frags_of] in Hin'. destruct Hin' as [Hin'|Hin']; [discriminate|]. apply in_app_or in Hin' as [Hin'|Hin']; [now left|].
        destruct (pr_mutable p); [|destruct Hin']. destruct Hin' as [Hin'|Hin']; [discriminate|]. now right. }
      destruct Kd as [Kd|[Em Kd]].
      + destruct (getter_shape _ _ _ _ _ Hg) as (n & id & Hn & Hid & Sh). destruct id as [id|]; [|destruct Sh as [_ ->]; destruct Kd]. destruct Sh as (docs & d' & ty & Hdoc & En' & _ & _ & _ & _ & _ & _ & _ & ->).
        apply in_app_or in Kd as [Kd|[Kd|[]]]; [now destruct (frags_docs _ _ _ _ Hdoc Kd)|]. injection Kd as ->. rewrite Ek in En'. subst id.
        left. right. exists (AProperty p), (pr_name p). split; [exact Hff|]. split; [reflexivity|]. split; [|discriminate]. apply ends_name. rewrite Hn. f_equal. unfold getter_ident in Hid.
        destruct (syn_ident_ok _ _ && _); [now injection Hid as ->|]. exfalso. apply prefixed_is in Hid. symmetry in Hid. refine (given_function s Hs (u "get_") _ _ Hid). cbn; auto.
      + exfalso. rewrite Em in Hst. destruct (setter_shape _ _ _ _ _ Hst) as (n & id & Hn & Hid & Sh). destruct id as [id|]; [|destruct Sh as [_ ->]; destruct Kd]. destruct Sh as (docs & d' & ty & Hdoc & En' & _ & _ & _ & _ & _ & _ & _ & ->).
        apply in_app_or in Kd as [Kd|[Kd|[]]]; [now destruct (frags_docs _ _ _ _ Hdoc Kd)|]. injection Kd as ->. rewrite Ek in En'. subst id.
        apply prefixed_is in Hid. symmetry in Hid. refine (given_function s Hs (u "set_") _ _ Hid). cbn; auto.
  Qed.
  Lemma output_names : forall ns k pl d, at_path out ns k -> stands_at k pl d -> forall s, (s = u "Some" /\ hides_value k s) \/ (s = u "Vec" /\ hides k s) ->
    exists m m0, In m0 ms /\ within m m0 /\ ns = segs (m_name m) /\ in_use m s.
  Proof.
    intros ns k pl d A Hs s Hh.
    destruct (scope_module x Ho Hw numpy fuel l c ms out Hl Hc Hf Hout ns k A) as [[-> K]|[(ex & ->)|(m & m0 & P & Hm0 & Hm & En & HP & ->)]].
    - exfalso. destruct pl; cbn in Hs; [|destruct Hs as (n & b & Hs & _)|destruct Hs as (t & n & b & Hs & _)]; destruct (K _ Hs) as [E|(n' & b' & E)]; discriminate.
    - exfalso. destruct pl; cbn in Hs; [|destruct Hs as (n & b & Hs & _)|destruct Hs as (t & n & b & Hs & _)]; repeat (destruct Hs as [Hs|Hs]; [discriminate|]); destruct Hs.
    - exists m, m0. repeat (split; [assumption|]). destruct Hh as [[-> Hh]|[-> Hh]].
      + apply (hidden_value_in ns m m0 P _ A Hm0 Hm En HP); [right; now left|exact Hh].
      + apply (hidden_in x HU Ho Hw numpy fuel l c ms out Hl Hc Hf Hout ns m m0 P _ A Hm0 Hm En HP); [right; vm_compute; tauto|exact Hh].
  Qed.
End output.
