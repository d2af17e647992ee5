From Verif Require Import Base Model_Ident Model_Path Model_Config Model_Type Model_IntoRs Model_World Model_Out Model_Function
  Spec_Path Spec_Call Proof_Base Proof_Ident Proof_Path Proof_IntoRs.

(** ** Parameter identifiers *)
Definition pid (p : param) : ident := u "p_" ++ as_py (p_name p).

Lemma p_no_raw : forall s, strip_prefix r_hash (u "p_" ++ s) = None.
Proof. reflexivity. Qed.
Lemma p_no_keyword : forall s, mem_str (u "p_" ++ s) syn_keywords = false.
Proof. reflexivity. Qed.
Lemma p_ok : forall U s, syn_ident_ok U (u "p_" ++ s) = lex_ident_plain U (u "p_" ++ s).
Proof. intros U s. unfold syn_ident_ok. rewrite p_no_raw, p_no_keyword. apply andb_true_r. Qed.

Lemma param_ident_Ok : forall U p i, param_ident U p = Ok i -> i = pid p /\ syn_ident_ok U i = true.
Proof.
  intros U p i H. unfold param_ident, ident_to_syn, ident_from_py, py_to_rs, as_rs in H. fold (pid p) in H.
  destruct (syn_ident_ok U (pid p)) eqn:E.
  - rewrite E in H. injection H as <-. now split.
  - destruct (syn_ident_ok U (r_hash ++ pid p)) eqn:E'; [|easy]. exfalso.
    unfold pid in E, E'. rewrite p_ok in E. unfold syn_ident_ok in E'.
    change (strip_prefix r_hash (r_hash ++ u "p_" ++ as_py (p_name p))) with (Some (u "p_" ++ as_py (p_name p))) in E'.
    cbn beta iota in E'. rewrite E in E'. easy.
Qed.
Lemma param_ident_iff : forall U p, syn_ident_ok U (pid p) = true -> param_ident U p = Ok (pid p).
Proof.
  intros U p H. unfold param_ident, ident_to_syn, ident_from_py, py_to_rs, as_rs. fold (pid p). rewrite H. now rewrite H.
Qed.
Lemma param_idents_Ok : forall U ps l, mapM (param_ident U) ps = Ok l -> l = map pid ps /\ forall p, In p ps -> syn_ident_ok U (pid p) = true.
Proof.
  induction ps as [|p ps IH]; intros l H; [injection H as <-; now split|]. cbn [mapM] in H.
  apply bind_Ok in H as (i & Hi & H). apply bind_Ok in H as (r & Hr & H). injection H as <-.
  apply param_ident_Ok in Hi as [-> Hi]. apply IH in Hr as [-> Hr]. split; [easy|]. intros q [<-|Hq]; auto.
Qed.
Lemma param_idents_mapM : forall U ps, (forall p, In p ps -> syn_ident_ok U (pid p) = true) -> mapM (param_ident U) ps = Ok (map pid ps).
Proof.
  induction ps as [|p ps IH]; intros H; [easy|]. cbn [mapM]. rewrite param_ident_iff by (apply H; now left). cbn [obind].
  rewrite IH by (intros; apply H; now right). easy.
Qed.

Lemma of_kinds_cons : forall ks p ps, of_kinds ks (p :: ps) = if existsb (pkind_eqb (p_kind p)) ks then p :: of_kinds ks ps else of_kinds ks ps.
Proof. easy. Qed.

(** ** Evaluation *)
Section eval.
  Context {V : Type}.
  Definition to_rval (b : bound V) : rval V :=
    match b with BOne v => VOne v | BTuple l => VTuple l | BDict d => VDict d | BDefault => VTuple [] end.

  Notation elt := (pyparam * param * bound V)%type.
  Definition e_py (x : elt) : pyparam := fst (fst x).
  Definition e_par (x : elt) : param := snd (fst x).
  Definition e_val (x : elt) : bound V := snd x.

  Definition fits (b : bound V) (k : pkind) : Prop :=
    match k, b with
    | (PositionalOnly | PositionalOrKeyword | KeywordOnly), BOne _ => True
    | VarPositional, BTuple _ => True
    | VarKeyword, BDict d => NoDup (map fst d)
    | _, _ => False
    end.
  Definition elt_ok (x : elt) : Prop :=
    pp_kind (e_py x) = p_kind (e_par x) /\
    (p_kind (e_par x) = KeywordOnly -> as_py (p_name (e_par x)) = pp_name (e_py x)) /\
    fits (e_val x) (p_kind (e_par x)).

  Fixpoint posvals (L : list elt) : list V :=
    match L with
    | [] => []
    | x :: r => match p_kind (e_par x), e_val x with
                | (PositionalOnly | PositionalOrKeyword), BOne v => v :: posvals r
                | _, _ => posvals r end
    end.
  Fixpoint kwvals (L : list elt) : list (str * V) :=
    match L with
    | [] => []
    | x :: r => match p_kind (e_par x), e_val x with
                | KeywordOnly, BOne v => (pp_name (e_py x), v) :: kwvals r
                | _, _ => kwvals r end
    end.
  Fixpoint tupvals (L : list elt) : list V :=
    match L with
    | [] => []
    | x :: r => match e_val x with BTuple l => l | _ => tupvals r end
    end.
  Fixpoint dictvals (L : list elt) : list (str * V) :=
    match L with
    | [] => []
    | x :: r => match e_val x with BDict d => d | _ => dictvals r end
    end.
  Definition rho_of (L : list elt) : renv V := map (fun x => (pid (e_par x), to_rval (e_val x))) L.

  Lemma var_rho : forall L x, NoDup (map (fun x => pid (e_par x)) L) -> In x L ->
    var (rho_of L) (pid (e_par x)) = Some (to_rval (e_val x)).
  Proof.
    induction L as [|y L IH]; intros x Hn Hx; [easy|]. cbn [map] in Hn. inversion Hn as [|? ? Hn1 Hn2]; subst. cbn [rho_of map var].
    destruct (str_eqb (pid (e_par y)) (pid (e_par x))) eqn:E.
    - destruct Hx as [->|Hx]; [easy|]. exfalso. apply Hn1. apply str_eqb_eq in E. rewrite E.
      apply (in_map (fun z => pid (e_par z)) L x Hx).
    - destruct Hx as [->|Hx]; [now rewrite str_eqb_refl in E|].
      now apply IH.
  Qed.

  Lemma ones_pos : forall L M, NoDup (map (fun x => pid (e_par x)) L) -> incl M L -> (forall x, In x M -> elt_ok x) ->
    ones (rho_of L) (map pid (of_kinds [PositionalOnly; PositionalOrKeyword] (map e_par M))) = Some (posvals M).
  Proof.
    intros L M Hn. induction M as [|x M IH]; intros Hi Hok; [easy|].
    assert (IH' := IH (fun y Hy => Hi y (or_intror Hy)) (fun y Hy => Hok y (or_intror Hy))). clear IH.
    destruct (Hok x (or_introl eq_refl)) as (_ & _ & Hf).
    assert (Hv : var (rho_of L) (pid (e_par x)) = Some (to_rval (e_val x))) by (apply var_rho; [easy|apply Hi; now left]).
    cbn [map posvals]. rewrite of_kinds_cons. destruct (p_kind (e_par x)) eqn:Ek; cbn [existsb pkind_eqb orb]; try exact IH';
      (destruct (e_val x); try easy; cbn [map ones]; unfold one; rewrite Hv; cbn [to_rval]; now rewrite IH').
  Qed.

  Lemma find_kind : forall k (L : list elt), (forall x, In x L -> elt_ok x) ->
    match find (fun p => pkind_eqb (p_kind p) k) (map e_par L) with
    | Some p => exists x, In x L /\ e_par x = p /\ p_kind p = k /\
                (k = VarPositional -> e_val x = BTuple (tupvals L)) /\ (k = VarKeyword -> e_val x = BDict (dictvals L))
    | None => (k = VarPositional -> tupvals L = []) /\ (k = VarKeyword -> dictvals L = [])
    end.
  Proof.
    intros k L. induction L as [|x L IH]; intros Hok; [easy|].
    assert (IH' := IH (fun y Hy => Hok y (or_intror Hy))). clear IH. destruct (Hok x (or_introl eq_refl)) as (_ & _ & Hf).
    cbn [map find]. destruct (pkind_eqb (p_kind (e_par x)) k) eqn:E.
    - assert (Ek : p_kind (e_par x) = k) by (destruct (p_kind (e_par x)), k; easy).
      exists x. split; [now left|]. split; [easy|]. split; [easy|]. rewrite Ek in Hf. split; intros ->; cbn [tupvals dictvals]; destruct (e_val x); easy.
    - destruct (find _ (map e_par L)) as [p|].
      + destruct IH' as (y & Hy & Hp & Hk & H1 & H2). exists y. split; [now right|]. split; [easy|]. split; [easy|].
        split; intros ->; [rewrite H1 by easy|rewrite H2 by easy]; cbn [tupvals dictvals]; destruct (e_val x); try easy;
          destruct (p_kind (e_par x)); easy.
      + destruct IH' as [H1 H2]. split; intros ->; cbn [tupvals dictvals]; [rewrite H1 by easy|rewrite H2 by easy];
          destruct (e_val x); try easy; destruct (p_kind (e_par x)); easy.
  Qed.

  Lemma eval_gen_pos : forall U (L : list elt) h pa, NoDup (map (fun x => pid (e_par x)) L) -> (forall x, In x L -> elt_ok x) ->
    (forall x, In x L -> syn_ident_ok U (pid (e_par x)) = true) ->
    gen_pos U (map e_par L) = Ok (h, pa) ->
    eval_pos (rho_of L) pa = Some (posvals L ++ tupvals L) /\ (h = false -> posvals L ++ tupvals L = []).
  Proof.
    intros U L h pa Hn Hok Hs H. unfold gen_pos in H.
    apply bind_Ok in H as (fixed & Hfix & H). apply param_idents_Ok in Hfix as [-> _].
    assert (Ho := ones_pos L L Hn (incl_refl _) Hok).
    assert (Hfk := find_kind VarPositional L Hok).
    destruct (find _ (map e_par L)) as [p|] eqn:Ef.
    - destruct Hfk as (x & Hx & Hp & Hk & Ht & _). specialize (Ht eq_refl). subst p.
      unfold param_ident_opt in H. rewrite param_ident_iff in H by now apply Hs.
      assert (Hv : tup (rho_of L) (pid (e_par x)) = Some (tupvals L)) by (unfold tup; rewrite var_rho by easy; now rewrite Ht).
      destruct (map pid (of_kinds _ _)) as [|a r]; injection H as <- <-; (split; [|easy]); cbn [eval_pos].
      + cbn [ones] in Ho. injection Ho as <-. exact Hv.
      + rewrite Ho, Hv. easy.
    - destruct Hfk as [Ht _]. rewrite Ht by easy. rewrite app_nil_r.
      destruct (map pid (of_kinds _ _)) as [|a r]; injection H as <- <-; cbn [eval_pos].
      + cbn [ones] in Ho. injection Ho as <-. now split.
      + now split.
  Qed.

  Lemma set_item_fresh : forall (d : list (str * V)) k v, ~ In k (map fst d) -> set_item d k v = d ++ [(k, v)].
  Proof.
    induction d as [|[k' v'] d IH]; intros k v H; [easy|]. cbn [set_item]. destruct (str_eqb k' k) eqn:E.
    - apply str_eqb_eq in E. subst. exfalso. apply H. now left.
    - rewrite IH; [easy|]. intros Hi. apply H. now right.
  Qed.
  Lemma set_items_kw : forall L M d, NoDup (map (fun x => pid (e_par x)) L) -> incl M L -> (forall x, In x M -> elt_ok x) ->
    NoDup (map fst (kwvals M)) -> (forall k, In k (map fst (kwvals M)) -> ~ In k (map fst d)) ->
    set_items (rho_of L) d (combine (map (fun p => as_py (p_name p)) (of_kinds [KeywordOnly] (map e_par M)))
                                    (map pid (of_kinds [KeywordOnly] (map e_par M)))) = Some (d ++ kwvals M).
  Proof.
    intros L M d Hn. revert d. induction M as [|x M IH]; intros d Hi Hok Hnk Hd; [cbn; now rewrite app_nil_r|].
    assert (IH' := fun d => IH d (fun y Hy => Hi y (or_intror Hy)) (fun y Hy => Hok y (or_intror Hy))). clear IH.
    destruct (Hok x (or_introl eq_refl)) as (_ & Hnm & Hf).
    assert (Hv : var (rho_of L) (pid (e_par x)) = Some (to_rval (e_val x))) by (apply var_rho; [easy|apply Hi; now left]).
    cbn [map kwvals] in *. rewrite !of_kinds_cons. destruct (p_kind (e_par x)) eqn:Ek; cbn [existsb pkind_eqb orb];
      try (apply IH'; [exact Hnk|exact Hd]).
    destruct (e_val x) as [v| | |]; try easy. cbn [map combine set_items]. unfold one. rewrite Hv. cbn [to_rval].
    cbn [map fst] in Hnk, Hd. inversion Hnk as [|? ? H1 H2]; subst. rewrite (Hnm eq_refl).
    rewrite set_item_fresh by (apply Hd; now left). rewrite IH'; [now rewrite <- app_assoc|easy|].
    intros k Hk. rewrite map_app. intros Hi'. apply in_app_or in Hi' as [Hi'|[<-|[]]]; [now apply (Hd k (or_intror Hk))|easy].
  Qed.

  Lemma pairs_nil : forall (M : list elt), (forall x, In x M -> elt_ok x) -> forall l : list ident,
    combine (map (fun p => as_py (p_name p)) (of_kinds [KeywordOnly] (map e_par M)))
            (map pid (of_kinds [KeywordOnly] (map e_par M))) = [] -> kwvals M = [].
  Proof.
    intros M Hok _ H. induction M as [|x M IH]; [easy|]. destruct (Hok x (or_introl eq_refl)) as (_ & _ & Hf).
    cbn [map kwvals] in *. rewrite !of_kinds_cons in H. destruct (p_kind (e_par x)); cbn [existsb pkind_eqb orb] in H;
      try (apply IH; [intros; apply Hok; now right|exact H]). easy.
  Qed.

  Lemma eval_gen_kw : forall U (L : list elt) h ka, NoDup (map (fun x => pid (e_par x)) L) -> (forall x, In x L -> elt_ok x) ->
    (forall x, In x L -> syn_ident_ok U (pid (e_par x)) = true) ->
    NoDup (map fst (kwvals L)) -> (forall k, In k (map fst (kwvals L)) -> ~ In k (map fst (dictvals L))) ->
    gen_kw U (map e_par L) = Ok (h, ka) ->
    eval_kw (rho_of L) ka = Some (dictvals L ++ kwvals L) /\ (h = false -> dictvals L ++ kwvals L = []).
  Proof.
    intros U L h ka Hn Hok Hs Hnk Hd H. unfold gen_kw in H.
    apply bind_Ok in H as (ids & Hids & H). apply param_idents_Ok in Hids as [-> _].
    assert (Hset := fun d => set_items_kw L L d Hn (incl_refl _) Hok Hnk).
    assert (Hfk := find_kind VarKeyword L Hok).
    assert (Hnil := pairs_nil L Hok []).
    destruct (find _ (map e_par L)) as [p|] eqn:Ef.
    - destruct Hfk as (x & Hx & Hp & Hk & _ & Ht). specialize (Ht eq_refl). subst p.
      unfold param_ident_opt in H. rewrite param_ident_iff in H by now apply Hs.
      assert (Hv : dic (rho_of L) (pid (e_par x)) = Some (dictvals L)) by (unfold dic; rewrite var_rho by easy; now rewrite Ht).
      destruct (combine _ _) as [|a r] eqn:Ec; injection H as <- <-; (split; [|easy]); cbn [eval_kw].
      + rewrite Hnil by easy. now rewrite app_nil_r.
      + rewrite Hv. now apply Hset.
    - destruct Hfk as [_ Ht]. rewrite Ht in * by easy. cbn [app].
      destruct (combine _ _) as [|a r] eqn:Ec; injection H as <- <-; cbn [eval_kw].
      + rewrite Hnil by easy. now split.
      + split; [|easy]. apply Hset. intros k _ [].
  Qed.

  Lemma eval_gen_args : forall U (L : list elt) pos kw, NoDup (map (fun x => pid (e_par x)) L) -> (forall x, In x L -> elt_ok x) ->
    (forall x, In x L -> syn_ident_ok U (pid (e_par x)) = true) ->
    NoDup (map fst (kwvals L)) -> (forall k, In k (map fst (kwvals L)) -> ~ In k (map fst (dictvals L))) ->
    gen_pos U (map e_par L) = Ok pos -> gen_kw U (map e_par L) = Ok kw ->
    eval_args (rho_of L) (gen_args pos kw) = Some (posvals L ++ tupvals L, dictvals L ++ kwvals L).
  Proof.
    intros U L [hp pa] [hk ka] Hn Hok Hs Hnk Hd Hp Hk.
    destruct (eval_gen_pos U L hp pa Hn Hok Hs Hp) as [Ep Ep0]. destruct (eval_gen_kw U L hk ka Hn Hok Hs Hnk Hd Hk) as [Ek Ek0].
    unfold gen_args. cbn [fst snd]. destruct hk; cbn [eval_args].
    - now rewrite Ep, Ek.
    - rewrite (Ek0 eq_refl). destruct hp; cbn [eval_args]; [now rewrite Ep|]. now rewrite (Ep0 eq_refl).
  Qed.

  (** ** Binding *)
  Lemma kw_get_app : forall n (a b : list (str * V)), kw_get n (a ++ b) = match kw_get n a with Some v => Some v | None => kw_get n b end.
  Proof. induction a as [|[k v] a IH]; intros b; [easy|]. cbn. now destruct (str_eqb k n). Qed.
  Lemma kw_get_none : forall n (a : list (str * V)), ~ In n (map fst a) -> kw_get n a = None.
  Proof.
    induction a as [|[k v] a IH]; intros H; [easy|]. cbn. destruct (str_eqb k n) eqn:E.
    - apply str_eqb_eq in E. exfalso. apply H. now left.
    - apply IH. intros Hi. apply H. now right.
  Qed.
  Lemma kw_get_in : forall n v (a : list (str * V)), NoDup (map fst a) -> In (n, v) a -> kw_get n a = Some v.
  Proof.
    induction a as [|[k w] a IH]; intros Hn H; [easy|]. cbn [map fst] in Hn. inversion Hn as [|? ? H1 H2]; subst. cbn.
    destruct (str_eqb k n) eqn:E.
    - apply str_eqb_eq in E. subst. destruct H as [H|H]; [congruence|]. exfalso. apply H1. now apply (in_map fst) in H.
    - destruct H as [H|H]; [injection H as -> ->|now apply IH]. now rewrite str_eqb_refl in E.
  Qed.

  Lemma kwvals_names : forall (L : list elt) n, (forall x, In x L -> elt_ok x) -> In n (map fst (kwvals L)) ->
    exists x, In x L /\ pp_name (e_py x) = n /\ p_kind (e_par x) = KeywordOnly.
  Proof.
    induction L as [|x L IH]; intros n Hok H; [easy|]. cbn [kwvals] in H.
    assert (IH' := IH n (fun y Hy => Hok y (or_intror Hy))). clear IH.
    destruct (p_kind (e_par x)) eqn:Ek; try (apply IH' in H as (y & ? & ?); exists y; split; [now right|easy]).
    destruct (e_val x); try (apply IH' in H as (y & ? & ?); exists y; split; [now right|easy]).
    destruct H as [<-|H]; [exists x; split; [now left|easy]|]. apply IH' in H as (y & ? & ?); exists y; split; [now right|easy].
  Qed.
  Lemma kwvals_nodup : forall (L : list elt), (forall x, In x L -> elt_ok x) -> NoDup (map (fun x => pp_name (e_py x)) L) ->
    NoDup (map fst (kwvals L)).
  Proof.
    induction L as [|x L IH]; intros Hok Hn; [constructor|]. cbn [map] in Hn. inversion Hn as [|? ? H1 H2]; subst.
    assert (IH' := IH (fun y Hy => Hok y (or_intror Hy)) H2). clear IH. cbn [kwvals].
    destruct (p_kind (e_par x)); try exact IH'. destruct (e_val x); try exact IH'.
    cbn [map fst]. constructor; [|easy]. intros Hi. apply H1.
    apply kwvals_names in Hi as (y & Hy & <- & _); [|intros; apply Hok; now right]. now apply (in_map (fun x => pp_name (e_py x))).
  Qed.
  Lemma kwvals_In : forall (L : list elt) x v, In x L -> p_kind (e_par x) = KeywordOnly -> e_val x = BOne v ->
    In (pp_name (e_py x), v) (kwvals L).
  Proof.
    induction L as [|y L IH]; intros x v Hin Hk Hv; [easy|]. cbn [kwvals]. destruct Hin as [->|H].
    - rewrite Hk, Hv. now left.
    - assert (IH' := IH x v H Hk Hv). destruct (p_kind (e_par y)); try exact IH'. destruct (e_val y); try exact IH'. now right.
  Qed.

  Definition sig_of (L : list elt) : list pyparam := map e_py L.
  Definition kinds_of (L : list elt) : list pkind := map (fun x => p_kind (e_par x)) L.

  Lemma ordered_tail : forall a l, kinds_ordered (a :: l) -> kinds_ordered l.
  Proof. intros a [|b l]; [easy|]. now intros [_ H]. Qed.
  Lemma ordered_ge : forall l a k, kinds_ordered (a :: l) -> In k l ->
    kind_rank a < kind_rank k \/ (a = k /\ a <> VarPositional /\ a <> VarKeyword).
  Proof.
    induction l as [|b l IH]; intros a k H Hk; [easy|]. destruct H as [H1 H2]. destruct Hk as [<-|Hk]; [exact H1|].
    destruct (IH b k H2 Hk) as [H|[<- [H3 H4]]].
    - left. destruct H1 as [H1|[<- _]]; lia.
    - destruct H1 as [H1|[<- H1]]; [left; lia|]. right. now split.
  Qed.
  Lemma posvals_none : forall (L : list elt), (forall x, In x L -> positional (p_kind (e_par x)) = false) -> posvals L = [].
  Proof.
    induction L as [|x L IH]; intros H; [easy|]. cbn [posvals]. assert (Hx := H x (or_introl eq_refl)).
    assert (IH' := IH (fun y Hy => H y (or_intror Hy))). destruct (p_kind (e_par x)); easy.
  Qed.
  Lemma tupvals_none : forall (L : list elt), (forall x, In x L -> elt_ok x) ->
    (forall x, In x L -> p_kind (e_par x) <> VarPositional) -> tupvals L = [].
  Proof.
    induction L as [|x L IH]; intros Hok H; [easy|]. cbn [tupvals]. assert (Hx := H x (or_introl eq_refl)).
    destruct (Hok x (or_introl eq_refl)) as (_ & _ & Hf).
    assert (IH' := IH (fun y Hy => Hok y (or_intror Hy)) (fun y Hy => H y (or_intror Hy))).
    destruct (e_val x); try easy. destruct (p_kind (e_par x)); easy.
  Qed.

  (** The interpreter reads the arguments back. *)
  Lemma fill_ok : forall all D K L, (forall x, In x L -> elt_ok x) -> kinds_ordered (kinds_of L) ->
    NoDup (map fst K) ->
    (forall x, In x L -> by_keyword (pp_kind (e_py x)) = true -> ~ In (pp_name (e_py x)) (map fst D)) ->
    (forall x v, In x L -> p_kind (e_par x) = KeywordOnly -> e_val x = BOne v -> In (pp_name (e_py x), v) K) ->
    (forall x, In x L -> p_kind (e_par x) = PositionalOrKeyword -> ~ In (pp_name (e_py x)) (map fst K)) ->
    (forall x d, In x L -> e_val x = BDict d -> filter (fun e => negb (is_keyword_of all (fst e))) (D ++ K) = d) ->
    fill all (sig_of L) (posvals L ++ tupvals L) (D ++ K) = Some (map (fun x => (pp_name (e_py x), e_val x)) L).
  Proof.
    intros all D K L. induction L as [|x L IH]; intros Hok Hord Hn HD HK HPK Hdict; [reflexivity|].
    assert (IH' : fill all (sig_of L) (posvals L ++ tupvals L) (D ++ K) = Some (map (fun x => (pp_name (e_py x), e_val x)) L)).
    { apply IH; try easy.
      - intros; apply Hok; now right.
      - now apply ordered_tail in Hord.
      - intros y Hy; apply HD; now right.
      - intros y v Hy; apply HK; now right.
      - intros y Hy; apply HPK; now right.
      - intros y d Hy; apply Hdict; now right. }
    clear IH. destruct (Hok x (or_introl eq_refl)) as (Hk & _ & Hf).
    cbn [sig_of map fill]. rewrite Hk. fold (sig_of L). destruct (p_kind (e_par x)) eqn:Ek.
    - destruct (e_val x) as [v| | |] eqn:Ev; try easy. cbn [posvals tupvals]. rewrite Ek, Ev. cbn [app]. now rewrite IH'.
    - destruct (e_val x) as [v| | |] eqn:Ev; try easy. cbn [posvals tupvals]. rewrite Ek, Ev. cbn [app].
      rewrite kw_get_app, !kw_get_none; [now rewrite IH'| |].
      + apply HPK; [now left|easy].
      + apply HD; [now left|]. now rewrite Hk.
    - destruct (e_val x) as [|l| |] eqn:Ev; try easy. cbn [posvals tupvals]. rewrite Ek, Ev.
      assert (Hge : forall y, In y L -> kind_rank VarPositional < kind_rank (p_kind (e_par y))).
      { intros y Hy. cbn [kinds_of map] in Hord. rewrite Ek in Hord.
        destruct (ordered_ge _ _ (p_kind (e_par y)) Hord) as [H|[_ [H _]]]; [|exact H|easy].
        now apply (in_map (fun x => p_kind (e_par x))). }
      assert (E1 : posvals L = []).
      { apply posvals_none. intros y Hy. specialize (Hge y Hy). destruct (p_kind (e_par y)); cbn in *; easy || lia. }
      assert (E2 : tupvals L = []).
      { apply tupvals_none; [intros; apply Hok; now right|]. intros y Hy Hc. specialize (Hge y Hy). rewrite Hc in Hge. cbn in Hge. lia. }
      rewrite E1, E2 in IH'. rewrite E1. cbn [app] in *. now rewrite IH'.
    - destruct (e_val x) as [v| | |] eqn:Ev; try easy. cbn [posvals tupvals]. rewrite Ek, Ev.
      rewrite kw_get_app, kw_get_none, (kw_get_in _ v); [cbn [or_default]; now rewrite IH'|easy| |].
      + apply HK; [now left|easy|easy].
      + apply HD; [now left|]. now rewrite Hk.
    - destruct (e_val x) as [| |d|] eqn:Ev; try easy. cbn [posvals tupvals]. rewrite Ek, Ev. rewrite IH'.
      rewrite (Hdict x d (or_introl eq_refl) Ev). reflexivity.
  Qed.

  Lemma kinds_sig : forall L, (forall x, In x L -> elt_ok x) -> map pp_kind (sig_of L) = kinds_of L.
  Proof.
    induction L as [|x L IH]; intros Hok; [easy|]. unfold sig_of, kinds_of in *. cbn [map]. rewrite IH by (intros; apply Hok; now right).
    destruct (Hok x (or_introl eq_refl)) as (-> & _). easy.
  Qed.
  Lemma dict_unique : forall L x d, (forall x, In x L -> elt_ok x) -> kinds_ordered (kinds_of L) ->
    In x L -> e_val x = BDict d -> d = dictvals L.
  Proof.
    induction L as [|y L IH]; intros x d Hok Hord Hx Hd; [easy|]. cbn [dictvals].
    destruct Hx as [->|Hx]; [now rewrite Hd|].
    assert (IH' := IH x d (fun z Hz => Hok z (or_intror Hz)) (ordered_tail _ _ Hord) Hx Hd).
    destruct (e_val y) as [| |d'|] eqn:Ey; try exact IH'. exfalso.
    destruct (Hok y (or_introl eq_refl)) as (_ & _ & Hf). rewrite Ey in Hf.
    destruct (Hok x (or_intror Hx)) as (_ & _ & Hf'). rewrite Hd in Hf'.
    cbn [kinds_of map] in Hord. destruct (p_kind (e_par y)) eqn:Ek; try easy.
    destruct (p_kind (e_par x)) eqn:Ek'; try easy.
    destruct (ordered_ge _ _ VarKeyword Hord) as [H|[_ [_ H]]]; [|cbn in H; lia|easy].
    rewrite <- Ek'. now apply (in_map (fun x => p_kind (e_par x))).
  Qed.
  Lemma is_keyword_iff : forall s n, is_keyword_of s n = true <-> exists p, In p s /\ by_keyword (pp_kind p) = true /\ pp_name p = n.
  Proof.
    intros s n. unfold is_keyword_of. rewrite existsb_exists. split; intros (p & Hp & H).
    - apply andb_true_iff in H as [H1 H2]. apply str_eqb_eq in H2. now exists p.
    - exists p. split; [easy|]. destruct H as [-> <-]. now rewrite str_eqb_refl.
  Qed.
  Lemma filter_all : forall {A} (f : A -> bool) l, (forall x, In x l -> f x = true) -> filter f l = l.
  Proof. induction l as [|x l IH]; intros H; [easy|]. cbn. rewrite H by now left. f_equal. apply IH. intros; apply H; now right. Qed.
  Lemma filter_none : forall {A} (f : A -> bool) l, (forall x, In x l -> f x = false) -> filter f l = [].
  Proof. induction l as [|x l IH]; intros H; [easy|]. cbn. rewrite H by now left. apply IH. intros; apply H; now right. Qed.
  Lemma name_unique : forall L (x y : elt), NoDup (map (fun x => pp_name (e_py x)) L) -> In x L -> In y L ->
    pp_name (e_py x) = pp_name (e_py y) -> x = y.
  Proof.
    induction L as [|z L IH]; intros x y Hn Hx Hy E; [easy|]. cbn [map] in Hn. inversion Hn as [|? ? H1 H2]; subst.
    destruct Hx as [->|Hx], Hy as [->|Hy]; try easy; [| |now apply IH].
    - exfalso. apply H1. rewrite E. now apply (in_map (fun x => pp_name (e_py x))).
    - exfalso. apply H1. rewrite <- E. now apply (in_map (fun x => pp_name (e_py x))).
  Qed.

  Lemma bind_ok : forall L, (forall x, In x L -> elt_ok x) -> sig_ok (sig_of L) ->
    (forall k, In k (map fst (dictvals L)) -> is_keyword_of (sig_of L) k = false) ->
    bind_args (sig_of L) (posvals L ++ tupvals L) (dictvals L ++ kwvals L) =
      Some (map (fun x => (pp_name (e_py x), e_val x)) L).
  Proof.
    intros L Hok [Hord Hn] HD. rewrite kinds_sig in Hord by easy. unfold sig_of in Hn. rewrite map_map in Hn.
    assert (HK : forall k, In k (map fst (kwvals L)) -> is_keyword_of (sig_of L) k = true).
    { intros k Hk. apply kwvals_names in Hk as (x & Hx & <- & Hk); [|easy]. apply is_keyword_iff. exists (e_py x).
      split; [now apply in_map|]. destruct (Hok x Hx) as (-> & _). now rewrite Hk. }
    unfold bind_args.
    assert (E : has_var_kw (sig_of L) || forallb (fun e => is_keyword_of (sig_of L) (fst e)) (dictvals L ++ kwvals L) = true).
    { destruct (has_var_kw (sig_of L)) eqn:Ev; [easy|]. cbn [orb].
      assert (Hnd : dictvals L = []).
      { assert (Hfk := find_kind VarKeyword L Hok). destruct (find _ (map e_par L)) as [p|] eqn:Ef; [|now apply Hfk].
        destruct Hfk as (x & Hx & <- & Hk & _). exfalso.
        assert (has_var_kw (sig_of L) = true) by (apply existsb_exists; exists (e_py x); split;
          [now apply in_map|destruct (Hok x Hx) as (-> & _); now rewrite Hk]). congruence. }
      rewrite Hnd. cbn [app]. apply forallb_forall. intros [k v] Hkv. cbn [fst]. apply HK. now apply (in_map fst) in Hkv. }
    rewrite E. clear E. apply fill_ok; try easy.
    - now apply kwvals_nodup.
    - intros x Hx Hb Hi. apply HD in Hi.
      assert (is_keyword_of (sig_of L) (pp_name (e_py x)) = true) by (apply is_keyword_iff; exists (e_py x); split; [now apply in_map|easy]).
      congruence.
    - intros x v Hx Hk Hv. now apply kwvals_In.
    - intros x Hx Hk Hi. apply kwvals_names in Hi as (y & Hy & Hyn & Hyk); [|easy].
      assert (y = x) by (now apply (name_unique L)). subst. congruence.
    - intros x d Hx Hd. rewrite (dict_unique L x d Hok Hord Hx Hd). rewrite filter_app.
      rewrite filter_all, filter_none, app_nil_r; [easy| |].
      + intros [k v] Hkv. cbn [fst]. rewrite HK; [easy|]. now apply (in_map fst) in Hkv.
      + intros [k v] Hkv. cbn [fst]. rewrite HD; [easy|]. now apply (in_map fst) in Hkv.
  Qed.
End eval.
