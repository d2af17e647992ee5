(** * Proofs about values returned by Python (C75) *)
From Coq Require Import ZArith Lia.
From Verif Require Import Base Model_Path Model_Type Model_IntoRs Spec_Rust Spec_Value Proof_IntoRs.

Lemma inv_optional : forall x v, conforms (TOptional x) v -> v = VNone \/ conforms x v.
Proof. intros x v H. inversion H; subst; auto. Qed.
Lemma inv_dict : forall k w v, conforms (TDict k w) v -> exists l, v = VDict l /\ Forall (conforms k) (map fst l) /\ Forall (conforms w) (map snd l) /\ distinct (map fst l).
Proof. intros k w v H. inversion H; subst; eauto. Qed.
Lemma inv_set : forall x v, conforms (TSet x) v -> exists l, v = VSet l /\ Forall (conforms x) l /\ distinct l.
Proof. intros x v H. inversion H; subst; eauto. Qed.
Lemma inv_frozenset : forall x v, conforms (TFrozenSet x) v -> exists l, v = VFrozenSet l /\ Forall (conforms x) l /\ distinct l.
Proof. intros x v H. inversion H; subst; eauto. Qed.
Lemma inv_list : forall x v, conforms (TList x) v -> exists l, v = VList l /\ Forall (conforms x) l.
Proof. intros x v H. inversion H; subst; eauto. Qed.
Lemma inv_bytes : forall v, conforms TBytes v -> exists l, v = VBytes l /\ bytes l.
Proof. intros v H. inversion H; subst; eauto. Qed.
Lemma inv_bytearray : forall v, conforms TByteArray v -> exists l, v = VByteArray l /\ bytes l.
Proof. intros v H. inversion H; subst; eauto. Qed.
Lemma inv_float : forall v, conforms TFloat v -> (exists f, v = VFloat f) \/ exists z, number v = Some z.
Proof. intros v H. inversion H; subst; eauto. Qed.
Lemma inv_int : forall v, conforms TLong v -> exists z, number v = Some z.
Proof. intros v H. inversion H; subst; eauto. Qed.
Lemma inv_date : forall v, conforms TDate v -> v = VOf KDate \/ v = VOf KDateTime.
Proof. intros v H. inversion H; subst. destruct H0 as [->| ->]; auto. Qed.

Section round.
Variable round : Z -> option N.
Notation extract := (extract round).
Notation stands := (stands round).
Notation small := (small round).

Lemma all_some_map : forall {A} (f : A -> option rv) l, (forall a, In a l -> exists r, f a = Some r) ->
  exists rs, all_some (map f l) = Some rs /\ Forall2 (fun r a => f a = Some r) rs l.
Proof.
  intros A f l. induction l as [|a l IH]; intros H; [exists []; split; [easy|constructor]|].
  destruct IH as (rs & E & HF); [intros b Hb; apply H; now right|]. destruct (H a (or_introl eq_refl)) as (r & Er).
  exists (r :: rs). cbn. rewrite Er. rewrite E. split; [easy|]. now constructor.
Qed.
Lemma Forall2_len : forall {A B} (P : A -> B -> Prop) l m, Forall2 P l m -> length l = length m.
Proof. intros A B P l m H. induction H; cbn; congruence. Qed.
Lemma Forall2_weaken : forall {A B} (P Q : A -> B -> Prop) l m, Forall2 P l m -> (forall a b, In b m -> P a b -> Q a b) -> Forall2 Q l m.
Proof. intros A B P Q l m H. induction H as [|a b l m HP H IH]; intros HQ; constructor; [apply HQ; [now left|easy]|]. apply IH. intros; apply HQ; [now right|easy]. Qed.
Lemma Forall2_map_r : forall {A B C} (P : A -> C -> Prop) (g : B -> C) l m, Forall2 (fun a b => P a (g b)) l m -> Forall2 P l (map g m).
Proof. intros A B C P g l m H. induction H; cbn; constructor; easy. Qed.

Lemma small_in : forall l v, fold_right (fun v P => small v /\ P) True l -> In v l -> small v.
Proof. induction l as [|w l IH]; intros v H Hv; [easy|]. destruct H as [H1 H2]. destruct Hv as [<-|Hv]; auto. Qed.
Lemma small_entry : forall (l : list (pyv * pyv)) e, fold_right (fun e P => small (fst e) /\ small (snd e) /\ P) True l -> In e l ->
  small (fst e) /\ small (snd e).
Proof. induction l as [|w l IH]; intros v H Hv; [easy|]. destruct H as (H1 & H2 & H3). destruct Hv as [<-|Hv]; auto. Qed.
Lemma small_number : forall v z, small v -> number v = Some z -> in_i64 z = true /\ exists f, round z = Some f.
Proof.
  intros v z H E. destruct v; try discriminate; cbn in H, E; injection E as <-.
  - split; [now destruct b|]. destruct (round _) as [f|]; [now exists f|easy].
  - destruct H as [H1 H2]. split; [easy|]. destruct (round z0) as [f|]; [now exists f|easy].
Qed.

(** Keys with the same Rust value are the same key. *)
Lemma same_key : forall c k k' b v w r, is_hashable k = true -> bad_key k = false -> into_rs c k = Ok (k', b) ->
  conforms k v -> conforms k w -> extract k' v = Some r -> extract k' w = Some r -> key_eq v w.
Proof.
  intros c k k' b v w r H1 H2 Hk Hv Hw Ev Ew.
  destruct (key_cases k H1 H2) as [->|[->|[->| ->]]]; cbn in Hk; injection Hk as <- <-; inversion Hv; inversion Hw; subst.
  - left. cbn in Ev, Ew. congruence.
  - left. cbn in Ev, Ew. congruence.
  - right. assert (Fv : match number v with Some z => if in_i64 z then Some (ValI64 z) else None | None => None end = Some r) by exact Ev.
    assert (Fw : match number w with Some z => if in_i64 z then Some (ValI64 z) else None | None => None end = Some r) by exact Ew.
    clear Ev Ew.
    destruct (number v) as [a|]; [|discriminate Fv]. destruct (number w) as [d|]; [|discriminate Fw].
    destruct (in_i64 a); [|discriminate Fv]. destruct (in_i64 d); [|discriminate Fw]. exists a. split; congruence.
  - left. cbn in Ev, Ew. congruence.
Qed.
Lemma keys_apart : forall c k k' b rs l, is_hashable k = true -> bad_key k = false -> into_rs c k = Ok (k', b) ->
  Forall (conforms k) l -> distinct l -> Forall2 (fun r v => extract k' v = Some r) rs l -> NoDup rs.
Proof.
  intros c k k' b rs l H1 H2 Hk Hc Hd HF. induction HF as [|r v rs l E HF IH]; [constructor|].
  inversion Hc; inversion Hd; subst. constructor; [|now apply IH]. intros Hr.
  assert (X : exists w, In w l /\ extract k' w = Some r).
  { clear -HF Hr. induction HF as [|r' w rs l E HF IH]; [easy|]. destruct Hr as [->|Hr]; [exists w; split; [now left|easy]|].
    destruct (IH Hr) as (w' & ? & ?). exists w'. split; [now right|easy]. }
  destruct X as (w & Hw & Ew). rewrite Forall_forall in *. eapply H7; [exact Hw|]. eapply same_key; eauto.
Qed.

Lemma bytes_arrive : forall l, bytes l ->
  all_some (map (extract (RName (u "u8"))) (map (fun n => VInt (Z.of_N n)) l)) = Some (map ValU8 l).
Proof.
  induction l as [|n l IH]; intros H; [easy|]. inversion H; subst. cbn [map all_some].
  change (extract (RName (u "u8")) (VInt (Z.of_N n))) with
    (if ((0 <=? Z.of_N n) && (Z.of_N n <? 256))%Z then Some (ValU8 (Z.to_N (Z.of_N n))) else None).
  replace ((0 <=? Z.of_N n)%Z && (Z.of_N n <? 256)%Z)%bool with true by (symmetry; apply andb_true_intro; split; [apply Z.leb_le|apply Z.ltb_lt]; lia).
  rewrite N2Z.id. rewrite (IH H3). reflexivity.
Qed.

Lemma tuple_arrives : forall (ts : list ptype) rts l, length ts <=? 12 = true ->
  Forall2 (fun t v => exists r, extract t v = Some r /\ stands r v) rts l -> length rts = length ts ->
  exists r, extract (RTup rts) (VTuple l) = Some r /\ stands r (VTuple l).
Proof.
  intros ts rts l Hl HF E. cbn [Spec_Value.extract]. rewrite E, Hl. cbn [negb]. clear E Hl.
  match goal with |- exists r, option_map ValTuple ?g = Some r /\ _ => assert (X : exists rs, g = Some rs /\ Forall2 stands rs l) end.
  { induction HF as [|t v rts l (r & Er & Hr) HF IH]; [exists []; split; [easy|constructor]|]. destruct IH as (rs & Es & Hs).
    exists (r :: rs). rewrite Er, Es. split; [easy|now constructor]. }
  destruct X as (rs & -> & Hs). exists (ValTuple rs). split; [easy|now constructor].
Qed.

Lemma mapM_all : forall {A B} (f : A -> outcome B) l r, mapM f l = Ok r -> Forall2 (fun a b => f a = Ok b) l r.
Proof.
  induction l as [|x l IH]; intros r H; [injection H as <-; constructor|]. cbn [mapM] in H.
  apply bind_Ok in H as (a & Ha & H). apply bind_Ok in H as (r' & Hr & H). injection H as <-. constructor; auto.
Qed.

(** Without names that the numpy feature claims it makes no difference. *)
Definition plain_ctx (c : ctx) : ctx := mk_ctx (cx_dbg c) false (cx_uni c) (cx_local c).
Lemma before_bracket_split : forall s, exists q, s = before_bracket s ++ q /\ ~ In 91%N (before_bracket s) /\ maybe_args q.
Proof.
  induction s as [|a s (q & E & Hn & Hq)]; [exists []; cbn; split; [reflexivity|split; [easy|now left]]|]. cbn [before_bracket].
  destruct (N.eqb_spec a c_lbr) as [->|Ne]; [exists (c_lbr :: s); split; [reflexivity|]; split; [easy|]; right; now exists s|].
  exists q. split; [now rewrite E at 1|]. split; [|exact Hq]. intros [Ha|Ha]; [now apply Ne|contradiction].
Qed.
Lemma map_type_plain : forall c s, ~ array_name s -> map_type c s = map_type (plain_ctx c) s.
Proof.
  intros c s H. unfold map_type. assert (E : map_external c s = None).
  { unfold map_external. destruct (is_ndarray s) eqn:E; [|now rewrite andb_false_r]. exfalso. apply H. apply ndarray_names in E.
    destruct (before_bracket_split s) as (q & Es & Hn & Hq). exists (before_bracket s), q. auto. }
  rewrite E. reflexivity.
Qed.
Lemma into_rs_plain : forall c t, (forall s, In s (class_names t) -> ~ array_name s) -> into_rs c t = into_rs (plain_ctx c) t.
Proof.
  intros c t. induction t as [x IH|l IH|k w IHk IHw|x IH|x IH|x IH|l IH|ps r|s|t Ht] using ptype_ind'; intros H; cbn [class_names] in H.
  - cbn [into_rs]. now rewrite IH.
  - reflexivity.
  - cbn [into_rs]. rewrite IHk, IHw; [reflexivity| |]; intros s Hs; apply H; apply in_or_app; auto.
  - cbn [into_rs]. now rewrite IH.
  - cbn [into_rs]. now rewrite IH.
  - cbn [into_rs]. now rewrite IH.
  - destruct l as [|x [|y l]]; [reflexivity|reflexivity|]. rewrite !into_tuple.
    assert (E : forall z, In z (x :: y :: l) -> into_rs_owned c z = into_rs_owned (plain_ctx c) z).
    { intros z Hz. unfold into_rs_owned. rewrite (IH z Hz); [reflexivity|]. intros s Hs. apply H. apply in_flat_map. now exists z. }
    rewrite (E x) by now left. destruct (_ && _); [reflexivity|]. f_equal. revert E. generalize (x :: y :: l) as m. clear.
    induction m as [|z m IHm]; intros E; [reflexivity|]. cbn [mapM]. rewrite (E z) by now left. rewrite IHm; [reflexivity|]. intros a Ha. apply E. now right.
  - reflexivity.
  - cbn [into_rs]. apply map_type_plain. apply H. now left.
  - destruct t; try (exfalso; exact Ht); reflexivity.
Qed.

Lemma arrives_plain : forall c t v o b, cx_numpy c = false -> good_keys t = true -> no_ip t = true -> no_callable t = true -> small_tuples t = true ->
  conforms t v -> small v -> into_rs c t = Ok (o, b) -> exists r, extract o v = Some r /\ stands r v.
Proof.
  intros c t v o b Hn. revert v o b.
  induction t as [x IH|l IH|k w IHk IHw|x IH|x IH|x IH|l IH|ps r|s|t Ht] using ptype_ind'; intros v o b Hg Hi Hc Hs Hv Hm H.
  - cbn in H. apply bind_Ok in H as (i & Hi' & H). injection H as <- <-. apply owned_of in Hi' as (bi & Hi').
    assert (X : v = VNone \/ v <> VNone) by (destruct v; (now left) || (right; discriminate)). destruct X as [->|X].
    + exists (ValOption None). split; [reflexivity|constructor].
    + destruct (inv_optional x v Hv) as [->|Hx]; [easy|]. destruct (IH v i bi Hg Hi Hc Hs Hx Hm Hi') as (r & Er & Hr).
      exists (ValOption (Some r)). split; [|now constructor].
      change (match v with VNone => Some (ValOption None) | _ => option_map (fun r => ValOption (Some r)) (extract i v) end = Some (ValOption (Some r))).
      rewrite Er. now destruct v.
  - cbn in H. injection H as <- <-. exists (ValPy v). split; [reflexivity|constructor].
  - cbn [good_keys no_ip no_callable small_tuples] in *. apply andb_prop in Hg as [Hg Hg2]. apply andb_prop in Hg as [Hg0 Hg1]. apply negb_true_iff in Hg0.
    apply andb_prop in Hi as [Hi1 Hi2]. apply andb_prop in Hc as [Hc1 Hc2]. apply andb_prop in Hs as [Hs1 Hs2].
    cbn [into_rs] in H. apply bind_Ok in H as (w' & Hw' & H). apply owned_of in Hw' as (bw & Hw').
    destruct (inv_dict k w v Hv) as (l & -> & HF1 & HF2 & Hd).
    cbn [Spec_Value.small] in Hm. rewrite Forall_map, Forall_forall in HF1, HF2.
    destruct (is_hashable k && negb (mentions_pyany w')) eqn:E.
    + apply andb_prop in E as [E _]. apply bind_Ok in H as (k' & Hk' & H). injection H as <- <-. apply owned_of in Hk' as (bk & Hk').
      assert (A1 : forall e, In e l -> exists r, extract k' (fst e) = Some r /\ stands r (fst e)).
      { intros e He. destruct (small_entry l e Hm He) as [S1 S2]. exact (IHk (fst e) k' bk Hg1 Hi1 Hc1 Hs1 (HF1 e He) S1 Hk'). }
      assert (A2 : forall e, In e l -> exists r, extract w' (snd e) = Some r /\ stands r (snd e)).
      { intros e He. destruct (small_entry l e Hm He) as [S1 S2]. exact (IHw (snd e) w' bw Hg2 Hi2 Hc2 Hs2 (HF2 e He) S2 Hw'). }
      destruct (all_some_map (fun e => extract k' (fst e)) l) as (ks & E1 & K1); [intros e He; destruct (A1 e He) as (r & ? & _); now exists r|].
      destruct (all_some_map (fun e => extract w' (snd e)) l) as (ws & E2 & K2); [intros e He; destruct (A2 e He) as (r & ? & _); now exists r|].
      exists (ValMap (combine ks ws)). split.
      { change (extract (r_hashmap k' w') (VDict l)) with
          (match all_some (map (fun e => extract k' (fst e)) l), all_some (map (fun e => extract w' (snd e)) l) with
           | Some ks, Some ws => Some (ValMap (combine ks ws)) | _, _ => None end). now rewrite E1, E2. }
      assert (L : length ks = length ws) by (rewrite (Forall2_len _ _ _ K1), (Forall2_len _ _ _ K2); reflexivity).
      assert (M1 : map fst (combine ks ws) = ks) by (clear -L; revert ws L; induction ks as [|a ks IH]; intros [|d ws] L; try discriminate; [easy|]; cbn; f_equal; apply IH; now injection L).
      assert (M2 : map snd (combine ks ws) = ws) by (clear -L; revert ws L; induction ks as [|a ks IH]; intros [|d ws] L; try discriminate; [easy|]; cbn; f_equal; apply IH; now injection L).
      constructor.
      * rewrite M1. apply Forall2_map_r. eapply Forall2_weaken; [exact K1|]. intros r e He Er. cbn in Er. destruct (A1 e He) as (r' & Er' & Hr'). congruence.
      * rewrite M2. apply Forall2_map_r. eapply Forall2_weaken; [exact K2|]. intros r e He Er. cbn in Er. destruct (A2 e He) as (r' & Er' & Hr'). congruence.
      * rewrite M1. eapply (keys_apart c k k' bk ks (map fst l) E Hg0 Hk'); [|exact Hd|apply Forall2_map_r; exact K1].
        rewrite Forall_map, Forall_forall. exact HF1.
    + injection H as <- <-. exists (ValPy (VDict l)). split; [reflexivity|constructor].
  - cbn [good_keys] in Hg. apply andb_prop in Hg as [Hg0 Hg1]. apply negb_true_iff in Hg0.
    cbn [into_rs] in H. destruct (inv_frozenset x v Hv) as (l & -> & HF & Hd).
    destruct (is_hashable x) eqn:E; [|injection H as <- <-; exists (ValPy (VFrozenSet l)); split; [reflexivity|constructor]].
    apply bind_Ok in H as (k' & Hk' & H). injection H as <- <-. apply owned_of in Hk' as (bk & Hk').
    assert (A : forall e, In e l -> exists r, extract k' e = Some r /\ stands r e).
    { intros e He. rewrite Forall_forall in HF. exact (IH e k' bk Hg1 Hi Hc Hs (HF e He) (small_in l e Hm He) Hk'). }
    destruct (all_some_map (extract k') l) as (ks & E1 & K1); [intros e He; destruct (A e He) as (r & ? & _); now exists r|].
    exists (ValSet ks). split; [change (option_map ValSet (all_some (map (extract k') l)) = Some (ValSet ks)); now rewrite E1|].
    constructor; [|eapply (keys_apart c x k' bk ks l); eauto].
    eapply Forall2_weaken; [exact K1|]. intros r e He Er. cbn in Er. destruct (A e He) as (r' & Er' & Hr'). congruence.
  - cbn [into_rs] in H. destruct (inv_list x v Hv) as (l & -> & HF).
    apply bind_Ok in H as (k' & Hk' & H). injection H as <- <-. apply owned_of in Hk' as (bk & Hk').
    assert (A : forall e, In e l -> exists r, extract k' e = Some r /\ stands r e).
    { intros e He. rewrite Forall_forall in HF. exact (IH e k' bk Hg Hi Hc Hs (HF e He) (small_in l e Hm He) Hk'). }
    destruct (all_some_map (extract k') l) as (ks & E1 & K1); [intros e He; destruct (A e He) as (r & ? & _); now exists r|].
    exists (ValVec ks). split; [cbn [Spec_Value.extract sequence]; now rewrite E1|].
    constructor. eapply Forall2_weaken; [exact K1|]. intros r e He Er. cbn in Er. destruct (A e He) as (r' & Er' & Hr'). congruence.
  - cbn [good_keys] in Hg. apply andb_prop in Hg as [Hg0 Hg1]. apply negb_true_iff in Hg0.
    cbn [into_rs] in H. destruct (inv_set x v Hv) as (l & -> & HF & Hd).
    destruct (is_hashable x) eqn:E; [|injection H as <- <-; exists (ValPy (VSet l)); split; [reflexivity|constructor]].
    apply bind_Ok in H as (k' & Hk' & H). injection H as <- <-. apply owned_of in Hk' as (bk & Hk').
    assert (A : forall e, In e l -> exists r, extract k' e = Some r /\ stands r e).
    { intros e He. rewrite Forall_forall in HF. exact (IH e k' bk Hg1 Hi Hc Hs (HF e He) (small_in l e Hm He) Hk'). }
    destruct (all_some_map (extract k') l) as (ks & E1 & K1); [intros e He; destruct (A e He) as (r & ? & _); now exists r|].
    exists (ValSet ks). split; [change (option_map ValSet (all_some (map (extract k') l)) = Some (ValSet ks)); now rewrite E1|].
    constructor; [|eapply (keys_apart c x k' bk ks l); eauto].
    eapply Forall2_weaken; [exact K1|]. intros r e He Er. cbn in Er. destruct (A e He) as (r' & Er' & Hr'). congruence.
  - cbn [good_keys no_ip no_callable small_tuples] in *. rewrite forallb_forall in Hg, Hi, Hc. apply andb_prop in Hs as [Hs0 Hs]. rewrite forallb_forall in Hs.
    assert (T : exists m, v = VTuple m) by (inversion Hv; subst; eexists; reflexivity). destruct T as (m & ->). cbn [Spec_Value.small] in Hm.
    destruct l as [|x [|y l]]; try (cbn in H; injection H as <- <-; exists (ValPy (VTuple m)); split; [reflexivity|constructor]).
    rewrite into_tuple in H. destruct (is_ellipsis y && _) eqn:Ey.
    + apply andb_prop in Ey as [Ey El]. destruct y; try discriminate Ey. destruct l; [|discriminate El].
      assert (HF : Forall (conforms x) m) by (inversion Hv; subst; easy). rewrite Forall_forall in HF.
      apply bind_Ok in H as (k' & Hk' & H). injection H as <- <-. apply owned_of in Hk' as (bk & Hk').
      assert (A : forall e, In e m -> exists r, extract k' e = Some r /\ stands r e).
      { intros e He. refine (IH x _ e k' bk _ _ _ _ (HF e He) (small_in m e Hm He) Hk'); auto with datatypes. }
      destruct (all_some_map (extract k') m) as (ks & E1 & K1); [intros e He; destruct (A e He) as (r & ? & _); now exists r|].
      exists (ValVec ks). split; [cbn [Spec_Value.extract sequence]; now rewrite E1|].
      constructor. eapply Forall2_weaken; [exact K1|]. intros r e He Er. cbn in Er. destruct (A e He) as (r' & Er' & Hr'). congruence.
    + apply bind_Ok in H as (is & Hi' & H). injection H as <- <-. apply mapM_all in Hi'.
      assert (HF : Forall2 conforms (x :: y :: l) m). { inversion Hv; subst; [easy|]. discriminate Ey. }
      apply (tuple_arrives (x :: y :: l)); [exact Hs0| |now rewrite (Forall2_len _ _ _ Hi')].
      clear Hv Ey Hs0. revert m Hm HF. induction Hi' as [|t i ts is Ei Hi' IHi]; intros m Hm HF; inversion HF as [|t0 e ts0 m0 He HF']; subst; constructor.
      * apply owned_of in Ei as (bi & Ei). destruct Hm as [Hm _]. refine (IH t _ e i bi _ _ _ _ He Hm Ei); auto with datatypes.
      * apply IHi; [intros z Hz; apply IH; now right|intros; apply Hg; now right|intros; apply Hi; now right|intros; apply Hc; now right|intros; apply Hs; now right|now destruct Hm|easy].
  - discriminate Hc.
  - cbn [into_rs] in H. unfold map_type, map_external in H. rewrite Hn in H. cbn [andb] in H. apply bind_Ok in H as (k & _ & H).
    destruct (lt_get (cx_local c) k) as [rel|].
    + destruct (syn_path_ok _ rel); [|easy]. injection H as <- <-. exists (ValPy v). split; [reflexivity|constructor].
    + injection H as <- <-. exists (ValPy v). split; [reflexivity|constructor].
  - destruct t; try (exfalso; exact Ht); try discriminate Hi; cbn in H; injection H as <- <-;
      try (exists (ValPy v); split; [now inversion Hv; subst; try reflexivity|constructor]; fail).
    + inversion Hv; subst. exists (ValBool b). split; [reflexivity|constructor].
    + destruct (inv_bytearray v Hv) as (l & -> & HB).
      exists (ValVec (map ValU8 l)). split; [|constructor].
      change (option_map ValVec (all_some (map (extract (RName (u "u8"))) (map (fun n => VInt (Z.of_N n)) l))) = Some (ValVec (map ValU8 l))).
      now rewrite bytes_arrive.
    + destruct (inv_bytes v Hv) as (l & -> & HB).
      exists (ValVec (map ValU8 l)). split; [|constructor].
      change (option_map ValVec (all_some (map (extract (RName (u "u8"))) (map (fun n => VInt (Z.of_N n)) l))) = Some (ValVec (map ValU8 l))).
      now rewrite bytes_arrive.
    + destruct (inv_float v Hv) as [(f & ->)|(z & Hz)].
      * exists (ValF64 f). split; [reflexivity|constructor].
      * destruct (small_number v z Hm Hz) as (_ & f & Hf). exists (ValF64 f). split; [|now apply st_float_int with z].
        destruct v; try discriminate Hz; cbn in Hz; injection Hz as <-; [destruct b|];
          (match goal with |- extract _ ?v = _ => change (match number v with Some z => option_map ValF64 (round z) | None => None end = Some (ValF64 f)) end);
          cbn [number]; now rewrite Hf.
    + destruct (inv_int v Hv) as (z & Hz).
      destruct (small_number v z Hm Hz) as (Hf & _). exists (ValI64 z). split; [|now constructor].
      change (match number v with Some z => if in_i64 z then Some (ValI64 z) else None | None => None end = Some (ValI64 z)). now rewrite Hz, Hf.
    + inversion Hv; subst. eexists. split; [reflexivity|constructor].
    + inversion Hv; subst. eexists. split; [reflexivity|constructor].
    + exists (ValPy v). split; [|constructor]. now destruct (inv_date v Hv) as [->| ->].
Qed.
Theorem arrives_as : forall c t v o b, no_arrays (cx_numpy c) t -> good_keys t = true -> no_ip t = true -> no_callable t = true -> small_tuples t = true ->
  conforms t v -> small v -> into_rs c t = Ok (o, b) -> exists r, extract o v = Some r /\ stands r v.
Proof.
  intros c t v o b [Hn|Hn] H2 H3 H4 H5 Hv Hm H; [exact (arrives_plain c t v o b Hn H2 H3 H4 H5 Hv Hm H)|].
  rewrite (into_rs_plain c t Hn) in H. exact (arrives_plain (plain_ctx c) t v o b eq_refl H2 H3 H4 H5 Hv Hm H).
Qed.
End round.
