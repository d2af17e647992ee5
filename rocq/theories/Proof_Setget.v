(** * Proofs about values that are set and read back (C76) *)
From Coq Require Import ZArith Lia.
From Verif Require Import Base Model_Path Model_Type Model_IntoRs Spec_Rust Spec_Value Proof_IntoRs Proof_Value.

Section round.
Variable round : Z -> option N.
Notation extract := (extract round).

Lemma all_back : forall t l, (forall r, In r l -> extract t (give r) = Some r) -> all_some (map (extract t) (map give l)) = Some l.
Proof. intros t l. induction l as [|r l IH]; intros H; [reflexivity|]. cbn [map all_some]. rewrite (H r (or_introl eq_refl)). rewrite IH; [reflexivity|]. intros; apply H; now right. Qed.
Lemma solid_in : forall l r, fold_right (fun v P => solid v /\ P) True l -> In r l -> solid r.
Proof. induction l as [|w l IH]; intros v H Hv; [easy|]. destruct H as [H1 H2]. destruct Hv as [<-|Hv]; auto. Qed.
Lemma solid_entry : forall (l : list (rv * rv)) e, fold_right (fun e P => solid (fst e) /\ solid (snd e) /\ P) True l -> In e l -> solid (fst e) /\ solid (snd e).
Proof. induction l as [|w l IH]; intros v H Hv; [easy|]. destruct H as (H1 & H2 & H3). destruct Hv as [<-|Hv]; auto. Qed.
Lemma entries_back : forall {A} (f : A -> pyv) (g : A -> rv) t l, (forall e, In e l -> extract t (f e) = Some (g e)) -> all_some (map (fun e => extract t (f e)) l) = Some (map g l).
Proof. intros A f g t l. induction l as [|r l IH]; intros H; [reflexivity|]. cbn [map all_some]. rewrite (H r (or_introl eq_refl)). rewrite IH; [reflexivity|]. intros; apply H; now right. Qed.
Lemma combine_maps : forall {A B} (l : list (A * B)), combine (map fst l) (map snd l) = l.
Proof. intros A B l. induction l as [|[a b] l IH]; [reflexivity|]. cbn. now rewrite IH. Qed.

Lemma bound_back : forall n v, instance_of (u n) v = true -> extract (bound_of n) v = Some (ValPy v).
Proof. intros n v H. change ((if instance_of (u n) v then Some (ValPy v) else None) = Some (ValPy v)). now rewrite H. Qed.
Lemma vec_back : forall t l, (forall r, In r l -> extract t (give r) = Some r) -> extract (RVec t) (give (ValVec l)) = Some (ValVec l).
Proof. intros t l H. change (option_map ValVec (all_some (map (extract t) (map give l))) = Some (ValVec l)). now rewrite all_back. Qed.
Lemma set_back : forall t l, (forall r, In r l -> extract t (give r) = Some r) -> extract (r_hashset t) (give (ValSet l)) = Some (ValSet l).
Proof. intros t l H. change (option_map ValSet (all_some (map (extract t) (map give l))) = Some (ValSet l)). now rewrite all_back. Qed.
Lemma map_back : forall k w l, (forall e, In e l -> extract k (give (fst e)) = Some (fst e)) -> (forall e, In e l -> extract w (give (snd e)) = Some (snd e)) ->
  extract (r_hashmap k w) (give (ValMap l)) = Some (ValMap l).
Proof.
  intros k w l H1 H2. change (match all_some (map (fun e => extract k (fst e)) (map (fun e => (give (fst e), give (snd e))) l)),
    all_some (map (fun e => extract w (snd e)) (map (fun e => (give (fst e), give (snd e))) l)) with Some ks, Some ws => Some (ValMap (combine ks ws)) | _, _ => None end = Some (ValMap l)).
  rewrite !map_map. cbn [fst snd]. rewrite (entries_back (fun e => give (fst e)) fst k l H1), (entries_back (fun e => give (snd e)) snd w l H2). now rewrite combine_maps.
Qed.
Lemma option_back : forall t r, give r <> VNone -> extract t (give r) = Some r -> extract (r_option t) (give (ValOption (Some r))) = Some (ValOption (Some r)).
Proof.
  intros t r Hn H. change (match give r with VNone => Some (ValOption None) | _ => option_map (fun r => ValOption (Some r)) (extract t (give r)) end = Some (ValOption (Some r))).
  rewrite H. now destruct (give r).
Qed.
Lemma bytes_back : forall l, Forall (typed (RName (u "u8"))) l -> extract (RVec (RName (u "u8"))) (give (ValVec l)) = Some (ValVec l).
Proof.
  intros l H. apply vec_back. intros r Hr. rewrite Forall_forall in H. specialize (H r Hr). cbn in H. destruct H as (n & -> & Hn).
  change (extract (RName (u "u8")) (give (ValU8 n))) with (if ((0 <=? Z.of_N n) && (Z.of_N n <? 256))%Z then Some (ValU8 (Z.to_N (Z.of_N n))) else None).
  replace ((0 <=? Z.of_N n)%Z && (Z.of_N n <? 256)%Z)%bool with true by (symmetry; apply andb_true_intro; split; [apply Z.leb_le|apply Z.ltb_lt]; lia).
  now rewrite N2Z.id.
Qed.

(** What is made of a value of the type of the result gives this value again. *)
Theorem owned_back : forall c t o b r, good_keys t = true -> no_ip t = true -> small_tuples t = true ->
  into_rs c t = Ok (o, b) -> typed o r -> solid r -> extract o (give r) = Some r.
Proof.
  intros c t. induction t as [x IH|l IH|k w IHk IHw|x IH|x IH|x IH|l IH|ps ret|s|t Ht] using ptype_ind'; intros o b r Hg Hi Hs H Hr Hd.
  - cbn in H. apply bind_Ok in H as (i & Hi' & H). injection H as <- <-. apply owned_of in Hi' as (bi & Hi').
    change (r = ValOption None \/ exists x, r = ValOption (Some x) /\ typed i x) in Hr. destruct Hr as [->|(y & -> & Hy)]; [reflexivity|].
    destruct Hd as [Hd1 Hd2]. apply option_back; [exact Hd1|]. exact (IH i bi y Hg Hi Hs Hi' Hy Hd2).
  - cbn in H. injection H as <- <-. destruct Hr as (v & -> & Hv). now apply bound_back.
  - cbn [good_keys no_ip small_tuples] in *. apply andb_prop in Hg as [Hg Hg2]. apply andb_prop in Hg as [Hg0 Hg1].
    apply andb_prop in Hi as [Hi1 Hi2]. apply andb_prop in Hs as [Hs1 Hs2].
    cbn [into_rs] in H. apply bind_Ok in H as (w' & Hw' & H). apply owned_of in Hw' as (bw & Hw').
    destruct (is_hashable k && negb (mentions_pyany w')) eqn:E.
    + apply bind_Ok in H as (k' & Hk' & H). injection H as <- <-. apply owned_of in Hk' as (bk & Hk').
      change (exists l, r = ValMap l /\ Forall (fun e => typed k' (fst e)) l /\ Forall (fun e => typed w' (snd e)) l /\ NoDup (map fst l)) in Hr.
      destruct Hr as (l & -> & F1 & F2 & _). rewrite Forall_forall in F1, F2. apply map_back; intros e He; destruct (solid_entry l e Hd He) as [S1 S2].
      * exact (IHk k' bk (fst e) Hg1 Hi1 Hs1 Hk' (F1 e He) S1).
      * exact (IHw w' bw (snd e) Hg2 Hi2 Hs2 Hw' (F2 e He) S2).
    + injection H as <- <-. destruct Hr as (v & -> & Hv). now apply bound_back.
  - cbn [good_keys] in Hg. apply andb_prop in Hg as [Hg0 Hg1]. cbn [into_rs] in H.
    destruct (is_hashable x) eqn:E; [|injection H as <- <-; destruct Hr as (v & -> & Hv); now apply bound_back].
    apply bind_Ok in H as (k' & Hk' & H). injection H as <- <-. apply owned_of in Hk' as (bk & Hk').
    change (exists l, r = ValSet l /\ Forall (typed k') l /\ NoDup l) in Hr. destruct Hr as (l & -> & F & _). rewrite Forall_forall in F.
    apply set_back. intros e He. exact (IH k' bk e Hg1 Hi Hs Hk' (F e He) (solid_in l e Hd He)).
  - cbn [into_rs] in H. apply bind_Ok in H as (k' & Hk' & H). injection H as <- <-. apply owned_of in Hk' as (bk & Hk').
    destruct Hr as (l & -> & F). rewrite Forall_forall in F. apply vec_back. intros e He. exact (IH k' bk e Hg Hi Hs Hk' (F e He) (solid_in l e Hd He)).
  - cbn [good_keys] in Hg. apply andb_prop in Hg as [Hg0 Hg1]. cbn [into_rs] in H.
    destruct (is_hashable x) eqn:E; [|injection H as <- <-; destruct Hr as (v & -> & Hv); now apply bound_back].
    apply bind_Ok in H as (k' & Hk' & H). injection H as <- <-. apply owned_of in Hk' as (bk & Hk').
    change (exists l, r = ValSet l /\ Forall (typed k') l /\ NoDup l) in Hr. destruct Hr as (l & -> & F & _). rewrite Forall_forall in F.
    apply set_back. intros e He. exact (IH k' bk e Hg1 Hi Hs Hk' (F e He) (solid_in l e Hd He)).
  - cbn [good_keys no_ip small_tuples] in *. rewrite forallb_forall in Hg, Hi. apply andb_prop in Hs as [Hs0 Hs]. rewrite forallb_forall in Hs.
    destruct l as [|x [|y l]]; try (cbn in H; injection H as <- <-; destruct Hr as (v & -> & Hv); now apply bound_back).
    rewrite into_tuple in H. destruct (is_ellipsis y && _).
    + apply bind_Ok in H as (k' & Hk' & H). injection H as <- <-. apply owned_of in Hk' as (bk & Hk').
      destruct Hr as (m & -> & F). rewrite Forall_forall in F. apply vec_back. intros e He.
      refine (IH x _ k' bk e _ _ _ Hk' (F e He) (solid_in m e Hd He)); auto with datatypes.
    + apply bind_Ok in H as (is & Hi' & H). injection H as <- <-. apply mapM_all in Hi'.
      destruct Hr as (m & -> & F). cbn [Spec_Value.extract give]. assert (El : length is <=? 12 = true) by (rewrite <- (Forall2_len _ _ _ Hi'); exact Hs0).
      rewrite El. cbn [negb]. cbn [solid] in Hd.
      match goal with |- option_map ValTuple ?g = _ => assert (X : g = Some m); [|now rewrite X] end.
      clear El Hs0. revert m F Hd. induction Hi' as [|t i ts is Ei Hi' IHi]; intros m F Hd; destruct m as [|e m]; try easy.
      destruct F as [F1 F2]. destruct Hd as [D1 D2]. apply owned_of in Ei as (bi & Ei). cbn [map].
      rewrite (IH t (or_introl eq_refl) i bi e (Hg t (or_introl eq_refl)) (Hi t (or_introl eq_refl)) (Hs t (or_introl eq_refl)) Ei F1 D1).
      rewrite IHi; [reflexivity|intros z Hz; apply IH; now right|intros; apply Hg; now right|intros; apply Hi; now right|intros; apply Hs; now right|exact F2|exact D2].
  - cbn in H. injection H as <- <-. destruct Hr as (v & -> & Hv). now apply bound_back.
  - cbn [into_rs] in H. destruct (map_type_cases c s o b H) as [[-> ->]|[(rel & -> & ->)|E]].
    + now rewrite Hr.
    + destruct Hr as (v & ->). reflexivity.
    + injection E as -> ->. destruct Hr as (v & -> & Hv). now apply bound_back.
  - destruct t; try (exfalso; exact Ht); try discriminate Hi; cbn in H; injection H as <- <-;
      try (destruct Hr as (v & -> & Hv); now apply bound_back).
    + destruct Hr as (b & ->). reflexivity.
    + destruct Hr as (l & -> & F). now apply bytes_back.
    + destruct Hr as (l & -> & F). now apply bytes_back.
    + destruct Hr as (f & ->). reflexivity.
    + destruct Hr as (z & -> & Hz). change ((if in_i64 z then Some (ValI64 z) else None) = Some (ValI64 z)). now rewrite Hz.
    + destruct Hr as (s & ->). reflexivity.
    + destruct Hr as (s & ->). reflexivity.
Qed.

(** A value of the type of a parameter is one of the type of the result. *)
Lemma borrowed_owned : forall c t o b r, into_rs c t = Ok (o, b) -> typed b r -> typed o r.
Proof.
  intros c t o b r H Hr. destruct t; cbn [into_rs] in H;
    try (injection H as <- <-; exact Hr).
  - destruct (map_type_cases c s o b H) as [[-> ->]|[(rel & -> & ->)|E]]; try exact Hr. injection E as -> ->. exact Hr.
  - apply bind_Ok in H as (i & _ & H). injection H as <- <-. exact Hr.
  - apply bind_Ok in H as (v' & _ & H). destruct (is_hashable t1 && negb (mentions_pyany v')).
    + apply bind_Ok in H as (k' & _ & H). injection H as <- <-. exact Hr.
    + injection H as <- <-. destruct Hr as (l & ->). exists (VDict l). now split.
  - destruct (is_hashable t); [|injection H as <- <-; exact Hr]. apply bind_Ok in H as (i & _ & H). injection H as <- <-. exact Hr.
  - apply bind_Ok in H as (i & _ & H). injection H as <- <-. exact Hr.
  - destruct (is_hashable t); [|injection H as <- <-; exact Hr]. apply bind_Ok in H as (i & _ & H). injection H as <- <-. exact Hr.
  - fold (into_rs c (TTuple l)) in H. destruct l as [|x [|y l]]; try (injection H as <- <-; exact Hr).
    change (into_rs c (TTuple (x :: y :: l)) = Ok (o, b)) in H. rewrite into_tuple in H. destruct (is_ellipsis y && _).
    + apply bind_Ok in H as (i & _ & H). injection H as <- <-. exact Hr.
    + apply bind_Ok in H as (i & _ & H). injection H as <- <-. exact Hr.
Qed.

Lemma set_and_read : forall c t o b p r, good_keys t = true -> no_ip t = true -> small_tuples t = true ->
  into_rs c t = Ok (o, b) -> (p = PrepOptDict -> r <> ValOption None) -> typed b r -> solid r -> extract o (passed p r) = Some r.
Proof.
  intros c t o b p r Hg Hi Hs H Hp Hr Hd. assert (E : passed p r = give r).
  { unfold passed. destruct p; try reflexivity. destruct r; try reflexivity. destruct o0; [reflexivity|]. now destruct (Hp eq_refl). }
  rewrite E. exact (owned_back c t o b r Hg Hi Hs H (borrowed_owned c t o b r H Hr) Hd).
Qed.
End round.

(** ** The accessors that are written *)
From Verif Require Import Model_Ident Model_Text Model_Config Model_World Model_Out Model_Function Model_Property Spec_Call Spec_Prop Proof_Base Proof_Parts Proof_Getter.
Lemma getter_made : forall g scope p t l d n, gen_getter g scope p = Ok (t, l) -> In (GFn d) l -> f_body d = BGet n ->
  exists i ty, path_name (pr_name p) = Ok i /\ n = as_py i /\ into_rs_owned (g_cx g) (pr_ann p) = Ok ty /\ k_ret (f_contract d) = RetType ty /\ prop_disp g p = Ok (f_disp d).
Proof.
  intros g scope p t l d n H Hx Hb. apply getter_shape in H as (i & id & Hn & _ & H). destruct id as [id|]; [|now destruct H as [_ ->]].
  destruct H as (docs & d' & ty & Hd & _ & Hb' & _ & Hty & Hr & _ & Hdd & _ & ->). apply in_app_or in Hx as [Hx|[Hx|[]]].
  - destruct (doc_only _ _ _ Hd _ Hx) as [s E]; discriminate.
  - injection Hx as <-. exists i, ty. rewrite Hb in Hb'. injection Hb' as ->. now repeat split.
Qed.
Lemma getter_alone : forall g scope p t l d n v, gen_getter g scope p = Ok (t, l) -> In (GFn d) l -> f_body d = BSet n v -> False.
Proof.
  intros g scope p t l d n v H Hx Hb. apply getter_shape in H as (i & id & Hn & _ & H). destruct id as [id|]; [|now destruct H as [_ ->]].
  destruct H as (docs & d' & ty & Hd & _ & Hb' & _ & _ & _ & _ & _ & _ & ->). apply in_app_or in Hx as [Hx|[Hx|[]]].
  - destruct (doc_only _ _ _ Hd _ Hx) as [s E]; discriminate.
  - injection Hx as <-. congruence.
Qed.
Lemma setter_made : forall g scope p t l d n v, gen_setter g scope p = Ok (t, l) -> In (GFn d) l -> f_body d = BSet n v ->
  exists i b pr, path_name (pr_name p) = Ok i /\ n = as_py i /\ into_rs_borrowed (g_cx g) (pr_ann p) = Ok b /\ k_params (f_contract d) = [(v, b)] /\
    preprocess_borrowed (g_cx g) (pr_ann p) = Ok pr /\ f_prep d = [(v, pr)] /\ prop_disp g p = Ok (f_disp d).
Proof.
  intros g scope p t l d n v H Hx Hb. unfold gen_setter in H. apply bind_Ok in H as (docs & Hd & H). apply bind_Ok in H as (i & Hn & H). apply bind_Ok in H as (id & _ & H).
  destruct id as [id|]; [|injection H as _ <-; destruct Hx].
  apply bind_Ok in H as (pr & Hpr & H). apply bind_Ok in H as (b & Hty & H). apply bind_Ok in H as (dd & Hdd & H). injection H as _ <-.
  apply in_app_or in Hx as [Hx|[Hx|[]]]; [destruct (doc_only _ _ _ Hd _ Hx) as [s E]; discriminate|]. injection Hx as <-. cbn in Hb. injection Hb as <- <-.
  exists i, b, pr. now repeat split.
Qed.
Lemma accessors_made : forall g scope p impl dg ds n n' v, prop_generate g scope p = Ok impl -> In (GFn dg) (frags_of impl) -> f_body dg = BGet n ->
  In (GFn ds) (frags_of impl) -> f_body ds = BSet n' v ->
  n = n' /\ f_disp dg = f_disp ds /\ exists o b pr, into_rs (g_cx g) (pr_ann p) = Ok (o, b) /\ preprocess_borrowed (g_cx g) (pr_ann p) = Ok pr /\
    k_ret (f_contract dg) = RetType o /\ k_params (f_contract ds) = [(v, b)] /\ f_prep ds = [(v, pr)].
Proof.
  intros g scope p impl dg ds n n' v H Hg Bg Hs Bs. unfold prop_generate in H. apply bind_Ok in H as ([gt gi] & Hgg & H). apply bind_Ok in H as ([st si] & Hss & H).
  assert (K : forall d, In (GFn d) (frags_of impl) -> In (GFn d) gi \/ pr_mutable p = true /\ In (GFn d) si).
  { intros d Hin. destruct (pr_owner p); injection H as <-; cbn [frags_of] in Hin.
    - destruct Hin as [Hin|Hin]; [discriminate|]. apply in_app_or in Hin as [Hin|Hin]; [now left|]. destruct (pr_mutable p); [|destruct Hin]. destruct Hin as [Hin|Hin]; [discriminate|]. now right.
    - apply in_app_or in Hin as [Hin|Hin]; [now left|]. destruct (pr_mutable p); [now right|]. injection Hss as _ <-. destruct Hin. }
  destruct (K ds Hs) as [X|[Em X]]; [destruct (getter_alone _ _ _ _ _ _ _ _ Hgg X Bs)|]. rewrite Em in Hss.
  destruct (K dg Hg) as [Y|[_ Y]]; [|destruct (writer_not _ _ _ _ _ _ _ Hss Y Bg)].
  destruct (getter_made _ _ _ _ _ _ _ Hgg Y Bg) as (i & o & E1 & -> & E2 & E3 & E4).
  destruct (setter_made _ _ _ _ _ _ _ _ Hss X Bs) as (j & b & pr & F1 & -> & F2 & F3 & F4 & F5 & F6).
  assert (i = j) as -> by congruence. split; [reflexivity|]. split; [congruence|]. apply owned_of in E2 as (b' & E2).
  exists o, b, pr. unfold into_rs_borrowed in F2. rewrite E2 in F2. injection F2 as ->. now repeat split.
Qed.
