(** * Proofs about values that arrive as annotated (C61) *)
From Coq Require Import ZArith.
From Verif Require Import Base Model_Path Model_Type Model_IntoRs Spec_Rust Spec_Value Proof_IntoRs Proof_Value Proof_Setget.

(** Different keys of a map become different keys. *)
Lemma key_given : forall c k k' b x y, is_hashable k = true -> bad_key k = false -> into_rs c k = Ok (k', b) ->
  typed k' x -> typed k' y -> key_eq (give x) (give y) -> x = y.
Proof.
  intros c k k' b x y H1 H2 H Hx Hy E. destruct (key_cases k H1 H2) as [-> | [-> | [-> | ->]]]; cbn in H; injection H as <- <-.
  - destruct Hx as (a & ->). destruct Hy as (d & ->). destruct E as [E|(z & E1 & E2)]; [now injection E as ->|].
    cbn in E1, E2. destruct a, d; congruence.
  - destruct Hx as (a & ->). destruct Hy as (d & ->). destruct E as [E|(z & E1 & E2)]; [now injection E as ->|discriminate].
  - destruct Hx as (a & -> & _). destruct Hy as (d & -> & _). destruct E as [E|(z & E1 & E2)]; [now injection E as ->|]. cbn in E1, E2. congruence.
  - destruct Hx as (a & ->). destruct Hy as (d & ->). destruct E as [E|(z & E1 & E2)]; [now injection E as ->|discriminate].
Qed.
Lemma keys_given : forall c k k' b l, is_hashable k = true -> bad_key k = false -> into_rs c k = Ok (k', b) ->
  Forall (typed k') l -> NoDup l -> distinct (map give l).
Proof.
  intros c k k' b l H1 H2 H F N. induction N as [|x l Hn N IH]; [constructor|]. inversion F as [|? ? Fx Fl]; subst. cbn [map]. constructor; [|now apply IH].
  apply Forall_forall. intros v Hv E. apply in_map_iff in Hv as (y & <- & Hy). rewrite Forall_forall in Fl.
  apply Hn. now rewrite (key_given c k k' b x y H1 H2 H Fx (Fl y Hy) E).
Qed.
Ltac one_kind v := intros H; destruct v as [| | | | | | | | | | | | |[]| |]; try discriminate H.
Lemma instance_leaf : forall t v, match t with
  | TSlice => instance_of (u "PySlice") v = true | TComplex => instance_of (u "PyComplex") v = true | TDate => instance_of (u "PyDate") v = true
  | TDateTime => instance_of (u "PyDateTime") v = true | TTime => instance_of (u "PyTime") v = true | TTzInfo => instance_of (u "PyTzInfo") v = true
  | TCapsule => instance_of (u "PyCapsule") v = true | TCFunction => instance_of (u "PyCFunction") v = true | TCode => instance_of (u "PyCode") v = true
  | TFrame => instance_of (u "PyFrame") v = true | TFunction _ _ => instance_of (u "PyFunction") v = true | TModule => instance_of (u "PyModule") v = true
  | TSuper => instance_of (u "PySuper") v = true | TTraceback => instance_of (u "PyTraceback") v = true | TType => instance_of (u "PyType") v = true
  | _ => False end -> conforms t v.
Proof. intros t v. destruct t; try easy; one_kind v; constructor; auto. Qed.

Theorem owned_arrives : forall c t o b r, good_keys t = true -> faithful t = true ->
  into_rs c t = Ok (o, b) -> typed o r -> vouched t r -> conforms t (give r).
Proof.
  intros c t. induction t as [x IH|l IH|k w IHk IHw|x IH|x IH|x IH|l IH|ps ret|s|t Ht] using ptype_ind'; intros o b r Hg Hf H Hr Hv.
  - cbn in H. apply bind_Ok in H as (i & Hi' & H). injection H as <- <-. apply owned_of in Hi' as (bi & Hi').
    change (r = ValOption None \/ exists x, r = ValOption (Some x) /\ typed i x) in Hr. destruct Hr as [->|(y & -> & Hy)]; [constructor|].
    apply co_optional. exact (IH i bi y Hg Hf Hi' Hy Hv).
  - cbn in H. injection H as <- <-. destruct Hr as (v & -> & _). exact Hv.
  - cbn [good_keys faithful] in *. apply andb_prop in Hg as [Hg Hg2]. apply andb_prop in Hg as [Hg0 Hg1]. apply andb_prop in Hf as [Hf1 Hf2].
    cbn [into_rs] in H. apply bind_Ok in H as (w' & Hw' & H). apply owned_of in Hw' as (bw & Hw').
    destruct (is_hashable k && negb (mentions_pyany w')) eqn:E.
    + apply andb_prop in E as [E _]. apply bind_Ok in H as (k' & Hk' & H). injection H as <- <-. apply owned_of in Hk' as (bk & Hk').
      change (exists l, r = ValMap l /\ Forall (fun e => typed k' (fst e)) l /\ Forall (fun e => typed w' (snd e)) l /\ NoDup (map fst l)) in Hr.
      destruct Hr as (l & -> & F1 & F2 & N). cbn [vouched] in Hv. cbn [give]. rewrite Forall_forall in F1, F2, Hv. constructor.
      * rewrite map_map. cbn [fst]. apply Forall_forall. intros v Hx. apply in_map_iff in Hx as (e & <- & He).
        exact (IHk k' bk (fst e) Hg1 Hf1 Hk' (F1 e He) (proj1 (Hv e He))).
      * rewrite map_map. cbn [snd]. apply Forall_forall. intros v Hx. apply in_map_iff in Hx as (e & <- & He).
        exact (IHw w' bw (snd e) Hg2 Hf2 Hw' (F2 e He) (proj2 (Hv e He))).
      * rewrite map_map. cbn [fst]. rewrite <- (map_map fst give). apply negb_true_iff in Hg0. apply (keys_given c k k' bk); try assumption.
        apply Forall_forall. intros x Hx. apply in_map_iff in Hx as (e & <- & He). exact (F1 e He).
    + injection H as <- <-. destruct Hr as (v & -> & _). exact Hv.
  - cbn [faithful] in Hf. apply negb_true_iff in Hf. cbn [into_rs] in H. rewrite Hf in H. injection H as <- <-. destruct Hr as (v & -> & _). exact Hv.
  - cbn [into_rs] in H. apply bind_Ok in H as (k' & Hk' & H). injection H as <- <-. apply owned_of in Hk' as (bk & Hk').
    destruct Hr as (l & -> & F). cbn [vouched] in Hv. rewrite Forall_forall in F, Hv. cbn [give]. constructor. apply Forall_forall. intros v Hx.
    apply in_map_iff in Hx as (e & <- & He). exact (IH k' bk e Hg Hf Hk' (F e He) (Hv e He)).
  - cbn [good_keys] in Hg. apply andb_prop in Hg as [Hg0 Hg1]. apply negb_true_iff in Hg0. cbn [into_rs] in H.
    destruct (is_hashable x) eqn:E; [|injection H as <- <-; destruct Hr as (v & -> & _); exact Hv].
    apply bind_Ok in H as (k' & Hk' & H). injection H as <- <-. apply owned_of in Hk' as (bk & Hk').
    change (exists l, r = ValSet l /\ Forall (typed k') l /\ NoDup l) in Hr. destruct Hr as (l & -> & F & N). cbn [give]. constructor.
    + apply Forall_forall. intros v Hx. apply in_map_iff in Hx as (e & <- & He). rewrite Forall_forall in F.
      refine (IH k' bk e Hg1 Hf Hk' (F e He) _). destruct (key_cases x E Hg0) as [-> | [-> | [-> | ->]]]; exact I.
    + exact (keys_given c x k' bk l E Hg0 Hk' F N).
  - cbn [good_keys faithful] in *. apply andb_prop in Hf as [Hf He]. rewrite forallb_forall in Hg, Hf.
    destruct l as [|x [|y l]]; try (cbn in H; injection H as <- <-; destruct Hr as (v & -> & _); exact Hv).
    assert (Hn : match x :: y :: l with [_; TEllipsis] => False | _ => True end) by (destruct l; [destruct y; try exact I; discriminate He|exact I || (destruct y; exact I)]).
    rewrite into_tuple in H. destruct (is_ellipsis y && match l with [] => true | _ => false end) eqn:Ee.
    { exfalso. apply andb_prop in Ee as [E1 E2]. destruct l; [|discriminate]. destruct y; try discriminate E1. exact Hn. }
    apply bind_Ok in H as (is & Hi' & H). injection H as <- <-. apply mapM_all in Hi'. destruct Hr as (m & -> & F). cbn [give]. apply co_tuple; [exact Hn|].
    change ((fix go (ts : list ptype) (l : list rv) {struct ts} : Prop :=
      match ts, l with t :: ts, r :: l => vouched t r /\ go ts l | _, _ => True end) (x :: y :: l) m) in Hv. clear Hn He Ee. revert m F Hv. induction Hi' as [|t i ts is Ei Hi' IHi]; intros m F Hv; destruct m as [|e m]; try easy; [constructor|].
    destruct F as [F1 F2]. destruct Hv as [V1 V2]. apply owned_of in Ei as (bi & Ei). cbn [map]. constructor.
    + exact (IH t (or_introl eq_refl) i bi e (Hg t (or_introl eq_refl)) (Hf t (or_introl eq_refl)) Ei F1 V1).
    + apply IHi; [intros z Hz; apply IH; now right|intros; apply Hg; now right|intros; apply Hf; now right|exact F2|exact V2].
  - cbn in H. injection H as <- <-. destruct Hr as (v & -> & Hi). exact (instance_leaf (TFunction ps ret) v Hi).
  - constructor.
  - destruct t; try (exfalso; exact Ht); try discriminate Hf; cbn in H; injection H as <- <-; try constructor;
      try (destruct Hr as (v & -> & Hi); first [exact Hv | apply instance_leaf; exact Hi]).
    + destruct Hr as (d & ->). constructor.
    + destruct Hr as (f & ->). constructor.
    + destruct Hr as (z & -> & Hz). now apply (co_int _ z).
    + destruct Hr as (s & ->). constructor.
Qed.
Theorem passed_conforms : forall c t o b p r, good_keys t = true -> faithful t = true ->
  into_rs c t = Ok (o, b) -> preprocess_borrowed c t = Ok p -> typed b r -> vouched t r -> conforms t (passed p r).
Proof.
  intros c t o b p r Hg Hf H Hp Hr Hv. pose proof (owned_arrives c t o b r Hg Hf H (borrowed_owned c t o b r H Hr) Hv) as K.
  unfold passed. destruct p; try exact K. destruct r; try exact K. destruct o0; [exact K|].
  unfold preprocess_borrowed in Hp. destruct t; try discriminate.
  - destruct (map_external c s); [discriminate|]. apply bind_Ok in Hp as (key & _ & Hp). destruct (lt_mem (cx_local c) key); discriminate.
  - destruct t; try discriminate. apply co_optional. constructor; constructor.
  - apply bind_Ok in Hp as (b0 & _ & Hp). destruct b0; discriminate.
  - destruct l as [|? [|? ?]]; discriminate.
Qed.

(** The object stands for the value. *)
Lemma Forall2_given : forall (P : rv -> pyv -> Prop) l, (forall r, In r l -> P r (give r)) -> Forall2 P l (map give l).
Proof. intros P l. induction l as [|r l IH]; intros H; [constructor|]. cbn [map]. constructor; [apply H; now left|]. apply IH. intros; apply H; now right. Qed.

Theorem owned_stands : forall round c t o b r, good_keys t = true -> faithful t = true ->
  into_rs c t = Ok (o, b) -> typed o r -> solid r -> stands round r (give r).
Proof.
  intros round c t. induction t as [x IH|l IH|k w IHk IHw|x IH|x IH|x IH|l IH|ps ret|s|t Ht] using ptype_ind'; intros o b r Hg Hf H Hr Hd.
  - cbn in H. apply bind_Ok in H as (i & Hi' & H). injection H as <- <-. apply owned_of in Hi' as (bi & Hi').
    change (r = ValOption None \/ exists x, r = ValOption (Some x) /\ typed i x) in Hr. destruct Hr as [->|(y & -> & Hy)]; [constructor|].
    destruct Hd as [D1 D2]. apply st_some; [exact D1|]. exact (IH i bi y Hg Hf Hi' Hy D2).
  - cbn in H. injection H as <- <-. destruct Hr as (v & -> & _). constructor.
  - cbn [good_keys faithful] in *. apply andb_prop in Hg as [Hg Hg2]. apply andb_prop in Hg as [Hg0 Hg1]. apply andb_prop in Hf as [Hf1 Hf2].
    cbn [into_rs] in H. apply bind_Ok in H as (w' & Hw' & H). apply owned_of in Hw' as (bw & Hw').
    destruct (is_hashable k && negb (mentions_pyany w')) eqn:E; [|injection H as <- <-; destruct Hr as (v & -> & _); constructor].
    apply bind_Ok in H as (k' & Hk' & H). injection H as <- <-. apply owned_of in Hk' as (bk & Hk').
    change (exists l, r = ValMap l /\ Forall (fun e => typed k' (fst e)) l /\ Forall (fun e => typed w' (snd e)) l /\ NoDup (map fst l)) in Hr.
    destruct Hr as (l & -> & F1 & F2 & N). cbn [give]. rewrite Forall_forall in F1, F2. constructor; [| |exact N]; rewrite map_map; cbn [fst snd].
    + rewrite <- (map_map fst give). apply Forall2_given. intros x Hx. apply in_map_iff in Hx as (e & <- & He).
      exact (IHk k' bk (fst e) Hg1 Hf1 Hk' (F1 e He) (proj1 (solid_entry l e Hd He))).
    + rewrite <- (map_map snd give). apply Forall2_given. intros x Hx. apply in_map_iff in Hx as (e & <- & He).
      exact (IHw w' bw (snd e) Hg2 Hf2 Hw' (F2 e He) (proj2 (solid_entry l e Hd He))).
  - cbn [faithful] in Hf. apply negb_true_iff in Hf. cbn [into_rs] in H. rewrite Hf in H. injection H as <- <-. destruct Hr as (v & -> & _). constructor.
  - cbn [into_rs] in H. apply bind_Ok in H as (k' & Hk' & H). injection H as <- <-. apply owned_of in Hk' as (bk & Hk').
    destruct Hr as (l & -> & F). rewrite Forall_forall in F. cbn [give]. apply st_list. apply Forall2_given. intros e He.
    exact (IH k' bk e Hg Hf Hk' (F e He) (solid_in l e Hd He)).
  - cbn [good_keys] in Hg. apply andb_prop in Hg as [Hg0 Hg1]. cbn [into_rs] in H.
    destruct (is_hashable x) eqn:E; [|injection H as <- <-; destruct Hr as (v & -> & _); constructor].
    apply bind_Ok in H as (k' & Hk' & H). injection H as <- <-. apply owned_of in Hk' as (bk & Hk').
    change (exists l, r = ValSet l /\ Forall (typed k') l /\ NoDup l) in Hr. destruct Hr as (l & -> & F & N). cbn [give]. apply st_set; [|exact N].
    rewrite Forall_forall in F. apply Forall2_given. intros e He. exact (IH k' bk e Hg1 Hf Hk' (F e He) (solid_in l e Hd He)).
  - cbn [good_keys faithful] in *. apply andb_prop in Hf as [Hf He]. rewrite forallb_forall in Hg, Hf.
    destruct l as [|x [|y l]]; try (cbn in H; injection H as <- <-; destruct Hr as (v & -> & _); constructor).
    rewrite into_tuple in H. destruct (is_ellipsis y && match l with [] => true | _ => false end) eqn:Ee.
    { exfalso. apply andb_prop in Ee as [E1 E2]. destruct l; [|discriminate]. destruct y; try discriminate E1. discriminate He. }
    apply bind_Ok in H as (is & Hi' & H). injection H as <- <-. apply mapM_all in Hi'. destruct Hr as (m & -> & F). cbn [give]. apply st_tuple.
    cbn [solid] in Hd. clear He Ee. revert m F Hd. induction Hi' as [|t i ts is Ei Hi' IHi]; intros m F Hd; destruct m as [|e m]; try easy; [constructor|].
    destruct F as [F1 F2]. destruct Hd as [V1 V2]. apply owned_of in Ei as (bi & Ei). cbn [map]. constructor.
    + exact (IH t (or_introl eq_refl) i bi e (Hg t (or_introl eq_refl)) (Hf t (or_introl eq_refl)) Ei F1 V1).
    + apply IHi; [intros z Hz; apply IH; now right|intros; apply Hg; now right|intros; apply Hf; now right|exact F2|exact V2].
  - cbn in H. injection H as <- <-. destruct Hr as (v & -> & _). constructor.
  - cbn [into_rs] in H. destruct (map_type_cases c s o b H) as [[-> ->]|[(rel & -> & ->)|E]].
    + rewrite Hr. constructor.
    + destruct Hr as (v & ->). constructor.
    + injection E as -> ->. destruct Hr as (v & -> & _). constructor.
  - destruct t; try (exfalso; exact Ht); try discriminate Hf; cbn in H; injection H as <- <-;
      try (destruct Hr as (v & -> & _); constructor).
    + destruct Hr as (d & ->). constructor.
    + destruct Hr as (f & ->). constructor.
    + reflexivity.
    + destruct Hr as (s & ->). constructor.
Qed.
Theorem passed_stands : forall round c t o b p r, good_keys t = true -> faithful t = true ->
  into_rs c t = Ok (o, b) -> (p = PrepOptDict -> r <> ValOption None) -> typed b r -> solid r -> stands round r (passed p r).
Proof.
  intros round c t o b p r Hg Hf H Hp Hr Hd. assert (E : passed p r = give r).
  { unfold passed. destruct p; try reflexivity. destruct r; try reflexivity. destruct o0; [reflexivity|]. now destruct (Hp eq_refl). }
  rewrite E. exact (owned_stands round c t o b r Hg Hf H (borrowed_owned c t o b r H Hr) Hd).
Qed.

(** ** The parameters of a function *)
From Verif Require Import Model_Ident Model_Text Model_Config Model_World Model_Out Model_Function Spec_Path Spec_Names Spec_Call Proof_Base Proof_Ident Proof_Honest Proof_Call Proof_Function.
Definition selfish (p : param) : bool := str_eqb (as_rs (p_name p)) r_self.
Lemma read_param_inv : forall e sp p, read_param e sp = Ok p -> p_name p = ident_from_py (e_uni e) (sp_name sp) /\ pkind_of_u8 (sp_kind sp) = Ok (p_kind p) /\
  match p_kind p with VarPositional => p_ann p = ann_args | VarKeyword => p_ann p = ann_kwargs | _ => read_ann (e_dbg e) (sp_ann sp) = Ok (p_ann p) end.
Proof.
  intros e sp p H. unfold read_param in H. apply bind_Ok in H as (n & Hn & H). apply bind_Ok in H as (k & Hk & H). apply bind_Ok in H as (a & Ha & H). injection H as <-.
  cbn [p_name p_kind p_ann]. split; [exact (chk_ident _ _ _ _ Hn)|]. split; [exact Hk|]. destruct k; try exact Ha; congruence.
Qed.
Lemma tl_filter : forall {A} (P : A -> bool) l x, In x (tl (filter P l)) -> In x (tl l).
Proof.
  intros A P [|a l] x H; [destruct H|]. cbn [filter] in H. cbn [tl]. destruct (P a); [cbn [tl] in H; now apply filter_In in H|].
  destruct (filter P l) as [|b r] eqn:E; [destruct H|]. assert (In x (filter P l)) by (rewrite E; now right). now apply filter_In in H0.
Qed.
Lemma mapM_tl : forall {A B} (f : A -> outcome B) l r y, mapM f l = Ok r -> In y (tl r) -> exists x, In x (tl l) /\ f x = Ok y.
Proof.
  intros A B f [|a l] r y H Hy; [injection H as <-; destruct Hy|]. cbn [mapM] in H. apply bind_Ok in H as (b & _ & H). apply bind_Ok in H as (r' & Hr & H). injection H as <-.
  exact (mapM_In f l r' y Hr Hy).
Qed.
Lemma no_selfish : forall l, (forall p, In p l -> selfish p = false) -> guard_self l = l.
Proof.
  intros l H. apply guard_self_no. induction l as [|p l IH]; [reflexivity|]. cbn [existsb]. assert (E := H p (or_introl eq_refl)). unfold selfish in E. rewrite E.
  apply IH. intros; apply H; now right.
Qed.
Lemma param_source : forall e o name typ sg f, uni_ok (e_uni e) -> fn_parse e o name typ = Ok f -> w_signature (e_world e) o = Some sg ->
  (forall sp, In sp (sig_params sg) -> py_identifier (e_uni e) (sp_name sp)) ->
  (forall sp, In sp (tl (sig_params sg)) -> sp_name sp <> u "self") ->
  (forall sp, In sp (sig_params sg) -> sp_name sp = u "self" -> sp_kind sp = 0%N \/ sp_kind sp = 1%N) ->
  forall p, In p (fn_params f) -> (exists sp, In sp (sig_params sg) /\ read_param e sp = Ok p) \/ p_name p = u "__unknown_self__" /\ p_ann p = TUnknown.
Proof.
  intros e o name typ sg f HU H Hs Hn Ht Hk p Hp.
  destruct (fn_parse_inv e o name typ sg f H Hs) as (ps0 & t1 & ps3 & Hm & _ & Hdr & _ & _ & Hpar & _). rewrite Hpar in Hp.
  set (ps1 := filter (fun p => negb (str_eqb (as_rs (p_name p)) r_underscore)) ps0) in *.
  assert (S1 : forall q, In q ps1 -> exists sp, In sp (sig_params sg) /\ read_param e sp = Ok q).
  { intros q Hq. apply filter_In in Hq as [Hq _]. exact (mapM_In _ _ _ _ Hm Hq). }
  assert (S2 : forall q, In q (tl ps1) -> selfish q = false).
  { intros q Hq. apply tl_filter in Hq. destruct (mapM_tl _ _ _ _ Hm Hq) as (sp & Hsp & Er). destruct (read_param_inv _ _ _ Er) as (En & _).
    unfold selfish. assert (Hin : In sp (sig_params sg)) by (destruct (sig_params sg); [destruct Hsp|now right]).
    rewrite En, from_py_self by (try exact HU; exact (Hn sp Hin)).
    destruct (str_eqb (sp_name sp) (u "self")) eqn:E; [|reflexivity]. apply str_eqb_eq in E. destruct (Ht sp Hsp E). }
  assert (S3 : forall q, In q ps1 -> selfish q = true -> p_kind q = PositionalOnly \/ p_kind q = PositionalOrKeyword).
  { intros q Hq Eq. destruct (S1 q Hq) as (sp & Hsp & Er). destruct (read_param_inv _ _ _ Er) as (En & Ek & _). unfold selfish in Eq.
    rewrite En, from_py_self in Eq by (try exact HU; exact (Hn sp Hsp)). apply str_eqb_eq in Eq. destruct (Hk sp Hsp Eq) as [E|E]; rewrite E in Ek; cbn in Ek; injection Ek as <-; auto. }
  clearbody ps1.
  assert (S4 : first_is_self ps1 = false -> forall q, In q ps1 -> selfish q = false).
  { intros E q Hq. destruct ps1 as [|x r]; [destruct Hq|]. destruct Hq as [<-|Hq]; [exact E|exact (S2 q Hq)]. }
  assert (K : (ps3 = tl ps1 \/ first_is_self ps1 = false /\ ps3 = ps1) \/
              exists q, ps3 = q :: tl ps1 /\ p_name q = u "__unknown_self__" /\ p_ann q = TUnknown).
  { clear Hp Hpar. assert (D : forall cp m, drop_receiver (fix_empty name (FMethod cp m) ps1) ps1 = Ok ps3 -> has_receiver (FMethod cp m) = true -> ps3 = tl ps1).
    { intros cp m E R. destruct m; try discriminate R; (destruct ps1; cbn in E; [try discriminate E; now injection E|now injection E]). }
    assert (D' : forall cp m, drop_receiver (fix_empty name (FMethod cp m) ps1) ps1 = Ok ps3 -> has_receiver (FMethod cp m) = false -> ps3 = ps1).
    { intros cp m E R. destruct m; try discriminate R; cbn in E; congruence. }
    assert (F : forall t, t = FFunction \/ t = FClosure -> drop_receiver (fix_empty name (fst (infer_self t ps1)) (snd (infer_self t ps1))) (snd (infer_self t ps1)) = Ok ps3 ->
      (ps3 = tl ps1 \/ first_is_self ps1 = false /\ ps3 = ps1) \/ exists q, ps3 = q :: tl ps1 /\ p_name q = u "__unknown_self__" /\ p_ann q = TUnknown).
    { intros t Et E. destruct (first_is_self ps1) eqn:Ef.
      - destruct ps1 as [|q r]; [discriminate|]. right. assert (X := S3 q (or_introl eq_refl) Ef).
        destruct Et as [-> | ->]; cbn [infer_self] in E; rewrite Ef in E; (destruct X as [X|X]; rewrite X in E; cbn in E; injection E as <-; eexists; (split; [reflexivity|now split])).
      - left. right. split; [reflexivity|]. destruct Et as [-> | ->]; cbn [infer_self] in E; rewrite Ef in E; destruct ps1; cbn in E; congruence. }
    destruct t1 as [|cp m|]; [exact (F _ (or_introl eq_refl) Hdr)| |exact (F _ (or_intror eq_refl) Hdr)]. left. cbn [infer_self] in Hdr.
    destruct (has_receiver (FMethod cp m)) eqn:R; [left; destruct m; try discriminate R; exact (D _ _ Hdr R)|].
    destruct (first_is_self ps1) eqn:Ef.
    - left. destruct m; try discriminate R; cbn [fst snd] in Hdr; exact (D _ _ Hdr eq_refl).
    - right. split; [reflexivity|]. destruct m; try discriminate R; cbn [fst snd] in Hdr; exact (D' _ _ Hdr eq_refl). }
  destruct K as [[->|[Ef ->]]|(q & -> & Eq & Ea)].
  - rewrite no_selfish in Hp by exact S2. left. apply S1. destruct ps1; [destruct Hp|now right].
  - rewrite no_selfish in Hp by exact (S4 Ef). left. now apply S1.
  - rewrite no_selfish in Hp.
    2:{ intros x [<-|Hx]; [unfold selfish; rewrite Eq; reflexivity|exact (S2 x Hx)]. }
    destruct Hp as [<-|Hp]; [now right|]. left. apply S1. destruct ps1; [destruct Hp|now right].
Qed.
Lemma combined : forall {A B C D} (h : A -> C) (f : A -> outcome B) (g : A -> outcome D) l bs ds x b, mapM f l = Ok bs -> mapM g l = Ok ds -> In (x, b) (combine (map h l) bs) ->
  exists a d, In a l /\ x = h a /\ f a = Ok b /\ g a = Ok d /\ In (x, d) (combine (map h l) ds).
Proof.
  intros A B C D h f g l. induction l as [|a l IH]; intros bs ds x b Hb Hd H; [destruct H|]. cbn [mapM] in Hb, Hd.
  apply bind_Ok in Hb as (b0 & Eb & Hb). apply bind_Ok in Hb as (bs0 & Ebs & Hb). injection Hb as <-.
  apply bind_Ok in Hd as (d0 & Ed & Hd). apply bind_Ok in Hd as (ds0 & Eds & Hd). injection Hd as <-. cbn [map combine] in *. destruct H as [H|H].
  - injection H as <- <-. exists a, d0. repeat split; auto; now left.
  - destruct (IH bs0 ds0 x b Ebs Eds H) as (a' & d & H1 & H2 & H3 & H4 & H5). exists a', d. repeat split; auto; now right.
Qed.
Lemma function_param : forall g scope f impl d x b, fn_generate g scope f = Ok impl -> In (GFn d) (frags_of impl) -> In (x, b) (k_params (f_contract d)) ->
  exists p pr o, In p (fn_params f) /\ x = u "p_" ++ as_py (p_name p) /\ into_rs (g_cx g) (p_ann p) = Ok (o, b) /\ preprocess_borrowed (g_cx g) (p_ann p) = Ok pr /\ In (x, pr) (f_prep d).
Proof.
  intros g scope f impl d x b H Hin Hx.
  destruct (fn_generate_inv _ _ _ _ _ H Hin) as (name & id & preps & tys & rt & public & dd & pos & kw & _ & _ & Hpreps & Htys & _ & _ & Hk & _ & _ & _ & _ & Hprep & _).
  apply contract_params in Hk. rewrite Hk in Hx. destruct (combined pid _ _ _ _ _ _ _ Htys Hpreps Hx) as (p & pr & H1 & H2 & H3 & H4 & H5).
  unfold into_rs_borrowed, omap in H3. apply bind_Ok in H3 as ([o b'] & H3 & E). injection E as <-. exists p, pr, o. rewrite Hprep. now repeat split.
Qed.
