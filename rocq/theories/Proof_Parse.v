(** * Lemmas: what parsing guarantees *)
From Coq Require Import Permutation.
From Verif Require Import Base Model_Ident Model_Path Model_Import Model_Text Model_Config Model_Type Model_IntoRs Model_World Model_Out
  Model_Function Model_Property Model_Class Model_Module Model_Parse Spec_Path Spec_Names Spec_Call Spec_Items Spec_Tree
  Proof_Base Proof_Ident Proof_Path Proof_IntoRs Proof_Function.

(** ** Loops *)
Lemma each_attr_inv : forall {S} (P : S -> Prop) e o allowed (step : S -> attr -> outcome S),
  forall names st st', (forall st a st' s, In s names -> read_attr e o s = Ok (Some a) -> allowed a = true -> P st -> step st a = Ok st' -> P st') ->
  P st -> each_attr e o allowed step names st = Ok st' -> P st'.
Proof.
  intros S P e o allowed step. induction names as [|s r IH]; intros st st' Hstep Hp H; [now injection H as <-|].
  cbn [each_attr] in H. apply bind_Ok in H as (a & Ha & H). apply bind_Ok in H as (st1 & H1 & H).
  apply (IH st1); [intros; eapply Hstep; eauto; now right| |exact H].
  destruct a as [a|]; [|now injection H1 as <-]. destruct (allowed a) eqn:E; [|now injection H1 as <-].
  now apply (Hstep st a st1 s (or_introl eq_refl)).
Qed.
Lemma sub_steps_inv : forall (P : found * list module -> Prop) x rec o name,
  forall l acc acc', (forall acc i acc', In i l -> P acc -> sub_step x rec o name acc i = Ok acc' -> P acc') ->
  P acc -> sub_steps x rec o name acc l = Ok acc' -> P acc'.
Proof.
  intros P x rec o name. induction l as [|i r IH]; intros acc acc' Hstep Hp H; [now injection H as <-|].
  cbn [sub_steps] in H. apply bind_Ok in H as (a & Ha & H). apply (IH a); [intros; eapply Hstep; eauto; now right| |exact H].
  now apply (Hstep acc i a (or_introl eq_refl)).
Qed.

(** ** Types of items *)
Lemma prop_parse_typed : forall e o name owner p, prop_parse e o name owner = Ok p ->
  pr_name p = name /\ pr_owner p = owner /\ (owner = OwnerModule -> pr_doc p = None /\ pr_setter_doc p = None /\ pr_mutable p = true).
Proof.
  intros e o name owner p H. unfold prop_parse in H. destruct owner.
  - apply bind_Ok in H as (t & _ & H). injection H as <-. auto.
  - apply bind_Ok in H as ([ann doc] & _ & H). apply bind_Ok in H as (s & _ & H). destruct s as [[sann sdoc]|]; injection H as <-; repeat split; discriminate.
Qed.
Lemma fn_parse_typed : forall e o name typ f, fn_parse e o name typ = Ok f -> fn_name f = name /\
  match typ with FMethod _ _ => exists cp k, fn_typ f = FMethod cp k | _ => fn_typ f = typ end.
Proof.
  intros e o name typ f H. destruct (w_signature (e_world e) o) as [sg|] eqn:E.
  - destruct (fn_parse_inv _ _ _ _ _ _ H E) as (ps0 & t1 & ps3 & _ & Ht & _ & Hn & Hf & _). split; [exact Hn|].
    apply infer_storage_shape in Ht. rewrite Hf. clear - Ht.
    set (ps := filter _ ps0). clearbody ps.
    assert (K : match typ with FMethod cp _ => exists k, t1 = FMethod cp k | _ => t1 = typ end).
    { destruct typ as [|cp m|]; [exact Ht| |exact Ht]. destruct m; try (eexists; exact Ht). destruct Ht as (m & -> & _). eauto. }
    destruct typ as [|cp m|].
    + subst t1. unfold infer_self. destruct ps as [|p r]; [reflexivity|]. destruct (first_is_self (p :: r)); [|reflexivity]. destruct (p_kind p); reflexivity.
    + destruct K as [k ->]. unfold infer_self.
      destruct k; try destruct (first_is_self ps); cbn [fst snd fix_empty]; destruct ps; cbn; eauto.
    + subst t1. unfold infer_self. destruct ps as [|p r]; [reflexivity|]. destruct (first_is_self (p :: r)); [|reflexivity]. destruct (p_kind p); reflexivity.
  - unfold fn_parse in H. rewrite E in H. apply bind_Ok in H as (d & _ & H). injection H as <-. cbn. split; [reflexivity|]. destruct typ; eauto.
Qed.
Lemma class_parse_typed : forall e cfg o name c, class_parse e cfg o name = Ok c ->
  cl_name c = name /\ (forall p, In p (cl_props c) -> pr_owner p = OwnerClass) /\
  (forall f, In f (cl_methods c) -> exists cp k, fn_typ f = FMethod cp k).
Proof.
  intros e cfg o name c H. unfold class_parse in H. apply bind_Ok in H as ([ms ps] & H1 & H). apply bind_Ok in H as (doc & _ & H). injection H as <-. cbn.
  split; [reflexivity|]. pattern ps. 
  set (P := fun st : list func * list property => (forall p, In p (snd st) -> pr_owner p = OwnerClass) /\ (forall f, In f (fst st) -> exists cp k, fn_typ f = FMethod cp k)).
  change (P (ms, ps)). refine (each_attr_inv P _ _ _ _ _ _ _ _ _ H1); [|split; intros ? []].
  intros [ms0 ps0] a [ms1 ps1] s _ _ _ [P1 P2] Hs. unfold class_step in Hs. apply bind_Ok in Hs as (v & _ & Hs).
  assert (Km : forall f, fn_parse e (at_obj a) (path_snoc name (at_name a)) (FMethod name (method_kind (at_name a))) = Ok f -> exists cp k, fn_typ f = FMethod cp k).
  { intros f Hf. now apply fn_parse_typed in Hf. }
  destruct v; try (injection Hs as <- <-; split; assumption); apply bind_Ok in Hs as (y & Hy & Hs); injection Hs as <- <-; split; cbn [fst snd]; intros z Hz; auto;
    apply in_app_or in Hz as [Hz|[<-|[]]]; auto; now apply prop_parse_typed in Hy.
Qed.

Definition mod_typed (m : module) : Prop :=
  (forall c, In c (m_classes m) -> forall p, In p (cl_props c) -> pr_owner p = OwnerClass) /\
  (forall p, In p (m_properties m) -> pr_owner p = OwnerModule /\ pr_doc p = None /\ pr_setter_doc p = None) /\
  (forall f, In f (m_functions m) -> fn_typ f = FFunction \/ fn_typ f = FClosure).
Definition found_typed (st : found) : Prop :=
  (forall c, In c (fd_classes st) -> forall p, In p (cl_props c) -> pr_owner p = OwnerClass) /\
  (forall p, In p (fd_properties st) -> pr_owner p = OwnerModule /\ pr_doc p = None /\ pr_setter_doc p = None) /\
  (forall f, In f (fd_functions st) -> fn_typ f = FFunction \/ fn_typ f = FClosure).

Lemma step_typed : forall x name st a st', found_typed st -> module_step x name st a = Ok st' -> found_typed st'.
Proof.
  intros x name [ims cfs cls tvs fns prs sbs] a st' (T1 & T2 & T3) H. cbn [fd_classes fd_properties fd_functions] in *. cbn [module_step] in H.
  apply bind_Ok in H as (v & _ & H). destruct v; try (injection H as <-; now split).
  - apply bind_Ok in H as (i & _ & H). destruct i as [i|]; [|injection H as <-; now split]. destruct (mem_str _ _); injection H as <-; now split.
  - apply bind_Ok in H as (c & Hc & H). injection H as <-. split; [|now split]. intros c' Hin. apply in_app_or in Hin as [Hin|[<-|[]]]; [now apply T1|].
    now apply class_parse_typed in Hc.
  - apply bind_Ok in H as (f & Hf & H). injection H as <-. split; [exact T1|]. split; [exact T2|]. intros f' Hin. apply in_app_or in Hin as [Hin|[<-|[]]]; [now apply T3|].
    left. now apply fn_parse_typed in Hf.
  - apply bind_Ok in H as (f & Hf & H). injection H as <-. split; [exact T1|]. split; [exact T2|]. intros f' Hin. apply in_app_or in Hin as [Hin|[<-|[]]]; [now apply T3|].
    right. now apply fn_parse_typed in Hf.
  - apply bind_Ok in H as (p & Hp & H). injection H as <-. split; [exact T1|]. split; [|exact T3]. intros p' Hin. apply in_app_or in Hin as [Hin|[<-|[]]]; [now apply T2|].
    apply prop_parse_typed in Hp as (_ & Ho & Hd). specialize (Hd eq_refl). tauto.
Qed.
Lemma in_moved : forall {A} (name : A -> path) (p : path) (l : list A) (f : A -> A) y, In y (map f (opt_list (find_path name p l))) -> exists z, In z l /\ y = f z /\ name z = p.
Proof.
  intros A name p l f y H. unfold find_path in H. destruct (find _ l) as [z|] eqn:E; [|easy]. destruct H as [<-|[]]. apply find_some in E as [E1 E2].
  exists z. split; [exact E1|]. split; [reflexivity|]. now apply path_eqb_eq.
Qed.
Lemma retarget_typed : forall c m st, mod_typed m -> found_typed st -> found_typed (retarget c m st).
Proof.
  intros c m st (M1 & M2 & M3) (T1 & T2 & T3). unfold retarget, found_typed. cbn. split; [|split]; intros y Hy; apply in_app_or in Hy as [Hy|Hy]; try solve [now apply T1|now apply T2|now apply T3];
    apply in_moved in Hy as (z & Hz & -> & _); cbn; solve [now apply M1|now apply M2|now apply M3].
Qed.

Lemma mod_parse_ind : forall (P : module -> Prop) x,
  (forall rec o m, (forall o' m', rec o' = Ok m' -> P m') -> mod_parse_body x rec o = Ok m -> P m) ->
  forall fuel o m, mod_parse x fuel o = Ok m -> P m.
Proof.
  intros P x H. induction fuel as [|f IH]; intros o m Hm; [discriminate|]. cbn [mod_parse] in Hm. now apply (H (mod_parse x f) o).
Qed.
(** [P] for what is found, [Q] for the submodules *)
Lemma unique_names_In : forall U l seen s, In s (unique_names U seen l) -> In s l.
Proof.
  induction l as [|y r IH]; intros seen s Hs; [easy|]. cbn [unique_names] in Hs.
  destruct (mem_str _ seen); [right; now apply (IH seen)|]. destruct Hs as [<-|Hs]; [now left|right; now apply (IH (ident_from_py U y :: seen))].
Qed.
Lemma mod_body_inv : forall (P : found -> Prop) (Q : module -> Prop) x rec o m name,
  module_path x o = Ok name ->
  (forall sbs, P (mk_found [] [] [] [] [] [] sbs)) ->
  (forall st a st' s, In s (w_dir (pe_world x) o) -> read_attr (pe_env x) o s = Ok (Some a) -> is_attr_allowed (pe_cfg x) (at_name a) (at_module a) = true ->
     P st -> module_step x name st a = Ok st' -> P st') ->
  (forall st c s k i, P st -> In c (fd_conflicts st) -> im_target c = path_snoc name i -> w_import (pe_world x) (to_py (path_snoc name i)) = Some s -> rec s = Ok k -> P (retarget c k st)) ->
  (forall s k i, find_submodule x o (path_snoc name i) i = Some s -> rec s = Ok k -> Q k) ->
  mod_parse_body x rec o = Ok m ->
  m_name m = name /\ (forall s, In s (m_subs m) -> Q s) /\
  exists st, P st /\ m_imports m = fd_imports st /\ m_classes m = fd_classes st /\ m_typevars m = fd_typevars st /\ m_functions m = fd_functions st /\ m_properties m = fd_properties st.
Proof.
  intros P Q x rec o m name Hn H0 Hstep Hret HQ H. unfold mod_parse_body in H. rewrite Hn in H. cbn [obind] in H.
  apply bind_Ok in H as (pre & _ & H). apply bind_Ok in H as (sbs & _ & H). apply bind_Ok in H as (st & Hst & H).
  apply bind_Ok in H as ([st' subs] & Hsub & H). apply bind_Ok in H as (doc & _ & H). injection H as <-. cbn.
  assert (Pst : P st).
  { refine (each_attr_inv P _ _ _ _ _ _ _ _ (H0 sbs) Hst). intros st0 a st1 s Hs Hr Ha. apply (Hstep st0 a st1 s); auto.
    now apply unique_names_In in Hs. }
  assert (K : P st' /\ forall s, In s subs -> Q s).
  { destruct (traverse_submodules (pe_cfg x)); [|injection Hsub as <- <-; split; [exact Pst|easy]].
    refine (sub_steps_inv (fun acc => P (fst acc) /\ forall s, In s (snd acc) -> Q s) _ _ _ _ _ (st, []) (st', subs) _ (conj Pst (fun s (h : In s []) => match h with end)) Hsub).
    intros [s0 l0] i [s1 l1] _ [P0 Q0] Hi. cbn [fst snd] in *. unfold sub_step in Hi.
    destruct (find_path im_target (path_snoc name i) (fd_conflicts s0)) as [c|] eqn:Ec.
    - destruct (w_import (pe_world x) (to_py (path_snoc name i))) as [s|] eqn:Ei; [|now injection Hi as <- <-].
      destruct (rec s) as [k| | |] eqn:Er; try discriminate; injection Hi as <- <-; [|now split]. split; [|exact Q0].
      unfold find_path in Ec. apply find_some in Ec as [Ec1 Ec2]. apply path_eqb_eq in Ec2. now apply (Hret s0 c s k i).
    - destruct (find_submodule x o (path_snoc name i) i) as [s|] eqn:Es; [|now injection Hi as <- <-].
      apply bind_Ok in Hi as (k & Hk & Hi). injection Hi as <- <-. split; [exact P0|]. intros y Hy. apply in_app_or in Hy as [Hy|[<-|[]]]; [now apply Q0|].
      now apply (HQ s k i). }
  split; [reflexivity|]. split; [apply K|]. exists st'. split; [apply K|]. repeat split.
Qed.

Lemma parsed_typed : forall x fuel o m, mod_parse x fuel o = Ok m -> forall k, within k m -> mod_typed k.
Proof.
  intros x. refine (mod_parse_ind (fun m => forall k, within k m -> mod_typed k) x _). intros rec o m IH H.
  assert (Hn : exists name, module_path x o = Ok name).
  { unfold mod_parse_body in H. apply bind_Ok in H as (name & Hn & _). eauto. }
  destruct Hn as [name Hn].
  destruct (mod_body_inv found_typed (fun s => forall k, within k s -> mod_typed k) x rec o m name Hn) as (_ & Hs & st & (T1 & T2 & T3) & _ & E1 & _ & E2 & E3); auto.
  - intros sbs. repeat split; easy.
  - intros st a st' s _ _ _ Pst Hst. now apply (step_typed x name st a).
  - intros st c s k i Pst _ _ _ Hk. apply retarget_typed; [|exact Pst]. apply (IH s k Hk). constructor.
  - intros s k _ _ Hk. now apply (IH s).
  - intros k Hk. destruct Hk as [|m s Hin Hk]; [|now apply (Hs s)]. unfold mod_typed. rewrite E1, E2, E3. auto.
Qed.
