(** * Lemmas: parsing terminates (C55) *)
From Coq Require Import Permutation.
From Verif Require Import Base Model_Ident Model_Path Model_Import Model_Text Model_Config Model_Type Model_IntoRs Model_World Model_Out
  Model_Function Model_Property Model_Class Model_Module Model_Parse Model_Codegen Spec_Path Spec_Names Spec_Call Spec_Items Spec_Tree Spec_Api Spec_Safe Spec_Out Spec_Privacy Spec_Prop Spec_Attr Spec_Term
  Proof_Base Proof_Ident Proof_Path Proof_Text Proof_Type Proof_IntoRs Proof_Call Proof_Function Proof_Fresh Proof_Method Proof_Kind Proof_Items Proof_Module
  Proof_Parse Proof_Forest Proof_Err Proof_Api Proof_Honest Proof_Calm Proof_Rooted Proof_Parts Proof_Property Proof_Scope Proof_Deps Proof_Attr Proof_Shown.

(** ** Everything but the recursive calls *)
Definition halts {A} (m : outcome A) : Prop := m <> OutOfFuel.
Lemma ht_ok : forall {A} (a : A), halts (Ok a).
Proof. discriminate. Qed.
Lemma ht_panic : forall {A} k, halts (@Panic A k).
Proof. discriminate. Qed.
Lemma ht_err : forall {A} e, halts (@Err A e).
Proof. discriminate. Qed.
Lemma ht_bind : forall {A B} (m : outcome A) (f : A -> outcome B), halts m -> (forall a, halts (f a)) -> halts (obind m f).
Proof. intros A B [a|k|k|] f Hm Hf; cbn; [apply Hf|discriminate|discriminate|now destruct Hm]. Qed.
Lemma ht_omap : forall {A B} (f : A -> B) (m : outcome A), halts m -> halts (omap f m).
Proof. intros A B f m H. apply ht_bind; [exact H|]. intros. apply ht_ok. Qed.
Lemma ht_mapM : forall {A B} (f : A -> outcome B) l, (forall a, halts (f a)) -> halts (mapM f l).
Proof. intros A B f l H. induction l as [|a l IH]; [apply ht_ok|]. cbn. apply ht_bind; [apply H|]. intros. apply ht_bind; [exact IH|]. intros. apply ht_ok. Qed.
Lemma ht_filterM : forall {A} (f : A -> outcome bool) l, (forall a, halts (f a)) -> halts (filterM f l).
Proof. intros A f l H. induction l as [|a l IH]; [apply ht_ok|]. cbn. apply ht_bind; [apply H|]. intros. apply ht_bind; [exact IH|]. intros. apply ht_ok. Qed.
Lemma ht_unwrap : forall {A} k (o : option A), halts (unwrap k o).
Proof. intros A k [a|]; [apply ht_ok|apply ht_panic]. Qed.

Create HintDb ht.
#[local] Hint Resolve ht_ok ht_panic ht_err ht_unwrap : ht.
Ltac ht_step :=
  match goal with
  | |- halts (Ok _) => apply ht_ok
  | |- halts (Panic _) => apply ht_panic
  | |- halts (Err _) => apply ht_err
  | |- halts (obind _ _) => apply ht_bind; [|intros]
  | |- halts (omap _ _) => apply ht_omap
  | |- halts (mapM _ _) => apply ht_mapM; intros
  | |- halts (filterM _ _) => apply ht_filterM; intros
  | |- halts (unwrap _ _) => apply ht_unwrap
  | |- halts (let '(_, _) := ?p in _) => destruct p
  | |- halts (match ?d with _ => _ end) => destruct d
  | |- halts (if ?d then _ else _) => destruct d
  end.
Ltac ht := repeat (ht_step || solve [eauto with ht]).

Lemma ht_ident : forall dbg U s, halts (ident_from_py_chk dbg U s).
Proof. intros. unfold ident_from_py_chk. ht. Qed.
#[local] Hint Resolve ht_ident : ht.
Lemma ht_path : forall dbg U s, halts (path_from_py_chk dbg U s).
Proof. intros. unfold path_from_py_chk. ht. Qed.
#[local] Hint Resolve ht_path : ht.

Lemma nobad_halts : forall {A} (m : outcome A), nobad m -> halts m.
Proof. intros A m [H _]. exact H. Qed.
Lemma ht_read_ann : forall dbg a, halts (read_ann dbg a).
Proof. intros dbg [a|]; [|apply ht_ok]. apply nobad_halts, from_ann_nobad. Qed.
#[local] Hint Resolve ht_read_ann : ht.

(** ** Parsing *)
Lemma ht_doc : forall w o, halts (read_docstring w o).
Proof. intros. unfold read_docstring. ht. Qed.
#[local] Hint Resolve ht_doc : ht.
Lemma ht_kind : forall k, halts (pkind_of_u8 k).
Proof. intros. unfold pkind_of_u8. ht. Qed.
#[local] Hint Resolve ht_kind : ht.
Lemma ht_param : forall e s, halts (read_param e s).
Proof. intros. unfold read_param. ht. Qed.
#[local] Hint Resolve ht_param : ht.
Lemma ht_path_name : forall p, halts (path_name p).
Proof. intros. unfold path_name. ht. Qed.
#[local] Hint Resolve ht_path_name : ht.
Lemma ht_storage : forall w n t, halts (infer_storage w n t).
Proof. intros. unfold infer_storage. ht. Qed.
#[local] Hint Resolve ht_storage : ht.
Lemma ht_receiver : forall t l, halts (drop_receiver t l).
Proof. intros. unfold drop_receiver. ht. Qed.
#[local] Hint Resolve ht_receiver : ht.
Lemma ht_fn_parse : forall e o n t, halts (fn_parse e o n t).
Proof. intros. unfold fn_parse. ht. Qed.
#[local] Hint Resolve ht_fn_parse : ht.
Lemma ht_type_of : forall e o, halts (type_of e o).
Proof. intros. apply nobad_halts, from_class_nobad. Qed.
#[local] Hint Resolve ht_type_of : ht.
Lemma ht_prop_parse : forall e o n w, halts (prop_parse e o n w).
Proof. intros. unfold prop_parse, read_getter, read_setter. ht. Qed.
#[local] Hint Resolve ht_prop_parse : ht.
Lemma ht_determine : forall e o a b c, halts (determine e o a b c).
Proof. intros. unfold determine. ht. Qed.
#[local] Hint Resolve ht_determine : ht.
Lemma ht_module_of : forall e o, halts (module_of e o).
Proof. intros. unfold module_of. ht. Qed.
#[local] Hint Resolve ht_module_of : ht.
Lemma ht_read_attr : forall e o s, halts (read_attr e o s).
Proof. intros. unfold read_attr. ht. Qed.
#[local] Hint Resolve ht_read_attr : ht.
Lemma ht_each : forall S e o al (step : S -> attr -> outcome S) l st, (forall s a, halts (step s a)) -> halts (each_attr e o al step l st).
Proof.
  intros S e o al step l. induction l as [|n l IH]; intros st H; [apply ht_ok|]. cbn [each_attr]. ht.
Qed.
Lemma ht_class_step : forall e n st a, halts (class_step e n st a).
Proof. intros. unfold class_step. ht. Qed.
Lemma ht_class_parse : forall e c o n, halts (class_parse e c o n).
Proof. intros. unfold class_parse. apply ht_bind; [apply ht_each; intros; apply ht_class_step|intros [ms ps]; ht]. Qed.
#[local] Hint Resolve ht_class_parse : ht.
Lemma ht_module_path : forall x o, halts (module_path x o).
Proof. intros. unfold module_path. ht. Qed.
#[local] Hint Resolve ht_module_path : ht.
Lemma ht_join : forall a b, halts (path_join a b).
Proof. intros. unfold path_join. ht. Qed.
#[local] Hint Resolve ht_join : ht.
Lemma ht_read_import : forall x a p, halts (read_import x a p).
Proof. intros. unfold read_import, import_origin, import_new, import_type_from_paths. ht. Qed.
#[local] Hint Resolve ht_read_import : ht.
Lemma ht_module_step : forall x n st a, halts (module_step x n st a).
Proof. intros x n [a1 a2 a3 a4 a5 a6 a7] a. unfold module_step. ht. Qed.
Lemma ht_prelude : forall x o n, halts (extract_prelude x o n).
Proof. intros. unfold extract_prelude, is_reexported. ht. Qed.
#[local] Hint Resolve ht_prelude : ht.
Lemma ht_submodules : forall x o, halts (extract_submodules x o).
Proof. intros. unfold extract_submodules. ht. Qed.
#[local] Hint Resolve ht_submodules : ht.

(** ** The submodules *)
Section body.
  Variable x : penv.
  Let U := pe_uni x.
  Let w := pe_world x.
  Hypothesis Ho : order_ok (pe_ord x).

  Lemma step_conflicts : forall name st a st', module_step x name st a = Ok st' ->
    forall i, In i (fd_conflicts st') -> In i (fd_conflicts st) \/ im_target i = path_snoc name (at_name a).
  Proof.
    intros name [ims cfs cls tvs fns prs sbs] a st' H i Hi. cbn [module_step] in H. apply bind_Ok in H as (v & Hv & H). cbn [fd_conflicts].
    destruct v; [|left; first [now injection H as <-|apply bind_Ok in H as (c & _ & H); now injection H as <-]..].
    apply bind_Ok in H as (j & Hj & H). destruct j as [j|]; [|left; now injection H as <-].
      destruct (mem_str _ _); injection H as <-; cbn [fd_conflicts] in Hi; [|now left].
      apply in_app_or in Hi as [Hi|[<-|[]]]; [now left|right]. unfold read_import in Hj. apply bind_Ok in Hj as (o & _ & Hj).
      destruct (path_eqb _ _); [discriminate|]. destruct (negb _); [discriminate|]. unfold import_new in Hj.
      destruct (import_type_from_paths _ _); [|discriminate..]. cbn in Hj. injection Hj as <-. reflexivity.
  Qed.

  Definition entered (o : oid) (i : ident) : Prop := exists s, i = ident_from_py U s /\ sub_named U w o s.
  Lemma attrs_entered : forall o sbs st, (match w_getattr w o (u "__path__") with Some _ => extract_submodules x o | None => Ok [] end) = Ok sbs ->
    each_attr (pe_env x) o (fun a => is_attr_allowed (pe_cfg x) (at_name a) (at_module a)) (module_step x (path_from_py U (w_name w o)))
      (unique_names (pe_uni x) [] (w_dir w o)) (mk_found [] [] [] [] [] [] sbs) = Ok st ->
    (forall i, In i (fd_subs st) -> entered o i) /\ incl sbs (fd_subs st) /\
    forall i, In i (fd_conflicts st) -> exists s, In s (w_dir w o) /\ im_target i = path_snoc (path_from_py U (w_name w o)) (ident_from_py U s).
  Proof.
    intros o sbs st Hsbs Hst.
    refine (each_attr_inv (fun st => (forall i, In i (fd_subs st) -> entered o i) /\ incl sbs (fd_subs st) /\
      forall i, In i (fd_conflicts st) -> exists s, In s (w_dir w o) /\ im_target i = path_snoc (path_from_py U (w_name w o)) (ident_from_py U s)) _ _ _ _ _ _ _ _ _ Hst).
    - intros st0 a st1 s Hs Hr Ha (P1 & P2 & P3) Hstep. apply unique_names_In in Hs.
      unfold read_attr in Hr. apply bind_Ok in Hr as (nm & Hnm & Hr). apply chk_ident in Hnm. change (e_uni (pe_env x)) with U in Hnm.
      destruct (w_getattr _ o (as_py nm)) as [a0|] eqn:Eg; [|discriminate]. apply bind_Ok in Hr as (md & Hmd & Hr). injection Hr as <-.
      apply chk_path in Hmd. change (e_uni (pe_env x)) with U in Hmd. change (e_world (pe_env x)) with w in Hmd, Eg.
      split; [|split].
      + pose proof (step_subs _ _ _ _ _ Hstep) as [E|(E & T1 & T2)]; rewrite E; [exact P1|]. cbn [at_name at_obj at_module] in *.
        intros i Hi. apply insert_In in Hi as [Hi| ->]; [now apply P1|]. exists s. split; [exact Hnm|]. right. split; [exact Hs|].
        exists a0. split; [now rewrite <- Hnm|]. split; [exact T1|]. destruct T2 as [T2|T2]; [now left|right]. now rewrite <- T2, Hmd.
      + pose proof (step_subs _ _ _ _ _ Hstep) as [E|(E & _ & _)]; rewrite E; [exact P2|]. intros i Hi. apply insert_In. left. now apply P2.
      + intros i Hi. apply (step_conflicts _ _ _ _ Hstep) in Hi as [Hi|Hi]; [now apply P3|]. cbn [at_name] in Hi. exists s. split; [exact Hs|]. now rewrite Hi, Hnm.
    - cbn [fd_subs fd_conflicts]. split; [|easy]. intros i Hi. destruct (w_getattr w o _); [|injection Hsbs as <-; easy].
      unfold extract_submodules in Hsbs. apply bind_Ok in Hsbs as (name & _ & Hsbs). apply bind_Ok in Hsbs as (ids & Hids & Hsbs). injection Hsbs as <-.
      destruct (insert_fold (filter (fun i => is_attr_allowed (pe_cfg x) i name) ids) [] (NoDup_nil _)) as [_ B]. apply B in Hi as [[]|Hi].
      apply filter_In in Hi as [Hi _]. destruct (mapM_In _ _ _ _ Hids Hi) as (s & Hs & E). apply chk_ident in E. exists s. split; [exact E|now left].
  Qed.

  Lemma ht_sub_steps : forall rec o l acc, (forall s, enters U w o s -> halts (rec s)) -> (forall i, In i l -> entered o i) ->
    halts (sub_steps x rec o (path_from_py U (w_name w o)) acc l).
  Proof.
    intros rec o. induction l as [|i l IH]; intros acc H Hl; [apply ht_ok|]. cbn [sub_steps].
    apply ht_bind; [|intros; apply IH; [exact H|intros; apply Hl; now right]].
    destruct (Hl i (or_introl eq_refl)) as (n & -> & Hn). destruct acc as [st subs]. unfold sub_step, find_submodule. fold w.
    destruct (find_path _ _ _) as [c|].
    - destruct (w_import w _) as [s|] eqn:E; [|apply ht_ok].
      assert (K : halts (rec s)) by (apply H; exists n; split; [exact Hn|left; exact E]).
      destruct (rec s); [apply ht_ok|apply ht_ok|apply ht_panic|now destruct K].
    - destruct (w_import w _) as [s|] eqn:E.
      + apply ht_bind; [|intros; apply ht_ok]. apply H. exists n. split; [exact Hn|left; exact E].
      + destruct (w_getattr w o _) as [a|] eqn:Eg; [|apply ht_ok]. destruct (tf_is_module _) eqn:Em; [|apply ht_ok].
        apply ht_bind; [|intros; apply ht_ok]. apply H. exists n. split; [exact Hn|right]. now split.
  Qed.
  Lemma ht_body : forall rec o, (forall s, enters U w o s -> halts (rec s)) -> halts (mod_parse_body x rec o).
  Proof.
    intros rec o H. unfold mod_parse_body.
    destruct (module_path x o) as [name|e|k|] eqn:En; try discriminate; [|now destruct (ht_module_path x o)].
    cbn [obind]. apply ht_bind; [ht|]. intros pre.
    destruct (if match w_getattr (pe_world x) o (u "__path__") with Some _ => true | None => false end then extract_submodules x o else Ok []) as [sbs|e|k|] eqn:Es;
      [|discriminate..|].
    2:{ destruct (w_getattr (pe_world x) o (u "__path__")); [now destruct (ht_submodules x o)|discriminate]. }
    cbn [obind]. apply chk_path in En. fold U w in En. subst name.
    destruct (each_attr _ _ _ _ _ _) as [st|e|k|] eqn:Ea; [|discriminate..|].
    2:{ exfalso. refine (ht_each _ _ _ _ _ _ _ _ Ea). intros. apply ht_module_step. }
    cbn [obind]. apply ht_bind; [|intros [st1 subs]; ht].
    destruct (traverse_submodules _); [|apply ht_ok]. apply ht_sub_steps; [exact H|].
    destruct (attrs_entered o sbs st) as (A & _ & _); [|exact Ea|].
    - fold w in Es. destruct (w_getattr w o (u "__path__")); exact Es.
    - intros i Hi. apply A. apply (Permutation_in _ (Ho _ _)) in Hi. exact Hi.
  Qed.

  (** ** More fuel *)
  Lemma le_sub_steps : forall rec rec' o name, (forall s, le_out (rec s) (rec' s)) -> forall l acc, le_out (sub_steps x rec o name acc l) (sub_steps x rec' o name acc l).
  Proof.
    intros rec rec' o name H. induction l as [|i l IH]; intros acc; [now right|]. cbn [sub_steps]. apply le_bind; [|exact IH].
    destruct acc as [st subs]. unfold sub_step. destruct (find_path _ _ _).
    - destruct (w_import _ _) as [s|]; [|now right]. destruct (H s) as [E|E]; rewrite E; [now left|now right].
    - destruct (find_submodule _ _ _ _) as [s|]; [|now right]. apply le_bind; [apply H|]. intros. now right.
  Qed.
  Lemma le_body : forall rec rec' o, (forall s, le_out (rec s) (rec' s)) -> le_out (mod_parse_body x rec o) (mod_parse_body x rec' o).
  Proof.
    intros rec rec' o H. unfold mod_parse_body. apply le_bind; [now right|]. intros name. apply le_bind; [now right|]. intros pre.
    apply le_bind; [now right|]. intros sbs. apply le_bind; [now right|]. intros st. apply le_bind; [|intros [a b]; now right].
    destruct (traverse_submodules _); [now apply le_sub_steps|now right].
  Qed.
  Lemma le_mod_parse : forall n o, le_out (mod_parse x n o) (mod_parse x (S n) o).
  Proof. induction n as [|n IH]; intros o; [now left|]. cbn [mod_parse]. apply le_body. exact IH. Qed.
  Lemma more_fuel : forall n m o, n <= m -> halts (mod_parse x n o) -> mod_parse x m o = mod_parse x n o.
  Proof.
    intros n m o Hm H. induction Hm as [|m Hm IH]; [reflexivity|]. rewrite <- IH. destruct (le_mod_parse m o) as [E|E]; [|now rewrite E].
    exfalso. apply H. now rewrite <- IH.
  Qed.

  (** ** Well-founded packages *)
  Lemma list_of_body : forall o, exists l, forall s, enters U w o s -> In s l.
  Proof.
    intros o. set (opt := fun o : option oid => match o with Some s => [s] | None => [] end).
    exists (flat_map (fun n => opt (w_import w (sub_full U w o n)) ++ opt (w_getattr w o (as_py (ident_from_py U n)))) (w_iter_modules w o ++ w_dir w o)).
    intros s (n & Hn & Hs). apply in_flat_map. exists n. split; [apply in_or_app; destruct Hn as [Hn|[Hn _]]; [now left|now right]|].
    apply in_or_app. destruct Hs as [E|(_ & E & _)]; rewrite E; [left|right]; now left.
  Qed.
  Lemma sub_named_dec : forall o n, {sub_named U w o n} + {~ sub_named U w o n}.
  Proof.
    intros o n. destruct (in_dec str_dec n (w_iter_modules w o)) as [H|H]; [left; now left|].
    destruct (in_dec str_dec n (w_dir w o)) as [H1|H1]; [|right; intros [K|[K _]]; easy].
    destruct (w_getattr w o (as_py (ident_from_py U n))) as [a|] eqn:E; [|right; intros [K|(_ & a & K & _)]; [easy|congruence]].
    destruct (tf_is_module (w_type w a)) eqn:E1.
    2:{ right. intros [K|(_ & a' & K & K1 & _)]; [easy|]. unfold is_module in K1. congruence. }
    destruct (contains_str (u "<locals>") (w_str w a)) eqn:E2; [left; right; split; [exact H1|]; exists a; split; [exact E|]; split; [exact E1|now left]|].
    destruct (path_dec (path_from_py U (match attr_text w a "__module__" with Some t => t | None => [] end)) (path_from_py U (w_name w o))) as [E3|E3].
    - left; right; split; [exact H1|]. exists a. split; [exact E|]. split; [exact E1|now right].
    - right. intros [K|(_ & a' & K & _ & [K1|K1])]; [easy| |]; rewrite E in K; injection K as <-; congruence.
  Qed.
  Lemma enters_dec : forall o s, {enters U w o s} + {~ enters U w o s}.
  Proof.
    intros o s.
    assert (D : forall n, {sub_named U w o n /\ (w_import w (sub_full U w o n) = Some s \/ w_import w (sub_full U w o n) = None /\ w_getattr w o (as_py (ident_from_py U n)) = Some s /\ is_module w s)} +
                          {~ (sub_named U w o n /\ (w_import w (sub_full U w o n) = Some s \/ w_import w (sub_full U w o n) = None /\ w_getattr w o (as_py (ident_from_py U n)) = Some s /\ is_module w s))}).
    { intros n. destruct (sub_named_dec o n) as [H|H]; [|right; tauto]. unfold is_module.
      destruct (w_import w _) as [t|] eqn:E; [destruct (N.eq_dec t s) as [->|N]; [left; tauto|right; intros (_ & [K|[K _]]); congruence]|].
      destruct (w_getattr w o _) as [t|] eqn:E1; [|right; intros (_ & [K|(_ & K & _)]); congruence].
      destruct (N.eq_dec t s) as [->|N]; [|right; intros (_ & [K|(_ & K & _)]); congruence].
      destruct (tf_is_module (w_type w s)); [left; tauto|right; intros (_ & [K|(_ & _ & K)]); congruence]. }
    destruct (Exists_dec _ (w_iter_modules w o ++ w_dir w o) D) as [H|H].
    - left. apply Exists_exists in H as (n & _ & H). now exists n.
    - right. intros (n & Hn & Hs). apply H, Exists_exists. exists n. split; [|now split]. apply in_or_app. destruct Hn as [Hn|[Hn _]]; [now left|now right].
  Qed.
  Lemma acc_halts : forall o, Acc (fun s o => enters U w o s) o -> exists n, halts (mod_parse x n o).
  Proof.
    intros o H. induction H as [o _ IH]. destruct (list_of_body o) as (l & Hl).
    assert (K : exists n, forall s, In s l -> enters U w o s -> halts (mod_parse x n s)).
    { clear Hl. induction l as [|s l (n & IHl)]; [exists 0; easy|].
      (* whether [s] is entered need not be decided *)
      assert (D : forall n, (enters U w o s -> halts (mod_parse x n s)) -> exists n, forall t, In t (s :: l) -> enters U w o t -> halts (mod_parse x n t)).
      { intros k Hk. exists (n + k). intros t [<-|Ht] He.
        - rewrite (more_fuel k); [now apply Hk|lia|now apply Hk].
        - rewrite (more_fuel n); [now apply IHl|lia|now apply IHl]. }
      destruct (enters_dec o s) as [He|He]; [destruct (IH s He) as (k & Hk); now apply (D k)|apply (D 0); easy]. }
    destruct K as (n & Hn). exists (S n). cbn [mod_parse]. apply ht_body. intros s Hs. apply Hn; [now apply Hl|exact Hs].
  Qed.

  (** ** Finite packages without a cycle *)
  Lemma finite_acc : forall L, closed_list U w L -> acyclic U w -> forall o, In o L -> Acc (fun s o => enters U w o s) o.
  Proof.
    intros L HL HA.
    assert (K : forall n o vis, NoDup (o :: vis) -> incl (o :: vis) L -> (forall v, In v vis -> leads_to U w v o) -> length L - length vis <= n ->
      Acc (fun s o => enters U w o s) o).
    { induction n as [|n IH]; intros o vis Hd Hi Hv Hn.
      - pose proof (NoDup_incl_length Hd Hi) as K. cbn [length] in K. lia.
      - constructor. intros s Hs. apply (IH s (o :: vis)).
        + constructor; [|exact Hd]. intros [<-|Hin]; [apply (HA o); now constructor|]. apply (HA s). apply (leads_more U w s o s); [now apply Hv|exact Hs].
        + intros y [<-|Hy]; [|now apply Hi]. apply (HL o s); [apply Hi; now left|exact Hs].
        + intros v [<-|Hin]; [now constructor|]. apply (leads_more U w v o s); [now apply Hv|exact Hs].
        + cbn [length]. lia. }
    intros o Ho'. apply (K (length L) o []); [constructor; [easy|constructor]|intros y [<-|[]]; exact Ho'|easy|cbn [length]; lia].
  Qed.
  Lemma list_halts : forall L, (forall o, In o L -> Acc (fun s o => enters U w o s) o) -> exists n, forall m o, n <= m -> In o L -> halts (mod_parse x m o).
  Proof.
    induction L as [|o L IH]; intros H; [exists 0; easy|]. destruct IH as (n & Hn); [intros; apply H; now right|].
    destruct (acc_halts o) as (k & Hk); [apply H; now left|]. exists (n + k). intros m p Hm [<-|Hp].
    - rewrite (more_fuel k); [exact Hk|lia|exact Hk].
    - apply Hn; [lia|exact Hp].
  Qed.

  (** ** Cycles *)
  Lemma steps_enter : forall rec o l acc acc' i, sub_steps x rec o (path_from_py U (w_name w o)) acc l = Ok acc' ->
    In i l -> (forall c, In c (fd_conflicts (fst acc)) -> im_target c <> path_snoc (path_from_py U (w_name w o)) i) ->
    forall s, w_import w (to_py (path_snoc (path_from_py U (w_name w o)) i)) = Some s -> exists m, rec s = Ok m.
  Proof.
    intros rec o. induction l as [|j l IH]; intros acc acc' i H Hi Hc s Hs; [easy|]. cbn [sub_steps] in H. apply bind_Ok in H as (a1 & H1 & H).
    destruct acc as [st subs]. unfold sub_step in H1. cbn [fst] in Hc. destruct Hi as [<-|Hi].
    - destruct (find_path _ _ _) as [c|] eqn:Ef.
      + exfalso. unfold find_path in Ef. apply find_some in Ef as [Ef1 Ef2]. apply path_eqb_eq in Ef2. now apply (Hc c).
      + unfold find_submodule in H1. fold w in H1. rewrite Hs in H1. apply bind_Ok in H1 as (m & Hm & _). now exists m.
    - apply (IH a1 acc' i H Hi); [|exact Hs].
      assert (E : fd_conflicts (fst a1) = fd_conflicts st); [|now rewrite E].
      destruct (find_path _ _ _) as [c|].
      + destruct (w_import _ _) as [t|]; [|now injection H1 as <-]. destruct (rec t); try discriminate; injection H1 as <-; reflexivity.
      + destruct (find_submodule _ _ _ _) as [t|]; [|now injection H1 as <-]. apply bind_Ok in H1 as (m & _ & H1). now injection H1 as <-.
  Qed.
  Lemma ok_enters : forall rec o m s, traverse_submodules (pe_cfg x) = true -> mod_parse_body x rec o = Ok m ->
    surely_enters U w (is_attr_allowed (pe_cfg x)) o s -> exists k, rec s = Ok k.
  Proof.
    intros rec o m s Ht H (n & Hn & Hp & Hall & Hdir & Hs). unfold mod_parse_body in H. apply bind_Ok in H as (name & Hname & H). apply chk_path in Hname.
    fold U w in Hname. subst name. apply bind_Ok in H as (pre & _ & H). apply bind_Ok in H as (sbs & Hsbs & H). apply bind_Ok in H as (st & Hst & H).
    apply bind_Ok in H as ([st' subs] & Hsub & _). rewrite Ht in Hsub.
    destruct (attrs_entered o sbs st) as (_ & B & C).
    { fold w in Hsbs. destruct (w_getattr w o (u "__path__")); exact Hsbs. }
    { exact Hst. }
    apply (steps_enter rec o _ _ _ (ident_from_py U n) Hsub); [| |exact Hs].
    - apply (Permutation_in _ (Permutation_sym (Ho _ _))). apply B. fold w in Hsbs. destruct (w_getattr w o (u "__path__")); [|easy].
      unfold extract_submodules in Hsbs. apply bind_Ok in Hsbs as (name & Hname & Hsbs). apply chk_path in Hname. fold U w in Hname. subst name.
      apply bind_Ok in Hsbs as (ids & Hids & Hsbs). injection Hsbs as <-.
      destruct (insert_fold (filter (fun i => is_attr_allowed (pe_cfg x) i (path_from_py U (w_name w o))) ids) [] (NoDup_nil _)) as [_ D].
      apply D. right. apply filter_In. split; [|exact Hall]. destruct (mapM_In_l _ _ _ _ Hids Hn) as (i & Hi & E). apply chk_ident in E. change (ident_from_py (pe_uni x) n) with (ident_from_py U n) in E. now rewrite <- E.
    - cbn [fst]. intros c Hc E. apply C in Hc as (a & Ha & Ea). apply (Hdir a Ha). rewrite Ea in E. unfold path_snoc in E. injection E as E. now apply app_inj_tail in E as [_ E].
  Qed.
  Lemma ok_acc : traverse_submodules (pe_cfg x) = true -> forall fuel o m, mod_parse x fuel o = Ok m -> Acc (fun s o => surely_enters U w (is_attr_allowed (pe_cfg x)) o s) o.
  Proof.
    intros Ht. induction fuel as [|f IH]; intros o m H; [discriminate|]. cbn [mod_parse] in H. constructor. intros s Hs.
    destruct (ok_enters _ _ _ _ Ht H Hs) as (k & Hk). now apply (IH s k).
  Qed.

  (** ** Packages whose modules know their names *)
  Hypothesis Hw : honest U w.
  Lemma enters_name : forall o s, is_module w o -> enters U w o s -> is_module w s /\ exists n, w_name w s = dot (w_name w o) n.
  Proof.
    intros o s Hm (n & Hn & Hs).
    assert (Er : In n (w_dir w o) -> as_py (ident_from_py U n) = n) by (intros K; apply as_py_from_py; now apply (hn_dir _ _ Hw o)).
    assert (Hc : child_name U w o n).
    { destruct Hn as [Hn|(Hn & a & Ha & Hb)]; [now left|right]. exists a. split; [exact Hn|]. split; [now rewrite <- (Er Hn)|exact Hb]. }
    pose proof (hn_child _ _ Hw o n Hm Hc) as Hp.
    assert (Ef : sub_full U w o n = dot (w_name w o) n).
    { unfold sub_full. pose proof (child_path x Hw o n Hm Hp) as Ecp. fold U w in Ecp. rewrite <- Ecp. destruct (hn_name _ _ Hw o Hm) as (l & Hl & Hpy & En). rewrite En, <- join_snoc by easy.
      apply named_to_py. intros y Hy. apply in_app_or in Hy as [Hy|[<-|[]]]; [now apply Hpy|exact Hp]. }
    rewrite Ef in Hs. destruct Hs as [E|(E & E1 & E2)].
    - apply (hn_import _ _ Hw) in E as [E1 E2]. split; [exact E1|now exists n].
    - split; [exact E2|]. exists n. rewrite as_py_from_py in E1 by apply Hp. now apply (hn_attr _ _ Hw o n s).
  Qed.
  Lemma honest_acc : forall L, (forall o, is_module w o -> In o L) -> forall o, is_module w o -> Acc (fun s o => enters U w o s) o.
  Proof.
    intros L HL. set (B := list_max (map (fun o => length (w_name w o)) L)).
    assert (HB : forall o, is_module w o -> length (w_name w o) <= B).
    { intros o Hm. apply HL in Hm. unfold B. clear - Hm. induction L as [|a L IH]; [easy|]. change (list_max (map (fun o => length (w_name w o)) (a :: L))) with (Nat.max (length (w_name w a)) (list_max (map (fun o => length (w_name w o)) L))).
      destruct Hm as [->|Hm]; [lia|]. specialize (IH Hm). lia. }
    assert (K : forall n o, is_module w o -> B - length (w_name w o) < n -> Acc (fun s o => enters U w o s) o).
    { induction n as [|n IH]; intros o Hm Hn; [lia|]. constructor. intros s Hs. destruct (enters_name o s Hm Hs) as (Hs1 & m & En).
      apply IH; [exact Hs1|]. pose proof (HB s Hs1) as K. rewrite En in K |- *. unfold dot in *. rewrite app_length in *. cbn [length] in *. lia. }
    intros o Hm. now apply (K (S B - length (w_name w o))); [|pose proof (HB o Hm); lia].
  Qed.
End body.

(** ** The whole run *)
Section run.
  Variable x : penv.
  Hypothesis Ho : order_ok (pe_ord x).
  Variable fuel : nat.
  Hypothesis Hp : forall o, is_module (pe_world x) o -> halts (mod_parse x fuel o).
  Hypothesis Hi : forall n o, w_import (pe_world x) n = Some o -> is_module (pe_world x) o.

  Lemma ht_cg : forall o c, is_module (pe_world x) o -> halts (cg_module x fuel o c).
  Proof. intros o c H. unfold cg_module. apply ht_bind; [now apply Hp|]. intros. apply ht_ok. Qed.
  Lemma ht_ask : forall r c, (forall o, In (Some o) (asked (pe_world x) r) -> is_module (pe_world x) o) -> halts (ask x fuel r c).
  Proof.
    intros [o|n|l|l|src n o] c H; cbn [ask asked] in *.
    - apply ht_cg, H. now left.
    - unfold cg_module_name. destruct (w_import _ n) as [o|] eqn:E; [|apply ht_err]. now apply ht_cg, (Hi n).
    - revert c. induction l as [|o l IH]; intros c; [apply ht_ok|]. cbn [cg_modules_all]. apply ht_bind; [apply ht_cg, H; now left|].
      intros. apply IH. intros p Hp'. apply H. now right.
    - clear H. revert c. induction l as [|n l IH]; intros c; [apply ht_ok|]. cbn [cg_module_names]. apply ht_bind; [|intros; apply IH].
      unfold cg_module_name. destruct (w_import _ n) as [o|] eqn:E; [|apply ht_err]. now apply ht_cg, (Hi n).
    - unfold cg_module_from_str. destruct o as [o|]; [|apply ht_err]. apply ht_cg, H. now left.
  Qed.
  Lemma ht_asks : forall l c, asked_modules (pe_world x) l -> halts (asks x fuel l c).
  Proof.
    induction l as [|r l IH]; intros c H; [apply ht_ok|]. cbn [asks]. apply ht_bind; [apply ht_ask; intros o Ho'; apply (H r o); [now left|exact Ho']|].
    intros. apply IH. intros r' o Hr. apply H. now right.
  Qed.
  Lemma last_is_module : forall l o, is_module (pe_world x) o -> is_module (pe_world x) (last_module (pe_world x) o l).
  Proof.
    induction l as [|i l IH]; intros o H; [exact H|]. cbn [last_module]. destruct (w_getattr _ o _) as [a|]; [|exact H].
    destruct (tf_is_module _) eqn:E; [now apply IH|exact H].
  Qed.
  Lemma ht_dependencies : forall l seen ms, halts (add_dependencies x fuel seen l ms).
  Proof.
    induction l as [|p l IH]; intros seen ms; [apply ht_ok|]. cbn [add_dependencies].
    destruct (dependency_module (pe_world x) p) as [o|e|k|] eqn:E; [|discriminate..|].
    2:{ exfalso. revert E. change (halts (dependency_module (pe_world x) p)). unfold dependency_module. ht. }
    cbn [obind]. destruct (mem_str _ _); [apply IH|]. apply ht_bind; [unfold dependency_allowed; ht|]. intros [|]; [|apply IH].
    apply ht_bind; [|intros; apply IH]. apply Hp. unfold dependency_module in E. apply bind_Ok in E as (root & _ & E). apply bind_Ok in E as (t & Et & E).
    injection E as <-. apply last_is_module. destruct (w_import _ _) as [t'|] eqn:Ei; [|discriminate]. injection Et as <-. now apply (Hi (to_py root)).
  Qed.
  Lemma ht_embed : forall l n m, halts (embed_in x l n m).
  Proof.
    intros l n. induction n as [|n IH]; intros m; [apply ht_ok|]. cbn [embed_in]. apply ht_bind; [|intros; apply IH].
    unfold or_unreachable, mod_empty. destruct (w_import _ _) as [o|]; [|discriminate]. pose proof (ht_doc (pe_world x) o) as K.
    destruct (read_docstring _ o); cbn; try discriminate. now destruct K.
  Qed.
  Lemma ht_final : forall c, halts (final_modules x fuel c).
  Proof.
    intros c. unfold final_modules. destruct (cg_modules c) as [|m l]; [apply ht_err|].
    apply ht_bind; [destruct (generate_dependencies _); [apply ht_dependencies|apply ht_ok]|]. intros k. apply ht_bind; [|intros; apply ht_ok].
    unfold canonicalize. apply ht_bind; [apply ht_mapM; intros; apply ht_embed|]. intros k1. destruct (duplicates_ok x k1) as (k2 & ->). apply ht_ok.
  Qed.
End run.
