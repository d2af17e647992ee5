(** * Lemmas: where modules end up when they know their names *)
From Coq Require Import Permutation.
From Verif Require Import Base Model_Ident Model_Path Model_Import Model_Text Model_Config Model_Type Model_IntoRs Model_World Model_Out
  Model_Function Model_Property Model_Class Model_Module Model_Parse Model_Codegen Spec_Path Spec_Names Spec_Call Spec_Items Spec_Tree Spec_Api
  Proof_Base Proof_Ident Proof_Path Proof_IntoRs Proof_Function Proof_Items Proof_Module Proof_Parse Proof_Forest Proof_Err Proof_Api.

Lemma chk_path : forall d U s p, path_from_py_chk d U s = Ok p -> p = path_from_py U s.
Proof. intros d U s p H. unfold path_from_py_chk in H. destruct (d && _); [discriminate|now injection H as <-]. Qed.
Lemma chk_ident : forall d U s p, ident_from_py_chk d U s = Ok p -> p = ident_from_py U s.
Proof. intros d U s p H. unfold ident_from_py_chk in H. destruct s; [destruct d; [discriminate|]|]; now injection H as <-. Qed.

(** Names made of components *)
Lemma join_snoc : forall l s, l <> [] -> join [c_dot] (l ++ [s]) = dot (join [c_dot] l) s.
Proof.
  induction l as [|a l IH]; intros s H; [easy|]. destruct l as [|b l]; [reflexivity|]. cbn [app]. rewrite join_cons' by (destruct l; easy).
  change (b :: l ++ [s]) with ((b :: l) ++ [s]). rewrite IH by easy. rewrite (join_cons' _ a (b :: l)) by easy. unfold dot. now rewrite <- !app_assoc.
Qed.
Lemma named_segs : forall U l, (forall s, In s l -> component s) -> path_from_py U (join [c_dot] l) = mk_path false (map (ident_from_py U) l).
Proof. intros U l H. exact (segs_from_py_dotted U 0 l H). Qed.
Lemma named_to_py : forall U l, (forall s, In s l -> py_name s) -> to_py (path_from_py U (join [c_dot] l)) = join [c_dot] l.
Proof.
  intros U l H. apply (path_py_roundtrip U 0 l); [intros s Hs; now apply H| |now left]. intros Hin. now destruct (H _ Hin) as [_ K].
Qed.
Lemma py_names_named : forall U l, l <> [] -> (forall s, In s l -> py_name s) -> module_named U (path_from_py U (join [c_dot] l)).
Proof.
  intros U l Hne H. exists l. split; [exact Hne|]. split; [intros s Hs; now apply H|]. split; [|reflexivity]. intros Hin. now destruct (H _ Hin).
Qed.

(** ** The submodules that are parsed *)
Lemma sub_steps_subs : forall x rec o name l acc acc', NoDup l -> sub_steps x rec o name acc l = Ok acc' ->
  exists done ms, snd acc' = snd acc ++ ms /\ NoDup done /\ incl done l /\
    Forall2 (fun i m => exists s, find_submodule x o (path_snoc name i) i = Some s /\ rec s = Ok m) done ms.
Proof.
  intros x rec o name. induction l as [|i l IH]; intros acc acc' Hnd H; cbn [sub_steps] in H.
  - injection H as <-. exists [], []. rewrite app_nil_r. repeat split; [constructor|easy|constructor].
  - apply bind_Ok in H as (a1 & H1 & H). apply NoDup_cons_iff in Hnd as [Hi Hnd].
    destruct (IH a1 acc' Hnd H) as (done & ms & E & D & I & F). destruct acc as [st subs]. unfold sub_step in H1. cbn [snd].
    assert (Same : snd a1 = subs -> exists done ms, snd acc' = subs ++ ms /\ NoDup done /\ incl done (i :: l) /\
      Forall2 (fun i m => exists s, find_submodule x o (path_snoc name i) i = Some s /\ rec s = Ok m) done ms).
    { intros Es. exists done, ms. rewrite <- Es. repeat split; auto. intros y Hy. right. now apply I. }
    destruct (find_path im_target (path_snoc name i) (fd_conflicts st)) as [c|].
    + apply Same. destruct (w_import _ _) as [s|]; [|now injection H1 as <-]. destruct (rec s); try discriminate; now injection H1 as <-.
    + destruct (find_submodule x o (path_snoc name i) i) as [s|] eqn:Es; [|apply Same; now injection H1 as <-].
      apply bind_Ok in H1 as (m & Hm & H1). injection H1 as <-. cbn [snd] in E. exists (i :: done), (m :: ms).
      rewrite E, <- app_assoc. split; [reflexivity|]. split; [constructor; [|exact D]; intros K; now apply Hi, I|].
      split; [intros y [<-|Hy]; [now left|right; now apply I]|]. constructor; [now exists s|exact F].
Qed.

Lemma insert_NoDup : forall l i, NoDup l -> NoDup (insert_name l i).
Proof.
  intros l i H. unfold insert_name. destruct (mem_str i l) eqn:E; [exact H|]. apply (Permutation_NoDup (Permutation_cons_append l i)). constructor; [|exact H]. now apply mem_str_notIn.
Qed.

Lemma insert_In : forall l i y, In y (insert_name l i) <-> In y l \/ y = i.
Proof.
  intros l i y. unfold insert_name. destruct (mem_str i l) eqn:E.
  - apply mem_str_In in E. split; [now left|]. intros [H| ->]; assumption.
  - rewrite in_app_iff. cbn. intuition.
Qed.
Lemma insert_fold : forall l acc, NoDup acc -> NoDup (fold_left insert_name l acc) /\ forall y, In y (fold_left insert_name l acc) <-> In y acc \/ In y l.
Proof.
  induction l as [|i l IH]; intros acc H; cbn [fold_left].
  - split; [exact H|]. intros y. cbn. intuition.
  - destruct (IH (insert_name acc i) (insert_NoDup acc i H)) as [A B]. split; [exact A|]. intros y. rewrite B, insert_In. cbn. intuition.
Qed.

(** The names of the children: without repetition, and children of the module *)
Section children.
  Variable x : penv.
  Let U := pe_uni x.
  Let w := pe_world x.
  Definition child_ident (o : oid) (i : ident) : Prop := exists s, i = ident_from_py U s /\ child_name U w o s.
  Lemma submodules_names : forall o l, extract_submodules x o = Ok l -> NoDup l /\ forall i, In i l -> child_ident o i.
  Proof.
    intros o l H. unfold extract_submodules in H. apply bind_Ok in H as (name & _ & H). apply bind_Ok in H as (ids & Hids & H). injection H as <-.
    destruct (insert_fold (filter (fun i => is_attr_allowed (pe_cfg x) i name) ids) [] (NoDup_nil _)) as [A B]. split; [exact A|].
    intros i Hi. apply B in Hi as [[]|Hi]. apply filter_In in Hi as [Hi _]. destruct (mapM_In _ _ _ _ Hids Hi) as (s & Hs & E).
    apply chk_ident in E. exists s. split; [exact E|now left].
  Qed.
  Lemma step_subs : forall name st a st', module_step x name st a = Ok st' ->
    fd_subs st' = fd_subs st \/ (fd_subs st' = insert_name (fd_subs st) (at_name a) /\ tf_is_module (w_type w (at_obj a)) = true /\ (contains_str (u "<locals>") (w_str w (at_obj a)) = true \/ at_module a = name)).
  Proof.
    intros name [ims cfs cls tvs fns prs sbs] a st' H. cbn [module_step] in H. apply bind_Ok in H as (v & Hv & H). cbn [fd_subs]. destruct v.
    - apply bind_Ok in H as (i & _ & H). left. destruct i as [i|]; [|now injection H as <-]. destruct (mem_str _ _); now injection H as <-.
    - right. injection H as <-. split; [reflexivity|]. unfold determine in Hv. apply bind_Ok in Hv as (tn & _ & Hv). apply bind_Ok in Hv as (tm & _ & Hv).
      injection Hv as Hv. fold w in Hv. cbn [andb] in Hv.
      destruct (negb _ && negb _) eqn:E.
      + cbn [andb] in Hv. destruct (tf_is_module _) eqn:E2; cbn in Hv; [discriminate|].
        repeat match type of Hv with (if ?b then _ else _) = _ => destruct b; try discriminate end.
      + cbn [andb] in Hv. change (e_world (pe_env x)) with w in *. destruct (tf_is_module (w_type w (at_obj a))) eqn:E2.
        * split; [reflexivity|]. apply andb_false_iff in E as [E|E]; apply negb_false_iff in E; [now left|right; now apply path_eqb_eq].
        * repeat match type of Hv with (if ?b then _ else _) = _ => destruct b; try discriminate end.
    - apply bind_Ok in H as (c & _ & H). left. now injection H as <-.
    - apply bind_Ok in H as (c & _ & H). left. now injection H as <-.
    - left. now injection H as <-.
    - apply bind_Ok in H as (c & _ & H). left. now injection H as <-.
    - left. now injection H as <-.
    - apply bind_Ok in H as (c & _ & H). left. now injection H as <-.
  Qed.
End children.

Section places.
  Variable x : penv.
  Let U := pe_uni x.
  Let w := pe_world x.
  Hypothesis Ho : order_ok (pe_ord x).
  Hypothesis Hw : honest U w.

  (** [m] was made from the module [t] *)
  Definition made (rec : oid -> outcome module) (o : oid) (i : ident) (m : module) : Prop :=
    exists s t, i = ident_from_py U s /\ py_name s /\ is_module w t /\ w_name w t = dot (w_name w o) s /\ rec t = Ok m.
  Lemma body_subs : forall rec o m, is_module w o -> mod_parse_body x rec o = Ok m ->
    m_name m = path_from_py U (w_name w o) /\ exists done, NoDup done /\ Forall2 (made rec o) done (m_subs m) /\ forall i, In i done -> exists p, is_attr_allowed (pe_cfg x) i p = true.
  Proof.
    intros rec o m Hm H. unfold mod_parse_body in H. apply bind_Ok in H as (name & Hname & H). apply chk_path in Hname.
    apply bind_Ok in H as (pre & _ & H). apply bind_Ok in H as (sbs & Hsbs & H). apply bind_Ok in H as (st & Hst & H).
    apply bind_Ok in H as ([st' subs] & Hsub & H). apply bind_Ok in H as (doc & _ & H). injection H as <-. cbn [m_name m_subs].
    split; [exact Hname|].
    assert (K0 : forall i, In i (fd_subs st) -> exists p, is_attr_allowed (pe_cfg x) i p = true).
    { refine (each_attr_inv (fun st => forall i, In i (fd_subs st) -> exists p, is_attr_allowed (pe_cfg x) i p = true) _ _ _ _ _ _ _ _ _ Hst).
      - intros st0 a st1 s Hs Hr Ha P1 Hstep i Hi. apply step_subs in Hstep as [E|(E & _ & _)]; rewrite E in Hi; [now apply P1|].
        apply insert_In in Hi as [Hi| ->]; [now apply P1|]. now exists (at_module a).
      - cbn [fd_subs]. destruct (w_getattr _ o _); [|injection Hsbs as <-; easy]. intros i Hi. unfold extract_submodules in Hsbs.
        apply bind_Ok in Hsbs as (nm & _ & Hsbs). apply bind_Ok in Hsbs as (ids & _ & Hsbs). injection Hsbs as <-.
        destruct (insert_fold (filter (fun i => is_attr_allowed (pe_cfg x) i nm) ids) [] (NoDup_nil _)) as [_ B]. apply B in Hi as [[]|Hi].
        apply filter_In in Hi as [_ Hi]. now exists nm. }
    assert (K : NoDup (fd_subs st) /\ forall i, In i (fd_subs st) -> child_ident x o i).
    { refine (each_attr_inv (fun st => NoDup (fd_subs st) /\ forall i, In i (fd_subs st) -> child_ident x o i) _ _ _ _ _ _ _ _ _ Hst).
      - intros st0 a st1 s Hs Hr Ha [P1 P2] Hstep. apply unique_names_In in Hs.
        apply step_subs in Hstep as [E|(E & T1 & T2)]; rewrite E; [now split|]. split; [now apply insert_NoDup|].
        intros i Hi. apply insert_In in Hi as [Hi| ->]; [now apply P2|].
        unfold read_attr in Hr. apply bind_Ok in Hr as (nm & Hnm & Hr). apply chk_ident in Hnm.
        destruct (w_getattr _ o (as_py nm)) as [a0|] eqn:Eg; [|discriminate]. apply bind_Ok in Hr as (md & Hmd & Hr). injection Hr as <-.
        cbn [at_name at_obj at_module] in *. apply chk_path in Hmd. exists s. split; [exact Hnm|]. right. exists a0. split; [exact Hs|].
        split; [|split].
        + rewrite Hnm, as_py_from_py in Eg by (apply (hn_dir _ _ Hw o s Hs)). exact Eg.
        + exact T1.
        + destruct T2 as [T2|T2]; [now left|right]. fold U. rewrite Hmd, Hname in T2. exact T2.
      - cbn [fd_subs]. destruct (w_getattr _ o _); [now apply submodules_names in Hsbs|]. injection Hsbs as <-. split; [constructor|easy]. }
    destruct K as [K1 K2].
    destruct (traverse_submodules _); [|injection Hsub as <- <-; exists []; split; [constructor|]; split; [constructor|easy]].
    destruct (sub_steps_subs x rec o name (ho (pe_ord x) (fd_subs st)) (st, []) (st', subs)) as (done & ms & E & D & I & F); [| exact Hsub|].
    { apply (Permutation_NoDup (Permutation_sym (Ho _ _)) K1). }
    cbn [snd app] in E. subst ms. exists done. split; [exact D|]. split; [|intros i Hi; apply K0, (Permutation_in _ (Ho _ _)); now apply I].
    assert (Hdone : forall i, In i done -> child_ident x o i).
    { intros i Hi. apply K2. apply (Permutation_in _ (Ho _ _)). now apply I. }
    destruct (hn_name _ _ Hw o Hm) as (l & Hl & Hpy & En).
    clear - F Hdone Hw Hm Hl Hpy En Hname. induction F as [|i k done subs (t & Ht & Hr) F IH]; [constructor|].
    constructor; [|apply IH; intros y Hy; apply Hdone; now right].
    destruct (Hdone i (or_introl eq_refl)) as (s & -> & Hs). pose proof (hn_child _ _ Hw o s Hm Hs) as Hps.
    assert (Ep : path_snoc name (ident_from_py U s) = path_from_py U (join [c_dot] (l ++ [s]))).
    { rewrite Hname. fold w U. rewrite En. rewrite !named_segs.
      - unfold path_snoc. cbn [leading_colon segs]. now rewrite map_app.
      - intros y Hy. apply in_app_or in Hy as [Hy|[<-|[]]]; [now apply Hpy|apply Hps].
      - intros y Hy. now apply Hpy. }
    assert (Et : to_py (path_snoc name (ident_from_py U s)) = dot (w_name w o) s).
    { rewrite Ep, named_to_py; [rewrite En; now apply join_snoc|]. intros y Hy. apply in_app_or in Hy as [Hy|[<-|[]]]; [now apply Hpy|exact Hps]. }
    exists s, t. split; [reflexivity|]. split; [exact Hps|].
    unfold find_submodule in Ht. fold w in Ht. unfold U in Et. fold w in Et. change (e_uni (pe_env x)) with U in *. fold U in Et, Ht. rewrite Et in Ht.
    destruct (w_import w (dot (w_name w o) s)) as [t'|] eqn:Ei.
    - injection Ht as ->. apply (hn_import _ _ Hw) in Ei as [E1 E2]. repeat split; assumption.
    - assert (Er : starts_with r_hash s = false) by apply Hps. rewrite as_py_from_py in Ht by exact Er. destruct (w_getattr w o s) as [a|] eqn:Eg; [|discriminate].
      destruct (tf_is_module (w_type w a)) eqn:Em; [|discriminate]. injection Ht as ->. split; [exact Em|].
      split; [|exact Hr]. now apply (hn_attr _ _ Hw o s t Hm Hs Eg Em).
  Qed.

  Lemma child_path : forall o s, is_module w o -> py_name s ->
    path_from_py U (dot (w_name w o) s) = path_snoc (path_from_py U (w_name w o)) (ident_from_py U s).
  Proof.
    intros o s Hm Hs. destruct (hn_name _ _ Hw o Hm) as (l & Hl & Hpy & En). rewrite En, <- join_snoc by easy. rewrite !named_segs.
    - unfold path_snoc. cbn. now rewrite map_app.
    - intros y Hy. now apply Hpy.
    - intros y Hy. apply in_app_or in Hy as [Hy|[<-|[]]]; [now apply Hpy|apply Hs].
  Qed.

  Lemma made_names : forall rec o done subs, is_module w o -> (forall t k, is_module w t -> rec t = Ok k -> m_name k = path_from_py U (w_name w t)) ->
    Forall2 (made rec o) done subs -> map m_name subs = map (path_snoc (path_from_py U (w_name w o))) done.
  Proof.
    intros rec o done subs Hm Hrec F. induction F as [|i k done subs (s & t & -> & Hs & Ht & En & Hr) F IH]; [reflexivity|].
    cbn [map]. rewrite IH, (Hrec t k Ht Hr), En. now rewrite child_path.
  Qed.

  Lemma parsed_name : forall fuel o m, is_module w o -> mod_parse x fuel o = Ok m -> m_name m = path_from_py U (w_name w o).
  Proof. intros [|f] o m Hm H; [discriminate|]. now apply (body_subs _ _ _ Hm H). Qed.

  Lemma parsed_tree : forall fuel o m, is_module w o -> mod_parse x fuel o = Ok m ->
    tree_ok x m /\ forall c, present [m] c -> linked c.
  Proof.
    induction fuel as [|f IH]; intros o m Hm H; [discriminate|]. cbn [mod_parse] in H.
    destruct (body_subs _ _ _ Hm H) as (En & done & Hd & F & _).
    pose proof (made_names _ o done (m_subs m) Hm (fun t k Ht Hk => parsed_name f t k Ht Hk) F) as Hsubs.
    assert (Hk : forall k, In k (m_subs m) -> exists i t, In i done /\ m_name k = path_snoc (m_name m) i /\ is_module w t /\ mod_parse x f t = Ok k).
    { clear - F En Hm Hw Ho. rewrite En. induction F as [|i k done subs (s & t & -> & Hs & Ht & E & Hr) F IHF]; [easy|]. intros y [<-|Hy].
      - exists (ident_from_py U s), t. split; [now left|]. split; [|now split]. rewrite (parsed_name f t k Ht Hr), E. now apply child_path.
      - destruct (IHF y Hy) as (i & t' & Hi & R). exists i, t'. split; [now right|exact R]. }
    split.
    - intros k Hin. destruct Hin as [|m' k' Hk' Hin].
      + split.
        * rewrite En. destruct (hn_name _ _ Hw o Hm) as (l & Hl & Hpy & E). fold w in E. rewrite E. now apply py_names_named.
        * rewrite Hsubs. apply FinFun.Injective_map_NoDup; [|exact Hd]. intros a b E. unfold path_snoc in E. injection E as E. now apply app_inj_tail in E.
      + destruct (Hk k' Hk') as (i & t & _ & _ & Ht & Hp). destruct (IH t k' Ht Hp) as [T _]. now apply T.
    - intros c (k & Hc). inversion Hc as [l0 m0 Hin|l0 m0 c0 k0 Hin Hr]; subst; destruct Hin as [<-|[]]; [exact I|].
      inversion Hr as [l1 m1 Hin1|l1 m1 c1 k1 Hin1 Hr1]; subst.
      + destruct (Hk k Hin1) as (i & t & _ & E & _). cbn [linked]. split; [|exact I]. exists i. now rewrite E.
      + destruct (Hk m1 Hin1) as (i & t & _ & E & Ht & Hp). destruct (IH t m1 Ht Hp) as [_ L]. split; [exists i; now rewrite E|].
        apply L. exists k. apply reach_down; [now left|exact Hr1].
  Qed.
End places.

(** ** The final forest *)
Lemma parents_segs : forall p q, In q (parents p) -> exists k, 1 <= k < length (segs p) /\ q = mk_path false (firstn k (segs p)).
Proof. intros p q H. unfold parents in H. apply in_map_iff in H as (k & <- & Hk). apply in_seq in Hk. exists k. split; [lia|reflexivity]. Qed.
Lemma firstn_map_incl : forall {A} k (l : list A) s, In s (firstn k l) -> In s l.
Proof. intros A k l s H. rewrite <- (firstn_skipn k l). apply in_or_app. now left. Qed.
Lemma prefix_named : forall U p k, module_named U p -> 1 <= k <= length (segs p) -> module_named U (mk_path false (firstn k (segs p))).
Proof.
  intros U p k (l & H1 & H2 & H3 & ->) Hk. rewrite named_segs in * by exact H2. cbn [segs] in *. rewrite map_length in Hk.
  exists (firstn k l). split; [destruct l; [easy|destruct k; [lia|discriminate]]|].
  split; [intros s Hs; apply H2; now apply firstn_map_incl in Hs|]. split; [intros Hs; apply H3; now apply firstn_map_incl in Hs|].
  rewrite named_segs by (intros s Hs; apply H2; now apply firstn_map_incl in Hs). now rewrite firstn_map.
Qed.
Lemma embed_tree : forall x p, module_named (pe_uni x) p -> forall i m m', i < length (segs p) -> tree_ok x m -> embed_in x (segs p) i m = Ok m' -> tree_ok x m'.
Proof.
  intros x p Hp. induction i as [|i IH]; intros m m' Hi Hm H; cbn [embed_in] in H; [now injection H as <-|].
  apply bind_Ok in H as (par & Hpar & H). refine (IH _ m' _ _ H); [lia|].
  destruct (mod_empty _ _) as [e| | |] eqn:E; try discriminate. injection Hpar as <-. apply empty_shape in E as (En & Es & _).
  intros k Hk. inversion Hk as [E1|m1 s Hin Hk1 E1]; subst.
  - cbn [with_subs m_name m_subs]. rewrite En, Es. split; [apply prefix_named; [exact Hp|lia]|]. cbn. constructor; [easy|constructor].
  - cbn [with_subs m_subs] in Hin. rewrite Es in Hin. destruct Hin as [<-|[]]. now apply Hm.
Qed.
Lemma named_nonempty : forall U p, module_named U p -> segs p <> [].
Proof. intros U p (l & H1 & H2 & _ & ->). rewrite named_segs by exact H2. cbn. now destruct l. Qed.
Lemma canonical_tree : forall x l k, canonicalize x l = Ok k -> (forall m, In m l -> tree_ok x m) ->
  NoDup (map m_name k) /\ forall m, In m k -> tree_ok x m.
Proof.
  intros x l k H Hl. unfold canonicalize in H. apply bind_Ok in H as (k0 & H0 & H). unfold merge_duplicates in H.
  refine (siblings_tree x _ k0 k _ H). intros m Hm. destruct (mapM_In _ _ _ _ H0 Hm) as (m0 & Hm0 & E). unfold canonical in E.
  pose proof (proj1 (Hl m0 Hm0 m0 (within_here m0))) as Hn.
  refine (embed_tree x (m_name m0) Hn _ m0 m _ (Hl m0 Hm0) E). pose proof (named_nonempty _ _ Hn). destruct (segs (m_name m0)); [easy|cbn; lia].
Qed.

(** Canonicalizing succeeds if the parents can be imported. *)
Lemma embed_total : forall x full i m, (forall k, 1 <= k <= i -> exists o, w_import (pe_world x) (to_py (mk_path false (firstn k full))) = Some o /\ w_getattr (pe_world x) o (u "__doc__") <> None) ->
  exists m', embed_in x full i m = Ok m'.
Proof.
  intros x full. induction i as [|i IH]; intros m H; [now exists m|]. cbn [embed_in].
  destruct (H (S i)) as (o & Ho & Hd); [lia|]. unfold mod_empty, path_of_segs. rewrite Ho. unfold read_docstring, attr_text.
  destruct (w_getattr (pe_world x) o (u "__doc__")) as [d|]; [|easy]. cbn [option_map obind or_unreachable].
  apply IH. intros k Hk. apply H. lia.
Qed.
Lemma mapM_total : forall {A B} (f : A -> outcome B) l, (forall a, In a l -> exists b, f a = Ok b) -> exists r, mapM f l = Ok r.
Proof.
  intros A B f. induction l as [|a l IH]; intros H; [now exists []|]. cbn [mapM]. destruct (H a (or_introl eq_refl)) as [b ->].
  destruct IH as [r ->]; [intros y Hy; apply H; now right|]. now eexists.
Qed.
Lemma canonicalize_total : forall x l, order_ok (pe_ord x) -> (forall m, In m l -> parents_importable (pe_world x) (m_name m)) -> exists k, canonicalize x l = Ok k.
Proof.
  intros x l Ho H. unfold canonicalize. destruct (mapM_total (canonical x) l) as [k ->].
  - intros m Hm. apply embed_total. intros k Hk. apply (H m Hm). unfold parents. apply in_map_iff. exists k. split; [reflexivity|]. apply in_seq. lia.
  - apply duplicates_ok.
Qed.

(** ** End to end *)
Lemma last_module_is : forall w l o, is_module w o -> is_module w (last_module w o l).
Proof.
  intros w. induction l as [|i l IH]; intros o H; [exact H|]. cbn [last_module]. destruct (w_getattr w o (as_py i)) as [a|]; [|exact H].
  destruct (tf_is_module (w_type w a)) eqn:E; [now apply IH|exact H].
Qed.

Section final.
  Variable x : penv.
  Let U := pe_uni x.
  Let w := pe_world x.
  Hypothesis Ho : order_ok (pe_ord x).
  Hypothesis Hw : honest U w.
  Variables (fuel : nat) (l : list request) (c : codegen) (ms : list module).
  Hypothesis Hl : asked_modules w l.
  Hypothesis Hc : asks x fuel l cg_new = Ok c.
  Hypothesis Hf : final_modules x fuel c = Ok ms.

  Lemma requested_is : forall m, In m (cg_modules c) -> exists o, is_module w o /\ mod_parse x fuel o = Ok m.
  Proof.
    intros m Hm. pose proof (asks_state x fuel l c Hc) as F.
    assert (K : forall q, In q (flat_map (asked w) l) -> forall o, q = Some o -> is_module w o).
    { intros q Hq o ->. apply in_flat_map in Hq as (r & Hr & Hq). now apply (Hl r). }
    fold w in F. clear - F K Hm. induction F as [|q y ql yl (o & Eq & Hp) F IH]; [easy|]. destruct Hm as [<-|Hm].
    - exists o. split; [|exact Hp]. apply (K q); [now left|exact Eq].
    - apply IH; [exact Hm|]. intros q' Hq'. apply K. now right.
  Qed.
  Lemma input_is : forall inp m, all_inputs x fuel c inp -> In m inp -> exists o, is_module w o /\ mod_parse x fuel o = Ok m.
  Proof.
    intros inp m [_ E] Hm. destruct (generate_dependencies _); [|injection E as <-; now apply requested_is].
    apply dependencies_grow in E as (d & -> & Kd). apply in_app_or in Hm as [Hm|Hm]; [now apply requested_is|].
    destruct (Kd m Hm) as (p & o & _ & Hd & _ & Hp). exists o. split; [|exact Hp].
    unfold dependency_module in Hd. apply bind_Ok in Hd as (root & _ & Hd). apply bind_Ok in Hd as (o0 & H0 & Hd). injection Hd as <-.
    apply last_module_is. fold w in H0. destruct (w_import w (to_py root)) as [o1|] eqn:E; [|discriminate]. injection H0 as ->. now apply (hn_import _ _ Hw) in E.
  Qed.

  Lemma vis_source : forall s k ch q, vis (map (with_source s) k) ch q <-> vis k ch q.
  Proof.
    intros s k ch q. destruct ch as [|n [|d ch]].
    - split; intros K; now apply vis_nil in K.
    - rewrite !vis_one. split.
      + intros (m & Hin & E & Hq). apply in_map_iff in Hin as (m1 & <- & Hin). destruct (with_source_same s m1) as (E1 & _ & E3). exists m1.
        split; [exact Hin|]. split; [congruence|]. destruct q; [now apply E3|exact I].
      + intros (m & Hin & E & Hq). destruct (with_source_same s m) as (E1 & _ & E3). exists (with_source s m).
        split; [now apply in_map|]. split; [congruence|]. destruct q; [now apply E3|exact I].
    - rewrite !vis_cons. split.
      + intros (m & Hin & E & Hq). apply in_map_iff in Hin as (m1 & <- & Hin). destruct (with_source_same s m1) as (E1 & E2 & _). exists m1.
        split; [exact Hin|]. split; [congruence|]. now rewrite <- E2.
      + intros (m & Hin & E & Hq). destruct (with_source_same s m) as (E1 & E2 & _). exists (with_source s m).
        split; [now apply in_map|]. split; [congruence|]. now rewrite E2.
  Qed.

  (** What the final forest consists of *)
  Lemma final_vis : exists inp, all_inputs x fuel c inp /\ forall ch q,
    vis ms ch q <-> exists m, In m inp /\ ((exists c', ch = parents (m_name m) ++ c' /\ vis [m] c' q) \/
                            (q = None /\ exists j, 1 <= j < length (segs (m_name m)) /\ ch = firstn j (parents (m_name m)))).
  Proof.
    destruct (final_inv x fuel c ms Hf) as (inp & k & Hin & Hk & E). exists inp. split; [exact Hin|]. intros ch q. rewrite E, vis_source.
    now apply (canonicalize_vis x inp k Ho).
  Qed.

  Lemma final_siblings : siblings_differ ms.
  Proof.
    destruct (final_inv x fuel c ms Hf) as (inp & k & Hin & Hk & E).
    destruct (canonical_tree x inp k Hk) as [N T].
    { intros m Hm. destruct (input_is inp m Hin Hm) as (o & Hmod & Hp). now apply (parsed_tree x Ho Hw fuel o m). }
    split.
    - rewrite E, map_map. erewrite map_ext; [exact N|]. intros m. now destruct (with_source_same (cg_sources c) m).
    - intros m k1 Hm Hk1. rewrite E in Hm. apply in_map_iff in Hm as (m1 & <- & Hm1). apply with_source_within in Hk1 as [->|(t & Ht & Hk1)].
      + destruct (with_source_same (cg_sources c) m1) as (_ & Es & _). rewrite Es. apply (T m1 Hm1 m1 (within_here m1)).
      + apply (T m1 Hm1 k1). now apply (within_sub k1 m1 t).
  Qed.
  Lemma final_linked : forall ch, present ms ch -> linked ch /\ exists n r, ch = n :: r /\ length (segs n) = 1.
  Proof.
    intros ch (m & Hr). destruct (final_inv x fuel c ms Hf) as (inp & k & Hin & Hk & E).
    assert (V : vis k ch None). { rewrite <- (vis_source (cg_sources c)), <- E. exists m. now split. }
    destruct V as (m1 & Hr1 & _). apply (canonical_linked x inp k Ho Hk); [| |now exists m1].
    - intros m0 ch0 Hm0 Hch0. destruct (input_is inp m0 Hin Hm0) as (o & Hmod & Hp). now apply (parsed_tree x Ho Hw fuel o m0).
    - intros m0 Hm0. destruct (input_is inp m0 Hin Hm0) as (o & Hmod & Hp). destruct (parsed_tree x Ho Hw fuel o m0 Hmod Hp) as [T _].
      apply (named_nonempty U). apply (T m0 (within_here m0)).
  Qed.
  Lemma final_requested : forall m, In m (cg_modules c) -> forall ch q, vis [m] ch q -> vis ms (parents (m_name m) ++ ch) q.
  Proof.
    intros m Hm ch q Hq. destruct final_vis as (inp & [Hne Hin] & V). apply V. exists m. split.
    - destruct (generate_dependencies _); [|now injection Hin as <-]. apply dependencies_grow in Hin as (d & -> & _). apply in_or_app. now left.
    - left. now exists ch.
  Qed.
End final.
