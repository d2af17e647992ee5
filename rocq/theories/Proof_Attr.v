(** * Lemmas: attributes *)
From Coq Require Import Permutation.
From Verif Require Import Base Model_Ident Model_Path Model_Import Model_Text Model_Config Model_Type Model_IntoRs Model_World Model_Out
  Model_Function Model_Property Model_Class Model_Module Model_Parse Model_Codegen Spec_Path Spec_Names Spec_Call Spec_Items Spec_Tree Spec_Api Spec_Safe Spec_Out Spec_Privacy Spec_Attr
  Proof_Base Proof_Ident Proof_Path Proof_Text Proof_IntoRs Proof_Call Proof_Function Proof_Fresh Proof_Method Proof_Kind Proof_Items Proof_Module
  Proof_Parse Proof_Forest Proof_Err Proof_Api Proof_Honest Proof_Calm Proof_Rooted Proof_Deps.

(** ** Kinds (C60) *)
Lemma first_test_unique : forall {A} (l : list (Prop * A)) a b, first_test l a -> first_test l b -> a = b.
Proof.
  intros A l a b H. revert b. induction H as [P a r HP|P a r b HP H IH]; intros c Hc; inversion Hc; subst; auto; contradiction.
Qed.
Lemma py_name_text : forall U s t, (forall t, In t s -> py_name t) -> to_py (path_from_py U (join [c_dot] s)) = t <-> join [c_dot] s = t.
Proof. intros U s t H. rewrite named_to_py by exact H. reflexivity. Qed.
Lemma type_module_text : forall U w o t, type_named w o -> t <> [] ->
  to_py (path_from_py U (match tf_module (w_type w o) with Some s => s | None => [] end)) = t <-> tf_module (w_type w o) = Some t.
Proof.
  intros U w o t [_ H] Ht. destruct (tf_module (w_type w o)) as [s|].
  - destruct (H s eq_refl) as (l & Hl & ->). rewrite py_name_text by exact Hl. split; [now intros ->|now intros [= ->]].
  - cbn. split; [intros <-; easy|discriminate].
Qed.
Lemma determine_tests : forall e o from owner b k, type_named (e_world e) o ->
  determine e o from owner b = Ok k -> first_test (documented_tests (e_world e) o from owner (b = true)) k.
Proof.
  intros e o from owner b k Ht H. unfold determine in H. apply bind_Ok in H as (tn & Hn & H). apply bind_Ok in H as (tm & Hm & H).
  apply chk_ident in Hn. apply chk_path in Hm. set (w := e_world e) in *. unfold documented_tests.
  assert (E1 : str_eqb (to_py tm) (u "functools") && str_eqb (as_py tn) (u "partial") = true <-> tf_module (w_type w o) = Some (u "functools") /\ tf_name (w_type w o) = u "partial").
  { rewrite andb_true_iff, !str_eqb_eq. subst tm tn. rewrite type_module_text by (assumption || discriminate). rewrite as_py_from_py by apply Ht. reflexivity. }
  assert (E2 : mem_str (to_py tm) (map u ["typing"; "types"]%string) = true <-> tf_module (w_type w o) = Some (u "typing") \/ tf_module (w_type w o) = Some (u "types")).
  { rewrite mem_str_In. subst tm. rewrite <- (type_module_text (e_uni e) w o (u "typing")), <- (type_module_text (e_uni e) w o (u "types")) by (assumption || discriminate).
    cbn [map In]. intuition. }
  assert (E0 : contains_str (u "<locals>") (w_str w o) = true <-> local_object w o) by apply contains_str_iff.
  assert (E3 : path_eqb from owner = true <-> from = owner) by apply path_eqb_eq.
  set (c1 := str_eqb _ _ && str_eqb _ _) in *. set (c2 := mem_str _ _) in *. set (c0 := contains_str _ _) in *. set (c3 := path_eqb _ _) in *.
  clearbody c0 c1 c2 c3. clear Hn Hm. injection H as <-.
  destruct (b && (negb c0 && negb c3 && (tf_is_module (w_type w o) || tf_is_class (w_type w o) || tf_is_function (w_type w o) || tf_is_method (w_type w o)))) eqn:Ei.
  - apply test_holds. rewrite !andb_true_iff, !orb_true_iff, !negb_true_iff in Ei. destruct Ei as (-> & (-> & ->) & K).
    split; [reflexivity|]. split; [intros L; apply E0 in L; discriminate|]. split; [intros L; apply E3 in L; discriminate|]. tauto.
  - apply test_fails.
    { intros (Hb & Hl & Hf & Hk). rewrite Hb in Ei. assert (c0 = false) as -> by (destruct c0; [now destruct Hl; apply E0|reflexivity]).
      assert (c3 = false) as -> by (destruct c3; [now destruct Hf; apply E3|reflexivity]). cbn in Ei. rewrite !orb_false_iff in Ei. destruct Ei as [[[E4 E5] E6] E7].
      destruct Hk as [K|[K|[K|K]]]; congruence. }
    clear Ei. destruct (tf_is_module _); [now apply test_holds|apply test_fails; [easy|]].
    destruct (tf_is_class _); [now apply test_holds|apply test_fails; [easy|]].
    destruct (tf_is_builtin_fn _); [apply test_holds; now left|]. destruct (tf_is_function _); [apply test_holds; now right|apply test_fails; [now intros [K|K]|]].
    destruct (tf_is_method _); [now apply test_holds|apply test_fails; [easy|]].
    cbn [orb]. destruct c1; [apply test_holds; now apply E1|apply test_fails; [intros K; now apply E1 in K|]].
    destruct c2; [apply test_holds; now apply E2|apply test_fails; [intros K; now apply E2 in K|]]. now apply test_holds.
Qed.
Lemma determine_total : forall e o from owner b, e_dbg e = false -> exists k, determine e o from owner b = Ok k.
Proof.
  intros e o from owner b Hd. unfold determine, ident_from_py_chk, path_from_py_chk. rewrite Hd. cbn [andb]. destruct (tf_name _); cbn; eauto.
Qed.
Lemma determine_iff : forall e o from owner b k, e_dbg e = false -> type_named (e_world e) o ->
  determine e o from owner b = Ok k <-> first_test (documented_tests (e_world e) o from owner (b = true)) k.
Proof.
  intros e o from owner b k Hd Ht. split; [now apply determine_tests|]. intros H. destruct (determine_total e o from owner b Hd) as [k' E].
  rewrite E. f_equal. apply (first_test_unique _ _ _ (determine_tests _ _ _ _ _ _ Ht E) H).
Qed.
Lemma determine_own : forall e o owner b, determine e o owner owner b <> Ok VImport.
Proof.
  intros e o owner b H. unfold determine in H. apply bind_Ok in H as (tn & _ & H). apply bind_Ok in H as (tm & _ & H). injection H as H.
  rewrite path_eqb_refl in H. cbn [negb] in H. rewrite ?andb_false_r in H. cbn [andb] in H. rewrite ?andb_false_r in H.
  repeat match type of H with (if ?c then _ else _) = _ => destruct c; try discriminate end.
Qed.
Lemma determine_class : forall e o from owner, determine e o from owner false <> Ok VImport.
Proof.
  intros e o from owner H. unfold determine in H. apply bind_Ok in H as (tn & _ & H). apply bind_Ok in H as (tm & _ & H). injection H as H. cbn [andb] in H.
  repeat match type of H with (if ?c then _ else _) = _ => destruct c; try discriminate end.
Qed.

(** ** The loop over the attributes *)
Record grows (a b : found) : Prop := mk_grows {
  gr_imports : incl (fd_imports a) (fd_imports b); gr_conflicts : incl (fd_conflicts a) (fd_conflicts b); gr_classes : incl (fd_classes a) (fd_classes b);
  gr_typevars : incl (fd_typevars a) (fd_typevars b); gr_functions : incl (fd_functions a) (fd_functions b);
  gr_properties : incl (fd_properties a) (fd_properties b); gr_subs : incl (fd_subs a) (fd_subs b) }.
Lemma grows_refl : forall a, grows a a.
Proof. intros a. constructor; intros y Hy; exact Hy. Qed.
Lemma grows_trans : forall a b c, grows a b -> grows b c -> grows a c.
Proof. intros a b c [] []. constructor; eapply incl_tran; eassumption. Qed.
Lemma insert_incl : forall l i, incl l (insert_name l i).
Proof. intros l i y Hy. apply insert_In. now left. Qed.
Lemma step_grows : forall x name st a st', module_step x name st a = Ok st' -> grows st st'.
Proof.
  intros x name [ims cfs cls tvs fns prs sbs] a st' H. cbn [module_step] in H. apply bind_Ok in H as (v & _ & H).
  destruct v; try (injection H as <-); try (apply bind_Ok in H as (c & _ & H)); try destruct c as [c|]; try destruct (mem_str (at_name a) sbs); try (injection H as <-);
    constructor; cbn; solve [apply incl_refl|apply incl_appl, incl_refl|apply insert_incl].
Qed.
Lemma retarget_grows : forall c m st, grows st (retarget c m st).
Proof. intros c m st. constructor; cbn; solve [apply incl_refl|apply incl_appl, incl_refl]. Qed.

Lemma each_attr_reached : forall {S} (le : S -> S -> Prop) (Q : S -> Prop) e o allowed step,
  (forall st, le st st) -> (forall a b c, le a b -> le b c -> le a c) -> (forall st a st', step st a = Ok st' -> le st st') ->
  forall names, (forall st a st' s, In s names -> read_attr e o s = Ok (Some a) -> allowed a = true -> Q st -> step st a = Ok st' -> Q st') ->
  forall st st' s a, Q st -> each_attr e o allowed step names st = Ok st' -> In s names ->
  (forall r, read_attr e o s = Ok r -> r = Some a) -> allowed a = true -> exists st1 st2, Q st1 /\ step st1 a = Ok st2 /\ le st2 st'.
Proof.
  intros S le Q e o allowed step Hr Ht Hs. induction names as [|n r IH]; intros HQ st st' s a Q0 H Hin Ha Hal; [easy|].
  cbn [each_attr] in H. apply bind_Ok in H as (b & Hb & H). apply bind_Ok in H as (st1 & H1 & H).
  assert (L : le st1 st').
  { clear - Hr Ht Hs H. revert st1 H. induction r as [|n r IH]; intros st1 H; [injection H as <-; apply Hr|]. cbn [each_attr] in H.
    apply bind_Ok in H as (b & Hb & H). apply bind_Ok in H as (st2 & H2 & H). apply (Ht _ st2); [|now apply IH].
    destruct b as [b|]; [|injection H2 as <-; apply Hr]. destruct (allowed b); [now apply (Hs _ b)|injection H2 as <-; apply Hr]. }
  assert (Q1 : Q st1).
  { destruct b as [b|]; [|now injection H1 as <-]. destruct (allowed b) eqn:Eb; [|now injection H1 as <-]. now apply (HQ st b st1 n (or_introl eq_refl)). }
  destruct Hin as [->|Hin].
  - apply Ha in Hb as ->. rewrite Hal in H1. exists st, st1. auto.
  - apply (IH (fun st a st' s Hs => HQ st a st' s (or_intror Hs)) st1 st' s a); auto.
Qed.
Lemma unique_names_cover : forall U l seen s, In s l -> In (ident_from_py U s) seen \/ exists t, In t (unique_names U seen l) /\ ident_from_py U t = ident_from_py U s.
Proof.
  intros U. induction l as [|y r IH]; intros seen s Hs; [easy|]. cbn [unique_names]. destruct (mem_str (ident_from_py U y) seen) eqn:E.
  - destruct Hs as [->|Hs]; [left; now apply mem_str_In|now apply IH].
  - destruct Hs as [->|Hs]; [right; exists s; split; [now left|reflexivity]|].
    destruct (IH (ident_from_py U y :: seen) s Hs) as [[K|K]|(t & Ht & K)]; [right; exists y; split; [now left|exact K]|now left|right; exists t; split; [now right|exact K]].
Qed.
Lemma unique_names_nodup : forall U l seen, NoDup (map (ident_from_py U) (unique_names U seen l)) /\
  forall s, In s (unique_names U seen l) -> ~ In (ident_from_py U s) seen.
Proof.
  intros U. induction l as [|y r IH]; intros seen; [split; [constructor|easy]|]. cbn [unique_names]. destruct (mem_str (ident_from_py U y) seen) eqn:E; [apply IH|].
  apply mem_str_notIn in E. destruct (IH (ident_from_py U y :: seen)) as [A B]. split.
  - cbn [map]. constructor; [|exact A]. intros K. apply in_map_iff in K as (t & Et & Ht). apply (B t Ht). now left.
  - intros s [<-|Hs]; [exact E|]. intros K. apply (B s Hs). now right.
Qed.
Lemma read_attr_inv : forall e o s a, read_attr e o s = Ok (Some a) ->
  at_name a = ident_from_py (e_uni e) s /\ w_getattr (e_world e) o (as_py (at_name a)) = Some (at_obj a) /\ at_module a = from_module (e_uni e) (e_world e) (at_obj a).
Proof.
  intros e o s a H. unfold read_attr in H. apply bind_Ok in H as (n & Hn & H). apply chk_ident in Hn. destruct (w_getattr _ o (as_py n)) as [b|] eqn:E; [|discriminate].
  apply bind_Ok in H as (m & Hm & H). injection H as <-. cbn. unfold module_of in Hm. apply chk_path in Hm. auto.
Qed.
(** An attribute is determined by its name. *)
Lemma attr_eq : forall a b, at_name a = at_name b -> at_obj a = at_obj b -> at_module a = at_module b -> a = b.
Proof. intros [] []. cbn. congruence. Qed.
Lemma read_attr_same : forall e o s t a b, read_attr e o s = Ok (Some a) -> read_attr e o t = Ok (Some b) -> at_name a = at_name b -> a = b.
Proof.
  intros e o s t a b Ha Hb E. apply read_attr_inv in Ha as (A1 & A2 & A3), Hb as (B1 & B2 & B3). rewrite E in A2. rewrite A2 in B2. injection B2 as B2.
  apply attr_eq; [exact E|exact B2|congruence].
Qed.
Lemma read_attr_other : forall e o s r a, ident_from_py (e_uni e) s = at_name a -> w_getattr (e_world e) o (as_py (at_name a)) = Some (at_obj a) ->
  at_module a = from_module (e_uni e) (e_world e) (at_obj a) -> read_attr e o s = Ok r -> r = Some a.
Proof.
  intros e o s r a H1 H2 H3 H. unfold read_attr in H. apply bind_Ok in H as (n & Hn & H). apply chk_ident in Hn. subst n. rewrite H1, H2 in H.
  apply bind_Ok in H as (m & Hm & H). injection H as <-. unfold module_of in Hm. apply chk_path in Hm. f_equal. destruct a; cbn in *. f_equal. rewrite Hm. symmetry. exact H3.
Qed.

Lemma read_import_target : forall x b t i, read_import x b t = Ok (Some i) -> im_target i = t.
Proof.
  intros x b t i H. unfold read_import in H. apply bind_Ok in H as (og & _ & H). destruct (path_eqb og t); [discriminate|]. destruct (negb _); [discriminate|].
  unfold import_new in H. destruct (import_type_from_paths og t); try discriminate. now injection H as <-.
Qed.

(** ** No two items share a path *)
Definition cnt (l : list path) (p : path) : nat := count_occ path_dec l p.
Lemma cnt_app : forall l k p, cnt (l ++ k) p = cnt l p + cnt k p.
Proof. intros. apply count_occ_app. Qed.
Lemma cnt_nodup : forall l, NoDup l <-> forall p, cnt l p <= 1.
Proof. intros l. apply NoDup_count_occ. Qed.
Lemma cnt_In : forall l p, In p l <-> cnt l p > 0.
Proof. intros l p. apply count_occ_In. Qed.
Lemma cnt_one : forall p q, cnt [p] q = if path_dec p q then 1 else 0.
Proof. intros p q. unfold cnt. cbn. destruct (path_dec p q); reflexivity. Qed.
Lemma snoc_inj : forall n i j, path_snoc n i = path_snoc n j -> i = j.
Proof. intros n i j H. unfold path_snoc in H. injection H as H. now apply app_inj_tail in H as [_ H]. Qed.
Lemma snocs_nodup : forall n l, NoDup l -> NoDup (map (path_snoc n) l).
Proof. intros n l H. apply FinFun.Injective_map_NoDup; [|exact H]. intros i j. apply snoc_inj. Qed.

Lemma each_attr_count : forall {S} (paths : S -> list path) e o allowed step name,
  (forall st a st', step st a = Ok st' -> forall p, cnt (paths st') p <= cnt (paths st) p + cnt [path_snoc name (at_name a)] p) ->
  forall names st st', each_attr e o allowed step names st = Ok st' ->
  forall p, cnt (paths st') p <= cnt (paths st) p + cnt (map (path_snoc name) (map (ident_from_py (e_uni e)) names)) p.
Proof.
  intros S paths e o allowed step name Hstep. induction names as [|s r IH]; intros st st' H p; cbn [each_attr] in H; [injection H as <-; lia|].
  apply bind_Ok in H as (b & Hb & H). apply bind_Ok in H as (st1 & H1 & H). specialize (IH st1 st' H p).
  change (map (path_snoc name) (map (ident_from_py (e_uni e)) (s :: r))) with ([path_snoc name (ident_from_py (e_uni e) s)] ++ map (path_snoc name) (map (ident_from_py (e_uni e)) r)).
  rewrite cnt_app. destruct b as [b|]; [|injection H1 as <-; lia]. destruct (allowed b); [|injection H1 as <-; lia].
  specialize (Hstep st b st1 H1 p). apply read_attr_inv in Hb as (E & _). rewrite E in Hstep. lia.
Qed.
Lemma each_attr_distinct : forall {S} (paths : S -> list path) e o allowed step name,
  (forall st a st', step st a = Ok st' -> forall p, cnt (paths st') p <= cnt (paths st) p + cnt [path_snoc name (at_name a)] p) ->
  forall l st st', each_attr e o allowed step (unique_names (e_uni e) [] l) st = Ok st' -> paths st = [] -> NoDup (paths st').
Proof.
  intros S paths e o allowed step name Hstep l st st' H E. apply cnt_nodup. intros p. pose proof (each_attr_count paths e o allowed step name Hstep _ _ _ H p) as K.
  rewrite E in K. cbn in K. assert (N : NoDup (map (path_snoc name) (map (ident_from_py (e_uni e)) (unique_names (e_uni e) [] l)))) by (apply snocs_nodup, unique_names_nodup).
  apply cnt_nodup with (p := p) in N. lia.
Qed.

Lemma class_distinct : forall e cfg o name c, class_parse e cfg o name = Ok c -> NoDup (member_paths c).
Proof.
  intros e cfg o name c H. unfold class_parse in H. apply bind_Ok in H as ([ms ps] & H1 & H). apply bind_Ok in H as (doc & _ & H). injection H as <-.
  refine (each_attr_distinct (fun st : list func * list property => map fn_name (fst st) ++ map pr_name (snd st)) _ _ _ _ name _ _ _ _ H1 eq_refl).
  intros [ms0 ps0] a [ms1 ps1] Hs p. unfold class_step in Hs. apply bind_Ok in Hs as (v & _ & Hs). cbn [fst snd] in *.
  destruct v; try (injection Hs as <- <-; lia); apply bind_Ok in Hs as (y & Hy & Hs); injection Hs as <- <-; rewrite map_app, !cnt_app; cbn [map].
  - apply fn_parse_typed in Hy as [-> _]. lia.
  - apply fn_parse_typed in Hy as [-> _]. lia.
  - apply prop_parse_typed in Hy as [-> _]. lia.
Qed.

Definition own_paths (st : found) : list path :=
  map im_target (fd_imports st) ++ map cl_name (fd_classes st) ++ fd_typevars st ++ map fn_name (fd_functions st) ++ map pr_name (fd_properties st).
Definition found_paths (st : found) : list path := own_paths st ++ map im_target (fd_conflicts st).
Lemma step_count : forall x name st a st', module_step x name st a = Ok st' ->
  forall p, cnt (found_paths st') p <= cnt (found_paths st) p + cnt [path_snoc name (at_name a)] p.
Proof.
  intros x name [ims cfs cls tvs fns prs sbs] a st' H p. cbn [module_step] in H. apply bind_Ok in H as (v & _ & H). unfold found_paths, own_paths.
  destruct v.
  - apply bind_Ok in H as (c & Hc & H). destruct c as [c|]; [|injection H as <-; cbn; lia]. apply read_import_target in Hc.
    destruct (mem_str (at_name a) sbs); injection H as <-; cbn [fd_imports fd_conflicts fd_classes fd_typevars fd_functions fd_properties];
      rewrite ?map_app, ?cnt_app; cbn [map]; rewrite Hc; lia.
  - injection H as <-. cbn [fd_imports fd_conflicts fd_classes fd_typevars fd_functions fd_properties]. lia.
  - apply bind_Ok in H as (c & Hc & H). injection H as <-. cbn [fd_imports fd_conflicts fd_classes fd_typevars fd_functions fd_properties].
    rewrite ?map_app, ?cnt_app; cbn [map]. apply class_parse_typed in Hc as [-> _]. lia.
  - apply bind_Ok in H as (c & Hc & H). injection H as <-. cbn [fd_imports fd_conflicts fd_classes fd_typevars fd_functions fd_properties].
    rewrite ?map_app, ?cnt_app; cbn [map]. apply fn_parse_typed in Hc as [-> _]. lia.
  - injection H as <-. cbn [fd_imports fd_conflicts fd_classes fd_typevars fd_functions fd_properties]. lia.
  - apply bind_Ok in H as (c & Hc & H). injection H as <-. cbn [fd_imports fd_conflicts fd_classes fd_typevars fd_functions fd_properties].
    rewrite ?map_app, ?cnt_app; cbn [map]. apply fn_parse_typed in Hc as [-> _]. lia.
  - injection H as <-. cbn [fd_imports fd_conflicts fd_classes fd_typevars fd_functions fd_properties]. rewrite ?map_app, ?cnt_app. lia.
  - apply bind_Ok in H as (c & Hc & H). injection H as <-. cbn [fd_imports fd_conflicts fd_classes fd_typevars fd_functions fd_properties].
    rewrite ?map_app, ?cnt_app; cbn [map]. apply prop_parse_typed in Hc as [-> _]. lia.
Qed.
(** Moving items *)
Lemma moved_count : forall {A} (name : A -> path) (f : A -> A) o t l p, (forall y, name (f y) = t) ->
  cnt (map name (map f (opt_list (find_path name o l)))) p <= cnt (map name l) o * cnt [t] p.
Proof.
  intros A name f o t l p Hf. unfold find_path. destruct (find _ l) as [y|] eqn:E; cbn [opt_list map]; [|cbn; lia].
  rewrite Hf. apply find_some in E as [E1 E2]. apply path_eqb_eq in E2. assert (cnt (map name l) o > 0) by (apply cnt_In, in_map_iff; now exists y).
  rewrite cnt_one. destruct (path_dec t p); lia.
Qed.
Lemma retarget_count : forall c m st p, NoDup (item_paths m) -> cnt (own_paths (retarget c m st)) p <= cnt (own_paths st) p + cnt [im_target c] p.
Proof.
  intros c m st p N. unfold own_paths, retarget. cbn [fd_imports fd_conflicts fd_classes fd_typevars fd_functions fd_properties]. rewrite !map_app, !cnt_app.
  set (o := im_origin c). set (t := im_target c).
  apply cnt_nodup with (p := o) in N. unfold item_paths in N. rewrite !cnt_app in N.
  pose proof (moved_count im_target (fun i => mk_import (im_origin i) t (im_type i)) o t (m_imports m) p (fun _ => eq_refl)) as K1.
  pose proof (moved_count cl_name (fun c => mk_class t (cl_methods c) (cl_props c) (cl_doc c)) o t (m_classes m) p (fun _ => eq_refl)) as K2.
  pose proof (moved_count (fun y : path => y) (fun _ => t) o t (m_typevars m) p (fun _ => eq_refl)) as K3.
  pose proof (moved_count fn_name (fun f => mk_func t (fn_typ f) (fn_params f) (fn_ret f) (fn_doc f)) o t (m_functions m) p (fun _ => eq_refl)) as K4.
  pose proof (moved_count pr_name (fun q => mk_property t (pr_owner q) (pr_mutable q) (pr_ann q) (pr_setter_ann q) (pr_doc q) (pr_setter_doc q)) o t (m_properties m) p (fun _ => eq_refl)) as K5.
  rewrite !map_id in K3. nia.
Qed.
Lemma sub_steps_count : forall x rec o name, (forall s m, rec s = Ok m -> NoDup (item_paths m)) ->
  forall l acc acc', sub_steps x rec o name acc l = Ok acc' ->
  forall p, (cnt (own_paths (fst acc')) p <= cnt (own_paths (fst acc)) p + cnt (map (path_snoc name) l) p) /\
            (~ In p (map im_target (fd_conflicts (fst acc))) -> cnt (own_paths (fst acc')) p <= cnt (own_paths (fst acc)) p).
Proof.
  intros x rec o name Hrec. induction l as [|i l IH]; intros acc acc' H p; cbn [sub_steps] in H; [injection H as <-; split; lia|].
  apply bind_Ok in H as (acc1 & H1 & H). destruct (IH acc1 acc' H p) as [K1 K2].
  change (map (path_snoc name) (i :: l)) with ([path_snoc name i] ++ map (path_snoc name) l). rewrite cnt_app.
  destruct acc as [st subs]. unfold sub_step in H1. cbn [fst] in *. destruct (find_path im_target _ _) as [c|] eqn:Ec.
  - unfold find_path in Ec. apply find_some in Ec as [Ec1 Ec2]. apply path_eqb_eq in Ec2.
    destruct (w_import _ _) as [t|]; [|injection H1 as <-; cbn [fst] in *; split; [lia|auto]].
    destruct (rec t) as [k| | |] eqn:Ek; try discriminate; injection H1 as <-; cbn [fst] in *; [|split; [lia|auto]].
    pose proof (retarget_count c k st p (Hrec t k Ek)) as R. rewrite Ec2 in R. split; [lia|].
    intros Hn. specialize (K2 Hn). assert (cnt [path_snoc name i] p = 0).
    { rewrite cnt_one. destruct (path_dec _ _) as [E|]; [|reflexivity]. destruct Hn. rewrite <- E, <- Ec2. now apply in_map. }
    lia.
  - destruct (find_submodule _ _ _ _) as [t|]; [|injection H1 as <-; cbn [fst] in *; split; [lia|auto]].
    apply bind_Ok in H1 as (k & _ & H1). injection H1 as <-. cbn [fst] in *. split; [lia|auto].
Qed.
Lemma body_distinct : forall x rec o m, order_ok (pe_ord x) -> (forall s k, rec s = Ok k -> NoDup (item_paths k)) -> mod_parse_body x rec o = Ok m -> NoDup (item_paths m).
Proof.
  intros x rec o m Ho Hrec H. unfold mod_parse_body in H. apply bind_Ok in H as (name & Hname & H).
  apply bind_Ok in H as (pre & _ & H). apply bind_Ok in H as (sbs & Hsbs & H). apply bind_Ok in H as (st & Hst & H).
  apply bind_Ok in H as ([st' subs] & Hsub & H). apply bind_Ok in H as (doc & _ & H). injection H as <-. change (NoDup (own_paths st')).
  pose proof (each_attr_distinct found_paths _ _ _ _ name (step_count x name) _ _ _ Hst eq_refl) as N.
  destruct (traverse_submodules (pe_cfg x)).
  2:{ injection Hsub as <- _. unfold found_paths in N. apply cnt_nodup. intros p. apply cnt_nodup with (p := p) in N. rewrite cnt_app in N. lia. }
  apply cnt_nodup. intros p. destruct (sub_steps_count x rec o name Hrec _ _ _ Hsub p) as [K1 K2]. cbn [fst] in *.
  apply cnt_nodup with (p := p) in N. unfold found_paths in N. rewrite cnt_app in N.
  assert (D : In p (map im_target (fd_conflicts st)) \/ ~ In p (map im_target (fd_conflicts st))) by (destruct (in_dec path_dec p (map im_target (fd_conflicts st))); auto).
  destruct D as [D|D]; [|specialize (K2 D); lia]. apply cnt_In in D.
  assert (Ns : NoDup (ho (pe_ord x) (fd_subs st))).
  { apply (Permutation_NoDup (Permutation_sym (Ho _ _))). refine (each_attr_inv (fun st => NoDup (fd_subs st)) _ _ _ _ _ _ _ _ _ Hst).
    - intros st0 a st1 s _ _ _ Q Hstep. apply step_subs in Hstep as [E|(E & _)]; rewrite E; [exact Q|now apply insert_NoDup].
    - cbn [fd_subs]. destruct (w_getattr _ o _); [now apply submodules_names in Hsbs|]. injection Hsbs as <-. constructor. }
  apply (snocs_nodup name) in Ns. apply cnt_nodup with (p := p) in Ns. lia.
Qed.
Lemma parsed_distinct : forall x fuel o m, order_ok (pe_ord x) -> mod_parse x fuel o = Ok m -> forall k, within k m -> NoDup (item_paths k).
Proof.
  intros x fuel o m Ho. revert fuel o m. refine (mod_parse_ind (fun m => forall k, within k m -> NoDup (item_paths k)) x _). intros rec o m IH H k Hk.
  assert (Hn : exists name, module_path x o = Ok name) by (unfold mod_parse_body in H; apply bind_Ok in H as (name & Hn & _); eauto). destruct Hn as [name Hn].
  destruct Hk as [|m s Hin Hk]; [apply (body_distinct x rec o k Ho); [|exact H]; intros s k0 Hk0; apply (IH s k0 Hk0); constructor|].
  destruct (mod_body_inv (fun _ => True) (fun s => forall k, within k s -> NoDup (item_paths k)) x rec o m name Hn) as (_ & Hs & _); auto.
  - intros s0 k0 i _ Hk0. now apply (IH s0).
  - now apply (Hs s).
Qed.

Lemma find_unique_path : forall {A} (name : A -> path) l p i, NoDup (map name l) -> In i l -> name i = p -> find (fun y => path_eqb (name y) p) l = Some i.
Proof.
  intros A name l p i. induction l as [|y l IH]; intros N Hi E; [easy|]. cbn [find map] in *. inversion N as [|q r N1 N2]; subst.
  destruct Hi as [->|Hi]; [now rewrite path_eqb_refl|]. destruct (path_eqb (name y) (name i)) eqn:K; [|now apply IH].
  apply path_eqb_eq in K. destruct N1. rewrite K. now apply in_map.
Qed.
Lemma find_some_path : forall {A} (name : A -> path) l p i, In i l -> name i = p -> exists j, find_path name p l = Some j.
Proof.
  intros A name l p i Hi E. unfold find_path. destruct (find _ l) as [j|] eqn:F; [now exists j|]. pose proof (find_none _ _ F i Hi) as K. cbn in K.
  rewrite E, path_eqb_refl in K. discriminate.
Qed.
(** Items that are held but not in conflict *)
Definition own_item (st : found) (it : item) : Prop :=
  match it with
  | AnExport _ => False
  | AnImport i => In i (fd_imports st)
  | AClass c => In c (fd_classes st)
  | ATypeVar p => In p (fd_typevars st)
  | AFunction f => In f (fd_functions st)
  | AProperty p => In p (fd_properties st)
  end.
Lemma retarget_present : forall c m st it, has m it -> item_path it = Some (im_origin c) -> exists it', own_item (retarget c m st) it' /\ item_path it' = Some (im_target c).
Proof.
  intros c m st it Hit Hp. destruct it as [i|i|d|q|f|q]; cbn in Hit, Hp; try discriminate; injection Hp as Hp.
  - destruct (find_some_path _ _ _ _ Hit Hp) as [j E]. exists (AnImport (mk_import (im_origin j) (im_target c) (im_type j))). split; [|reflexivity]. cbn. rewrite E. apply in_or_app. right. now left.
  - destruct (find_some_path _ _ _ _ Hit Hp) as [j E]. exists (AClass (mk_class (im_target c) (cl_methods j) (cl_props j) (cl_doc j))). split; [|reflexivity]. cbn. rewrite E. apply in_or_app. right. now left.
  - destruct (find_some_path (fun y => y) _ _ _ Hit Hp) as [j E]. exists (ATypeVar (im_target c)). split; [|reflexivity]. cbn. rewrite E. apply in_or_app. right. now left.
  - destruct (find_some_path _ _ _ _ Hit Hp) as [j E]. exists (AFunction (mk_func (im_target c) (fn_typ j) (fn_params j) (fn_ret j) (fn_doc j))). split; [|reflexivity]. cbn. rewrite E. apply in_or_app. right. now left.
  - destruct (find_some_path _ _ _ _ Hit Hp) as [j E]. exists (AProperty (mk_property (im_target c) (pr_owner j) (pr_mutable j) (pr_ann j) (pr_setter_ann j) (pr_doc j) (pr_setter_doc j))). split; [|reflexivity]. cbn. rewrite E. apply in_or_app. right. now left.
Qed.

(** ** What becomes of an attribute of a module (C50) *)
Section attributes.
  Variable x : penv.
  Let e := pe_env x.
  Let w := pe_world x.
  Let U := pe_uni x.
  Hypothesis Ho : order_ok (pe_ord x).
  Variables (o : oid) (name : path) (a : attr).
  Let kind k := determine e (at_obj a) (at_module a) name true = Ok k.
  Let full := path_snoc name (at_name a).
  Hypothesis Hobj : w_getattr w o (as_py (at_name a)) = Some (at_obj a).
  Hypothesis Hmod : at_module a = from_module U w (at_obj a).

  Definition noted (k : variant) (st : found) : Prop :=
    match k with
    | VImport => read_import x a full = Ok None \/ exists i, read_import x a full = Ok (Some i) /\ (In i (fd_imports st) \/ In i (fd_conflicts st) /\ In (at_name a) (fd_subs st))
    | VModule => In (at_name a) (fd_subs st)
    | VClass => exists c, In c (fd_classes st) /\ class_parse e (pe_cfg x) (at_obj a) full = Ok c
    | VTypeVar => In full (fd_typevars st)
    | VFunction => exists f, In f (fd_functions st) /\ fn_parse e (at_obj a) full FFunction = Ok f
    | VClosure => exists f, In f (fd_functions st) /\ fn_parse e (at_obj a) full FClosure = Ok f
    | VMethod => True
    | VProperty => exists p, In p (fd_properties st) /\ prop_parse e (at_obj a) full OwnerModule = Ok p
    end.
  Lemma noted_grows : forall k st st', grows st st' -> noted k st -> noted k st'.
  Proof.
    intros k st st' []. destruct k; cbn [noted].
    - intros [H|(i & Hi & [H|[H H']])]; [now left|right; exists i; auto|right; exists i; auto].
    - auto.
    - intros (c & H & K). eauto.
    - intros (c & H & K). eauto.
    - easy.
    - intros (c & H & K). eauto.
    - auto.
    - intros (c & H & K). eauto.
  Qed.
  Lemma step_noted : forall st st', module_step x name st a = Ok st' -> exists k, kind k /\ noted k st'.
  Proof.
    intros [ims cfs cls tvs fns prs sbs] st' H. cbn [module_step] in H. apply bind_Ok in H as (v & Hv & H). exists v. split; [exact Hv|].
    fold e full in H. destruct v; cbn [noted].
    - apply bind_Ok in H as (i & Hi & H). destruct i as [i|]; [|now left]. right. exists i. split; [exact Hi|].
      destruct (mem_str (at_name a) sbs) eqn:E; injection H as <-; cbn; [right; split; [apply in_or_app; right; now left|now apply mem_str_In]|left; apply in_or_app; right; now left].
    - injection H as <-. cbn. apply insert_In. now right.
    - apply bind_Ok in H as (c & Hc & H). injection H as <-. exists c. split; [cbn; apply in_or_app; right; now left|exact Hc].
    - apply bind_Ok in H as (c & Hc & H). injection H as <-. exists c. split; [cbn; apply in_or_app; right; now left|exact Hc].
    - exact I.
    - apply bind_Ok in H as (c & Hc & H). injection H as <-. exists c. split; [cbn; apply in_or_app; right; now left|exact Hc].
    - injection H as <-. cbn. apply in_or_app. right. now left.
    - apply bind_Ok in H as (c & Hc & H). injection H as <-. exists c. split; [cbn; apply in_or_app; right; now left|exact Hc].
  Qed.
  (** Where the names of submodules come from *)
  Definition named_sub (b : attr) (i : ident) : Prop :=
    at_name b = i /\ (exists s, read_attr e o s = Ok (Some b)) /\ determine e (at_obj b) (at_module b) name true = Ok VModule.
  Lemma step_subs' : forall st b st' i, module_step x name st b = Ok st' -> In i (fd_subs st') ->
    In i (fd_subs st) \/ (at_name b = i /\ determine e (at_obj b) (at_module b) name true = Ok VModule).
  Proof.
    intros [ims cfs cls tvs fns prs sbs] b st' i H Hi. cbn [module_step] in H. apply bind_Ok in H as (v & Hv & H). cbn [fd_subs].
    destruct v; try (apply bind_Ok in H as (c & _ & H)); try destruct c as [c|]; try destruct (mem_str (at_name b) sbs); injection H as <-; cbn in Hi; auto.
    all: apply insert_In in Hi as [Hi| ->]; auto.
  Qed.
  Definition conflict_of (st : found) : Prop :=
    forall c, In c (fd_conflicts st) -> exists b s, read_attr e o s = Ok (Some b) /\ im_target c = path_snoc name (at_name b) /\ determine e (at_obj b) (at_module b) name true = Ok VImport.
  Lemma step_conflicts : forall st b st' s, read_attr e o s = Ok (Some b) -> module_step x name st b = Ok st' -> conflict_of st -> conflict_of st'.
  Proof.
    intros [ims cfs cls tvs fns prs sbs] b st' s Hs H K c Hc. cbn [module_step] in H. apply bind_Ok in H as (v & Hv & H).
    destruct v; try (apply bind_Ok in H as (c' & Hc' & H)); try destruct c' as [c'|]; try destruct (mem_str (at_name b) sbs); injection H as <-; cbn in Hc; try (now apply (K c)).
    apply in_app_or in Hc as [Hc|[<-|[]]]; [now apply (K c)|]. exists b, s. split; [exact Hs|]. split; [now apply read_import_target in Hc'|exact Hv].
  Qed.

  Lemma sub_steps_grow : forall rec l acc acc', sub_steps x rec o name acc l = Ok acc' ->
    grows (fst acc) (fst acc') /\ incl (snd acc) (snd acc') /\ fd_conflicts (fst acc') = fd_conflicts (fst acc) /\ fd_subs (fst acc') = fd_subs (fst acc).
  Proof.
    intros rec. induction l as [|i l IH]; intros acc acc' H; cbn [sub_steps] in H.
    - injection H as <-. split; [apply grows_refl|]. split; [apply incl_refl|auto].
    - apply bind_Ok in H as (acc1 & H1 & H). apply IH in H as (G & I1 & C & S).
      assert (K : grows (fst acc) (fst acc1) /\ incl (snd acc) (snd acc1) /\ fd_conflicts (fst acc1) = fd_conflicts (fst acc) /\ fd_subs (fst acc1) = fd_subs (fst acc)).
      { destruct acc as [st subs]. unfold sub_step in H1. destruct (find_path _ _ _) as [c|].
        - destruct (w_import _ _) as [t|]; [|injection H1 as <-; split; [apply grows_refl|split; [apply incl_refl|auto]]].
          destruct (rec t); try discriminate; injection H1 as <-; cbn; [|split; [apply grows_refl|split; [apply incl_refl|auto]]].
          split; [apply retarget_grows|split; [apply incl_refl|auto]].
        - destruct (find_submodule _ _ _ _) as [t|]; [|injection H1 as <-; split; [apply grows_refl|split; [apply incl_refl|auto]]].
          apply bind_Ok in H1 as (k & _ & H1). injection H1 as <-. cbn. split; [apply grows_refl|split; [apply incl_appl, incl_refl|auto]]. }
      destruct K as (G1 & I2 & C1 & S1). split; [eapply grows_trans; eassumption|]. split; [eapply incl_tran; eassumption|]. split; congruence.
  Qed.
  Lemma sub_steps_reached : forall rec l acc acc' i, sub_steps x rec o name acc l = Ok acc' -> In i l ->
    exists acc1 acc2, sub_step x rec o name acc1 i = Ok acc2 /\ grows (fst acc2) (fst acc') /\ incl (snd acc2) (snd acc') /\ fd_conflicts (fst acc1) = fd_conflicts (fst acc).
  Proof.
    intros rec. induction l as [|j l IH]; intros acc acc' i H Hi; [easy|]. cbn [sub_steps] in H. apply bind_Ok in H as (acc1 & H1 & H).
    assert (C : fd_conflicts (fst acc1) = fd_conflicts (fst acc)).
    { assert (K : sub_steps x rec o name acc [j] = Ok acc1) by (cbn [sub_steps]; rewrite H1; reflexivity). now apply sub_steps_grow in K. }
    destruct Hi as [->|Hi].
    - exists acc, acc1. apply sub_steps_grow in H as (G & I1 & _). auto.
    - destruct (IH acc1 acc' i H Hi) as (b1 & b2 & K1 & K2 & K3 & K4). exists b1, b2. repeat split; auto; [apply K2..|]. congruence.
  Qed.

  Definition settled (rec : oid -> outcome module) (k : variant) (m : module) : Prop :=
    match k with
    | VImport => read_import x a full = Ok None \/ exists i, read_import x a full = Ok (Some i) /\ (In i (m_imports m) \/
        (exists s, In s (w_iter_modules w o) /\ ident_from_py U s = at_name a) /\
        (traverse_submodules (pe_cfg x) = true -> forall t k it, w_import w (to_py full) = Some t -> rec t = Ok k -> has k it -> item_path it = Some (im_origin i) ->
           exists it', has m it' /\ item_path it' = Some full))
    | VModule => traverse_submodules (pe_cfg x) = true -> exists t s, In s (m_subs m) /\ rec t = Ok s /\ (t = at_obj a \/ w_import w (to_py full) = Some t)
    | VClass => exists c, In c (m_classes m) /\ class_parse e (pe_cfg x) (at_obj a) full = Ok c
    | VTypeVar => In full (m_typevars m)
    | VFunction => exists f, In f (m_functions m) /\ fn_parse e (at_obj a) full FFunction = Ok f
    | VClosure => exists f, In f (m_functions m) /\ fn_parse e (at_obj a) full FClosure = Ok f
    | VMethod => True
    | VProperty => exists p, In p (m_properties m) /\ prop_parse e (at_obj a) full OwnerModule = Ok p
    end.
  Lemma extracted_listed : forall l i, extract_submodules x o = Ok l -> In i l -> exists s, In s (w_iter_modules w o) /\ ident_from_py U s = i.
  Proof.
    intros l i H Hi. unfold extract_submodules in H. apply bind_Ok in H as (n & _ & H). apply bind_Ok in H as (ids & Hids & H). injection H as <-.
    destruct (insert_fold (filter (fun i => is_attr_allowed (pe_cfg x) i n) ids) [] (NoDup_nil _)) as [_ B]. apply B in Hi as [[]|Hi].
    apply filter_In in Hi as [Hi _]. destruct (mapM_In _ _ _ _ Hids Hi) as (s & Hs & E). apply chk_ident in E. now exists s.
  Qed.
  Lemma kind_module : kind VModule -> tf_is_module (w_type w (at_obj a)) = true.
  Proof.
    intros H. unfold kind, determine in H. apply bind_Ok in H as (tn & _ & H). apply bind_Ok in H as (tm & _ & H). injection H as H.
    fold w in H. change (e_world e) with w in H. destruct (tf_is_module (w_type w (at_obj a))); [reflexivity|].
    repeat match type of H with (if ?b then _ else _) = _ => destruct b; try discriminate end.
  Qed.
  Lemma body_attr : forall rec m s, module_path x o = Ok name -> In s (w_dir w o) -> ident_from_py U s = at_name a ->
    is_attr_allowed (pe_cfg x) (at_name a) (at_module a) = true -> mod_parse_body x rec o = Ok m -> exists k, kind k /\ settled rec k m.
  Proof.
    intros rec m s Hname Hs Es Hal H. unfold mod_parse_body in H. rewrite Hname in H. cbn [obind] in H.
    apply bind_Ok in H as (pre & _ & H). apply bind_Ok in H as (sbs & Hsbs & H). apply bind_Ok in H as (st & Hst & H).
    apply bind_Ok in H as ([st' subs] & Hsub & H). apply bind_Ok in H as (doc & _ & H). injection H as <-.
    destruct (unique_names_cover U (w_dir w o) [] s Hs) as [[]|(t & Ht & Et)].
    set (listed := fun i : ident => exists s, In s (w_iter_modules w o) /\ ident_from_py U s = i).
    set (Q := fun st : found => conflict_of st /\ forall i, In i (fd_subs st) -> listed i \/ exists b, named_sub b i).
    assert (Hsbs' : forall i, In i sbs -> listed i).
    { intros i Hi. destruct (w_getattr _ o (u "__path__")); [now apply (extracted_listed sbs)|injection Hsbs as <-; easy]. }
    assert (Qstep : forall st0 b st1 s0, In s0 (unique_names U [] (w_dir w o)) -> read_attr e o s0 = Ok (Some b) -> is_attr_allowed (pe_cfg x) (at_name b) (at_module b) = true -> Q st0 ->
       module_step x name st0 b = Ok st1 -> Q st1).
    { intros st0 b st1 s0 _ Hr _ [Q1 Q2] Hstep. split; [now apply (step_conflicts st0 b st1 s0)|]. intros i Hi.
      destruct (step_subs' st0 b st1 i Hstep Hi) as [K|[K1 K2]]; [now apply Q2|]. right. exists b. split; [exact K1|]. split; [now exists s0|exact K2]. }
    assert (Q0 : Q (mk_found [] [] [] [] [] [] sbs)) by (split; [intros c []|intros i Hi; left; now apply Hsbs']).
    assert (Qst : Q st) by (refine (each_attr_inv Q _ _ _ _ _ _ _ Qstep Q0 Hst)).
    assert (Hra : forall r, read_attr e o t = Ok r -> r = Some a) by (intros r; apply read_attr_other; [now rewrite <- Es, <- Et|exact Hobj|exact Hmod]).
    destruct (each_attr_reached grows Q e o (fun a => is_attr_allowed (pe_cfg x) (at_name a) (at_module a)) (module_step x name)
      grows_refl grows_trans (step_grows x name) _ Qstep _ st t a Q0 Hst Ht Hra Hal) as (st1 & st2 & Q1 & Hstep & G).
    destruct (step_noted st1 st2 Hstep) as (k & Hk & N). exists k. split; [exact Hk|]. apply (noted_grows k _ _ G) in N.
    assert (Hr : exists r, read_attr e o t = Ok r).
    { clear - Hst Ht. revert Hst. generalize (mk_found [] [] [] [] [] [] sbs). unfold U, w in Ht. induction (unique_names _ _ _) as [|y l IH]; [easy|]. intros st0 H. cbn [each_attr] in H.
      apply bind_Ok in H as (b & Hb & H). apply bind_Ok in H as (st1 & H1 & H). destruct Ht as [->|Ht]; [now exists b|now apply (IH Ht st1)]. }
    destruct Hr as [r Hr]. pose proof (Hra r Hr) as ->.
    assert (K : forall b i, named_sub b i -> at_name a = i -> kind VModule).
    { intros b i (E1 & (s0 & Hs0) & Hd) E2. assert (a = b) as Eab by (apply (read_attr_same e o t s0); congruence). rewrite <- Eab in Hd. exact Hd. }
    assert (Gst : grows st st').
    { destruct (traverse_submodules _); [|injection Hsub as <- _; apply grows_refl]. now apply sub_steps_grow in Hsub. }
    apply (noted_grows k _ _ Gst) in N. destruct k; cbn [settled m_imports m_subs m_classes m_typevars m_functions m_properties]; try exact N.
    - destruct N as [N|(i & Hi & N)]; [now left|right]. exists i. split; [exact Hi|]. destruct N as [N|[Nc N]]; [now left|right].
      assert (N' : In (at_name a) (fd_subs st)).
      { destruct (traverse_submodules _); [|injection Hsub as <- _; exact N]. apply sub_steps_grow in Hsub as (_ & _ & _ & E). cbn [fst] in E. now rewrite E in N. }
      destruct Qst as [_ Qs]. destruct (Qs _ N') as [L|(b & Hb)]; [|pose proof (K b _ Hb eq_refl) as Hk'; unfold kind in Hk, Hk'; congruence].
      split; [exact L|]. intros Htr t0 k0 it Hi0 Hk0 Hit Hp0. rewrite Htr in Hsub. pose proof Hsub as Hsub'. apply sub_steps_grow in Hsub' as (_ & _ & Ec & _). cbn [fst] in Ec.
      apply (Permutation_in _ (Permutation_sym (Ho _ _))) in N'.
      destruct (sub_steps_reached rec _ _ _ _ Hsub N') as ([s1 l1] & [s2 l2] & Hs1 & G2 & _ & C1). cbn [fst snd] in *. unfold sub_step in Hs1. fold full in Hs1.
      assert (E : find_path im_target full (fd_conflicts s1) = Some i).
      { rewrite C1, <- Ec. unfold find_path. apply find_unique_path; [rewrite Ec|exact Nc|now apply read_import_target in Hi].
        pose proof (each_attr_distinct found_paths _ _ _ _ name (step_count x name) _ _ _ Hst eq_refl) as Nd. unfold found_paths in Nd.
        apply cnt_nodup. intros q. apply cnt_nodup with (p := q) in Nd. rewrite cnt_app in Nd. lia. }
      rewrite E in Hs1. fold w in Hs1. rewrite Hi0, Hk0 in Hs1. injection Hs1 as <- <-.
      destruct (retarget_present i k0 s1 it Hit Hp0) as (it' & Hit' & Hp'). exists it'. split; [|rewrite Hp'; f_equal; now apply read_import_target in Hi].
      destruct G2. destruct it'; cbn in Hit' |- *; try contradiction; auto.
    - intros Htr. rewrite Htr in Hsub. cbn in N.
      assert (N' : In (at_name a) (ho (pe_ord x) (fd_subs st))).
      { apply (Permutation_in _ (Permutation_sym (Ho _ _))). apply sub_steps_grow in Hsub as (_ & _ & _ & E). cbn [fst] in E. now rewrite E in N. }
      destruct (sub_steps_reached rec _ _ _ _ Hsub N') as ([s1 l1] & [s2 l2] & Hi & _ & I2 & C1). cbn [fst snd] in *. unfold sub_step in Hi. fold full in Hi.
      destruct (find_path im_target full (fd_conflicts s1)) as [c|] eqn:Ec.
      { exfalso. unfold find_path in Ec. apply find_some in Ec as [Ec1 Ec2]. apply path_eqb_eq in Ec2. rewrite C1 in Ec1. destruct Qst as [Qc _].
        destruct (Qc c Ec1) as (b & s0 & Hb & Tb & Kb). rewrite Ec2 in Tb. unfold full, path_snoc in Tb. injection Tb as Tb. apply app_inj_tail in Tb as [_ Tb].
        assert (a = b) as Eab by (apply (read_attr_same e o t s0); assumption). rewrite <- Eab in Kb. unfold kind in Hk. congruence. }
      assert (Hf : exists t0, find_submodule x o full (at_name a) = Some t0 /\ (t0 = at_obj a \/ w_import w (to_py full) = Some t0)).
      { unfold find_submodule. fold w. destruct (w_import w (to_py full)) as [t0|]; [eauto|]. rewrite Hobj, (kind_module Hk). eauto. }
      destruct Hf as (t0 & Hf & Ht0). rewrite Hf in Hi. apply bind_Ok in Hi as (k & Hrk & Hi). injection Hi as <- <-. exists t0, k. split; [|auto].
      apply I2. apply in_or_app. right. now left.
  Qed.
End attributes.

Lemma segments_iff : forall cfg rest before, segments_allowed cfg before rest = true <->
  forall b i r, rest = b ++ i :: r -> is_attr_allowed cfg i (path_of_segs (before ++ b)) = true.
Proof.
  intros cfg. induction rest as [|j rest IH]; intros before; cbn [segments_allowed].
  - split; [|reflexivity]. intros _ b i r E. now destruct b.
  - rewrite andb_true_iff, IH. split.
    + intros [H1 H2] [|k b] i r E; injection E as <- E; [now rewrite app_nil_r|]. specialize (H2 b i r E). now rewrite <- app_assoc in H2.
    + intros H. split; [specialize (H [] j rest eq_refl); now rewrite app_nil_r in H|]. intros b i r E. specialize (H (j :: b) i r). rewrite <- app_assoc. apply H. cbn. now f_equal.
Qed.
Lemma through_iff : forall cfg p, segments_allowed cfg [] (segs p) = false <-> through_hidden cfg p.
Proof.
  intros cfg p. split.
  - intros H.
    assert (K : forall rest before, segments_allowed cfg before rest = false -> exists b i r, rest = b ++ i :: r /\ is_attr_allowed cfg i (path_of_segs (before ++ b)) = false).
    { clear. induction rest as [|j rest IH]; intros before H; cbn [segments_allowed] in H; [discriminate|]. destruct (is_attr_allowed cfg j (path_of_segs before)) eqn:E.
      - cbn in H. destruct (IH _ H) as (b & i & r & -> & K). exists (j :: b), i, r. split; [reflexivity|]. now rewrite <- app_assoc in K.
      - exists [], j, rest. split; [reflexivity|]. now rewrite app_nil_r. }
    destruct (K _ _ H) as (b & i & r & E & K'). exists b, i, r. split; [exact E|]. apply hidden_iff in K'. exact K'.
  - intros (b & i & r & E & H). destruct (segments_allowed cfg [] (segs p)) eqn:K; [|reflexivity]. pose proof (proj1 (segments_iff _ _ _) K b i r E) as A.
    apply (hidden_iff cfg i (path_of_segs b)) in H. cbn in A. congruence.
Qed.
Lemma import_origin_place : forall x a og, at_module a = from_module (pe_uni x) (pe_world x) (at_obj a) -> import_origin x a = Ok og ->
  og = place_of (pe_uni x) (pe_world x) (at_name a) (at_obj a).
Proof.
  intros x a og Hm H. unfold import_origin in H. apply bind_Ok in H as (p & Hp & H). apply chk_path in Hp. unfold path_join in H. destruct (leading_colon p); [discriminate|].
  injection H as <-. unfold place_of. now rewrite Hm, Hp.
Qed.
Lemma read_import_cases : forall x a t r, at_module a = from_module (pe_uni x) (pe_world x) (at_obj a) -> read_import x a t = Ok r ->
  let og := place_of (pe_uni x) (pe_world x) (at_name a) (at_obj a) in
  match r with
  | None => og = t \/ through_hidden (pe_cfg x) og
  | Some i => im_origin i = og /\ im_target i = t /\ og <> t /\ ~ through_hidden (pe_cfg x) og
  end.
Proof.
  intros x a t r Hm H. unfold read_import in H. apply bind_Ok in H as (og & Hog & H). apply import_origin_place in Hog; [|exact Hm]. subst og. cbv zeta.
  destruct (path_eqb _ t) eqn:E1; [injection H as <-; left; now apply path_eqb_eq|]. apply path_eqb_neq in E1.
  destruct (segments_allowed _ _ _) eqn:E2; cbn [negb] in H; [|injection H as <-; right; now apply through_iff].
  unfold import_new in H. destruct (import_type_from_paths _ t); try discriminate. injection H as <-. cbn. repeat split; [exact E1|]. intros K. apply through_iff in K. congruence.
Qed.
Lemma module_accounted : forall x fuel o m i a k, order_ok (pe_ord x) -> mod_parse x (S fuel) o = Ok m -> attribute_of (pe_uni x) (pe_world x) o i a ->
  ~ hidden (pe_cfg x) (as_py i) (components (from_module (pe_uni x) (pe_world x) a)) -> type_named (pe_world x) a ->
  first_test (documented_tests (pe_world x) a (from_module (pe_uni x) (pe_world x) a) (m_name m) True) k -> accounted (pe_uni x) (pe_world x) (pe_cfg x) (fun t k => mod_parse x fuel t = Ok k) o i a m k.
Proof.
  intros x f o m i a k Ho H (s & Hs & -> & Hg) Hh Ht Hk. cbn [mod_parse] in H.
  assert (Hn : module_path x o = Ok (m_name m)).
  { unfold mod_parse_body in H. apply bind_Ok in H as (name & Hn & H). repeat (apply bind_Ok in H as (? & _ & H)). destruct x3 as [st' subs].
    apply bind_Ok in H as (doc & _ & H). injection H as <-. exact Hn. }
  set (at' := mk_attr a (ident_from_py (pe_uni x) s) (from_module (pe_uni x) (pe_world x) a)).
  assert (Hal : is_attr_allowed (pe_cfg x) (at_name at') (at_module at') = true).
  { destruct (is_attr_allowed _ _ _) eqn:E; [reflexivity|]. apply hidden_iff in E. now destruct Hh. }
  destruct (body_attr x Ho o (m_name m) at' Hg eq_refl (mod_parse x f) m s Hn Hs eq_refl Hal H) as (k' & Hk' & S).
  apply determine_tests in Hk'; [|exact Ht].
  assert (K : first_test (documented_tests (pe_world x) a (from_module (pe_uni x) (pe_world x) a) (m_name m) True) k').
  { clear - Hk'. unfold documented_tests in *. cbn [at_obj at_module at'] in Hk'. inversion Hk' as [P b r HP|P b r c HP HR]; subst; [apply test_holds|apply test_fails]; [tauto| |exact HR].
    intros K. apply HP. tauto. }
  pose proof (first_test_unique _ _ _ Hk K) as ->. clear Hk K Hk'.
  unfold accounted. cbn [at' at_name at_obj at_module] in *. destruct k'; cbn [settled at_name at_obj] in S.
  - destruct S as [S|(j & Hj & S)].
    + apply (read_import_cases x at') in S; [|reflexivity]. cbn in S. tauto.
    + apply (read_import_cases x at') in Hj; [|reflexivity]. cbn in Hj. destruct Hj as (J1 & J2 & _ & _).
      destruct S as [S|[(t & Ht' & E) S]]; [right; right; left; now exists j|right; right; right]. split; [now exists t|]. rewrite <- J1. exact S.
  - intros Htr. destruct (S Htr) as (t & sub & Hin & Hr & Hor). now exists sub, t.
  - destruct S as (c & Hc & E). exists c. split; [exact Hc|]. now apply class_parse_typed in E.
  - destruct S as (c & Hc & E). exists c. split; [exact Hc|]. now apply fn_parse_typed in E.
  - exact I.
  - destruct S as (c & Hc & E). exists c. split; [exact Hc|]. now apply fn_parse_typed in E.
  - exact S.
  - destruct S as (c & Hc & E). exists c. split; [exact Hc|]. now apply prop_parse_typed in E.
Qed.

Lemma class_accounted : forall e cfg o name c i a k, class_parse e cfg o name = Ok c -> attribute_of (e_uni e) (e_world e) o i a ->
  (~ hidden cfg (as_py i) (components (from_module (e_uni e) (e_world e) a)) \/ as_py i = u "__init__" \/ as_py i = u "__call__") -> type_named (e_world e) a ->
  first_test (documented_tests (e_world e) a (from_module (e_uni e) (e_world e) a) name False) k -> accounted_in_class i c k.
Proof.
  intros e cfg o name c i a k H (s & Hs & -> & Hg) Hh Ht Hk. unfold class_parse in H. apply bind_Ok in H as ([ms ps] & H1 & H). apply bind_Ok in H as (doc & _ & H). injection H as <-.
  set (at' := mk_attr a (ident_from_py (e_uni e) s) (from_module (e_uni e) (e_world e) a)).
  assert (Hal : class_attr_allowed cfg at' = true).
  { unfold class_attr_allowed. cbn [at_name at_module at']. apply orb_true_iff. destruct Hh as [Hh|Hh]; [left|right].
    - destruct (is_attr_allowed _ _ _) eqn:E; [reflexivity|]. apply hidden_iff in E. now destruct Hh.
    - apply mem_str_In. cbn [map In]. destruct Hh as [-> | ->]; auto. }
  destruct (unique_names_cover (e_uni e) (w_dir (e_world e) o) [] s Hs) as [[]|(t & Htn & Et)].
  assert (Hra : forall r, read_attr e o t = Ok r -> r = Some at') by (intros r; apply read_attr_other; [exact Et|exact Hg|reflexivity]).
  set (le := fun a b : list func * list property => incl (fst a) (fst b) /\ incl (snd a) (snd b)).
  destruct (each_attr_reached le (fun _ => True) e o (class_attr_allowed cfg) (class_step e name)) with (names := unique_names (e_uni e) [] (w_dir (e_world e) o)) (st := ([] : list func, [] : list property)) (st' := (ms, ps)) (s := t) (a := at')
    as (st1 & st2 & _ & Hstep & [L1 L2]); auto.
  - intros st. split; apply incl_refl.
  - intros x y z [A B] [C D]. split; eapply incl_tran; eauto.
  - intros [f0 p0] b [f1 p1] Hb. unfold class_step in Hb. apply bind_Ok in Hb as (v & _ & Hb). unfold le. cbn [fst snd] in *.
    destruct v; try (injection Hb as <- <-; split; apply incl_refl); apply bind_Ok in Hb as (y & _ & Hb); injection Hb as <- <-; split; try apply incl_refl; now apply incl_appl, incl_refl.
  - unfold class_step in Hstep. apply bind_Ok in Hstep as (v & Hv & Hstep). apply determine_tests in Hv; [|exact Ht].
    assert (v = k) as ->.
    { apply (first_test_unique (documented_tests (e_world e) a (from_module (e_uni e) (e_world e) a) name False)); [|exact Hk].
      clear - Hv. unfold documented_tests in *. cbn [at_obj at_module at'] in Hv. inversion Hv as [P0 b r HP|P0 b r d HP HR]; subst; [destruct HP as (HP & _); discriminate|].
      apply test_fails; [tauto|exact HR]. }
    cbn [fst snd] in L1, L2. unfold accounted_in_class. cbn [cl_name cl_methods cl_props at' at_name at_obj] in *.
    destruct k; try exact I; apply bind_Ok in Hstep as (y & Hy & Hstep); injection Hstep as <-; cbn [fst snd] in L1, L2.
    + exists y. split; [apply L1, in_or_app; right; now left|]. now apply fn_parse_typed in Hy.
    + exists y. split; [apply L1, in_or_app; right; now left|]. now apply fn_parse_typed in Hy.
    + exists y. split; [apply L2, in_or_app; right; now left|]. now apply prop_parse_typed in Hy.
Qed.
