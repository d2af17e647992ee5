(** * Lemmas: no name is defined twice (C32) *)
From Coq Require Import Permutation.
From Verif Require Import Base Model_Ident Model_Path Model_Import Model_Text Model_Config Model_Type Model_IntoRs Model_World Model_Out
  Model_Function Model_Property Model_Class Model_Module Model_Parse Model_Codegen Spec_Path Spec_Names Spec_Call Spec_Items Spec_Tree Spec_Api Spec_Safe Spec_Out Spec_Privacy Spec_Prop Spec_Attr
  Proof_Base Proof_Ident Proof_Path Proof_Text Proof_Type Proof_IntoRs Proof_Call Proof_Function Proof_Fresh Proof_Method Proof_Kind Proof_Items Proof_Module
  Proof_Parse Proof_Forest Proof_Err Proof_Api Proof_Honest Proof_Calm Proof_Rooted Proof_Parts Proof_Property Proof_Scope Proof_Deps Proof_Attr Proof_Shown Proof_Doc Spec_Full Proof_Full Spec_Use Proof_Use
  Proof_Distinct Spec_Clash.

(** ** Names and owners *)
Lemma called_eq : forall U p n n', called U p n -> called U p n' -> n = n'.
Proof.
  intros U p n n' (H1 & q & E) (H2 & q' & E'). rewrite E in E'. apply app_inj_tail in E' as [_ E']. rewrite <- (as_py_from_py U n H1), <- (as_py_from_py U n' H2). now rewrite E'.
Qed.
Lemma called_snoc : forall U p n, starts_with (u "r#") n = false -> called U (path_snoc p (ident_from_py U n)) n.
Proof. intros U p n H. split; [exact H|]. now exists (segs p). Qed.
Lemma called_same : forall U q n a b, called U (path_snoc q a) n -> called U (path_snoc q b) n -> path_snoc q a = path_snoc q b.
Proof.
  intros U q n a b (_ & r & E) (_ & r' & E'). cbn in E, E'. apply app_inj_tail in E as [_ ->]. now apply app_inj_tail in E' as [_ ->].
Qed.

(** Lists of names with owners *)
Lemma gather_once : forall {A B} (f : A -> outcome B) (N : B -> list str) (claim : A -> str -> Prop) l r, mapM f l = Ok r -> NoDup l ->
  (forall a b, In a l -> f a = Ok b -> NoDup (N b) /\ forall s, In s (N b) -> claim a s) ->
  (forall a a' s, In a l -> In a' l -> claim a s -> claim a' s -> a = a') ->
  NoDup (flat_map N r) /\ forall s, In s (flat_map N r) -> exists a, In a l /\ claim a s.
Proof.
  intros A B f N claim. induction l as [|a l IH]; intros r H Hn Hf Hc; cbn [mapM] in H; [injection H as <-; split; [constructor|intros s []]|].
  apply bind_Ok in H as (b & Hb & H). apply bind_Ok in H as (k & Hk & H). injection H as <-. inversion Hn as [|? ? N1 N2]; subst.
  destruct (IH k Hk N2) as [I1 I2]; [intros; apply Hf; auto; now right|intros; apply (Hc a0 a' s); auto; now right|].
  destruct (Hf a b (or_introl eq_refl) Hb) as [F1 F2]. cbn [flat_map]. split.
  - apply NoDup_app_intro; auto. intros s H1 H2. destruct (I2 s H2) as (a' & Ha' & C'). apply N1. rewrite (Hc a a' s); auto; [now left|now right].
  - intros s Hs. apply in_app_or in Hs as [Hs|Hs]; [exists a; split; [now left|now apply F2]|]. destruct (I2 s Hs) as (a' & Ha' & C'). exists a'. split; [now right|exact C'].
Qed.
Lemma flat_concat : forall {A B} (g : A -> list B) l, flat_map g (concat l) = flat_map (flat_map g) l.
Proof. intros A B g. induction l as [|a l IH]; [reflexivity|]. cbn. now rewrite flat_map_app, IH. Qed.
Lemma map_flat : forall {A B C} (h : B -> C) (g : A -> list B) l, map h (flat_map g l) = flat_map (fun a => map h (g a)) l.
Proof. intros A B C h g. induction l as [|a l IH]; [reflexivity|]. cbn. now rewrite map_app, IH. Qed.
(** The same for the parts of a module, [g]: the names of one item *)
Lemma part_once : forall {A} (g : frag -> list ident) b (f : A -> outcome (list frag)) (claim : A -> str -> Prop) l r, when b (concatM f l) = Ok r -> NoDup l ->
  (forall a k, In a l -> f a = Ok k -> once (flat_map g k) /\ forall s, In s (map as_py (flat_map g k)) -> claim a s) ->
  (forall a a' s, In a l -> In a' l -> claim a s -> claim a' s -> a = a') ->
  once (flat_map g r) /\ forall s, In s (map as_py (flat_map g r)) -> exists a, In a l /\ claim a s.
Proof.
  intros A g b f claim l r H Hn Hf Hc. destruct b; cbn [when] in H; [|injection H as <-; split; [constructor|intros s []]].
  apply bind_Ok in H as (ks & Hks & H). injection H as <-. unfold once. rewrite flat_concat, map_flat. now apply (gather_once f (fun k => map as_py (flat_map g k)) claim).
Qed.
Lemma docs_none : forall (g : frag -> list ident) (docs : list frag), (forall x, In x docs -> exists t, x = GDoc t) -> (forall t, g (GDoc t) = []) -> flat_map g docs = [].
Proof.
  intros g. induction docs as [|d docs IH]; intros H Hg; [reflexivity|]. cbn. destruct (H d (or_introl eq_refl)) as [t ->]. rewrite Hg. apply IH; auto. intros x Hx. apply H. now right.
Qed.

(** ** Accessors *)
Definition just_fn (l : list frag) (s : str) : Prop := exists docs d, (forall x, In x docs -> exists t, x = GDoc t) /\ l = docs ++ [GFn d] /\ as_py (k_name (f_contract d)) = s.
Lemma just_fn_names : forall g l s, just_fn l s -> (forall t, g (GDoc t) = []) -> (forall d, g (GFn d) = [k_name (f_contract d)]) -> map as_py (flat_map g l) = [s].
Proof.
  intros g l s (docs & d & Hd & -> & <-) H1 H2. rewrite flat_map_app, (docs_none g docs Hd H1). cbn. now rewrite H2.
Qed.
Lemma prefixed_names : forall U scope pre n id, pre = "get_"%string \/ pre = "set_"%string -> prefixed_ident U scope pre (ident_from_py U n) = Ok (Some id) -> starts_with (u "r#") n = false ->
  as_py id = u pre ++ n /\ ~ In (ident_from_py U (u pre ++ n)) scope.
Proof.
  intros U scope pre n id Hp H Hn. unfold prefixed_ident in H. rewrite as_py_from_py in H by exact Hn. destruct (name_taken _ _) eqn:E in H; [discriminate|].
  destruct (ident_to_syn _ _) as [z| | |] eqn:Ez in H; try discriminate. injection H as <-. apply to_syn_ident in Ez as [-> _]. split.
  - apply as_py_from_py. destruct Hp as [-> | ->]; reflexivity.
  - unfold name_taken in E. apply orb_false_iff in E as [E _]. now apply mem_str_notIn in E.
Qed.
Lemma spelled_valid : forall U n, uni_ok U -> spellable_name U n -> syn_ident_ok U (as_rs (ident_from_py U n)) = true.
Proof. intros U n HU [H1 H2]. unfold as_rs. now apply (from_py_valid_iff U n HU H1). Qed.
Lemma getter_names : forall g scope p t l n, uni_ok (g_uni g) -> gen_getter g scope p = Ok (t, l) -> called (g_uni g) (pr_name p) n -> spellable_name (g_uni g) n -> ~ In n reserved ->
  l = [] \/ exists s, just_fn l s /\ ~ In (ident_from_py (g_uni g) s) scope /\ (s = n \/ s = u "get_" ++ n /\ In (ident_from_py (g_uni g) n) scope).
Proof.
  intros g scope p t l n HU H Hc Hs Hr. destruct (called_name _ _ _ Hc) as [E1 E2]. destruct (getter_shape g _ p t l H) as (nm & id & Hnm & Hid & K).
  rewrite E1 in Hnm. injection Hnm as <-. destruct id as [id|]; [|left; apply K]. right. destruct K as (docs & d & ty & Hd & Kn & _ & _ & _ & _ & _ & _ & _ & ->).
  unfold getter_ident in Hid. rewrite (spelled_valid _ n HU Hs) in Hid. cbn [andb] in Hid.
  destruct (name_taken scope (ident_from_py (g_uni g) n)) eqn:Et; cbn [negb] in Hid.
  - exists (u "get_" ++ n). destruct (prefixed_names _ _ _ _ _ (or_introl eq_refl) Hid (proj1 Hc)) as [K1 K2]. split; [|split; [exact K2|]].
    + exists docs, d. split; [exact (doc_only _ _ _ Hd)|]. split; [reflexivity|]. now rewrite Kn.
    + right. split; [reflexivity|]. unfold name_taken in Et. apply orb_true_iff in Et as [Et|Et]; [now apply mem_str_In in Et|]. rewrite E2 in Et. now apply mem_str_In in Et.
  - injection Hid as <-. exists n. split; [|split; [|now left]].
    + exists docs, d. split; [exact (doc_only _ _ _ Hd)|]. split; [reflexivity|]. now rewrite Kn.
    + unfold name_taken in Et. apply orb_false_iff in Et as [Et _]. now apply mem_str_notIn in Et.
Qed.
Lemma setter_names : forall g scope p t l n, gen_setter g scope p = Ok (t, l) -> called (g_uni g) (pr_name p) n ->
  l = [] \/ just_fn l (u "set_" ++ n) /\ ~ In (ident_from_py (g_uni g) (u "set_" ++ n)) scope.
Proof.
  intros g scope p t l n H Hc. destruct (called_name _ _ _ Hc) as [E1 E2]. destruct (setter_shape g _ p t l H) as (nm & id & Hnm & Hid & K).
  rewrite E1 in Hnm. injection Hnm as <-. destruct id as [id|]; [|left; apply K]. right. destruct K as (docs & d & ty & Hd & Kn & _ & _ & _ & _ & _ & _ & _ & ->).
  destruct (prefixed_names _ _ _ _ _ (or_intror eq_refl) Hid (proj1 Hc)) as [K1 K2]. split; [|exact K2].
  exists docs, d. split; [exact (doc_only _ _ _ Hd)|]. split; [reflexivity|]. now rewrite Kn.
Qed.
(** The names of a getter and a setter *)
Definition accessor_name (U : uni) (scope : list ident) (p : property) (s : str) : Prop :=
  ~ In (ident_from_py U s) scope /\ exists n, called U (pr_name p) n /\
    (s = n \/ s = u "get_" ++ n /\ In (ident_from_py U n) scope \/ s = u "set_" ++ n /\ pr_mutable p = true).
Lemma accessor_names : forall g scope p gt gi st si n, uni_ok (g_uni g) -> gen_getter g scope p = Ok (gt, gi) -> (if pr_mutable p then gen_setter g scope p else Ok ([], [])) = Ok (st, si) ->
  called (g_uni g) (pr_name p) n -> spellable_name (g_uni g) n -> ~ In n reserved ->
  forall h, (forall t, h (GDoc t) = []) -> (forall d, h (GFn d) = [k_name (f_contract d)]) ->
  once (flat_map h gi ++ flat_map h si) /\ forall s, In s (map as_py (flat_map h gi ++ flat_map h si)) -> accessor_name (g_uni g) scope p s.
Proof.
  intros g scope p gt gi st si n HU Hg Hs Hc Hsp Hr h H1 H2. unfold once. rewrite map_app.
  assert (S : flat_map h si = [] \/ map as_py (flat_map h si) = [u "set_" ++ n] /\ pr_mutable p = true /\ ~ In (ident_from_py (g_uni g) (u "set_" ++ n)) scope).
  { destruct (pr_mutable p); [|injection Hs as <- <-; now left]. destruct (setter_names g scope p st si n Hs Hc) as [->|[J K]]; [now left|right]. split; [now apply just_fn_names|now split]. }
  assert (G : flat_map h gi = [] \/ exists s, map as_py (flat_map h gi) = [s] /\ ~ In (ident_from_py (g_uni g) s) scope /\ (s = n \/ s = u "get_" ++ n /\ In (ident_from_py (g_uni g) n) scope)).
  { destruct (getter_names g scope p gt gi n HU Hg Hc Hsp Hr) as [->|(s & J & K)]; [now left|right]. exists s. split; [now apply just_fn_names|exact K]. }
  assert (D : u "set_" ++ n <> n). { intros E. apply (f_equal (@length _)) in E. rewrite app_length in E. cbn in E. lia. }
  split.
  - destruct G as [->|(s & -> & _ & G)], S as [->|(-> & _)]; cbn; repeat constructor; cbn; try tauto. intros [E|[]]. destruct G as [->|[-> _]]; [now apply D|discriminate].
  - intros s Hin. apply in_app_or in Hin as [Hin|Hin].
    + destruct G as [E|(s' & E & G1 & G2)]; rewrite E in Hin; [easy|]. destruct Hin as [<-|[]]. split; [exact G1|]. exists n. split; [exact Hc|]. tauto.
    + destruct S as [E|(E & S1 & S2)]; rewrite E in Hin; [easy|]. destruct Hin as [<-|[]]. split; [exact S2|]. exists n. split; [exact Hc|]. tauto.
Qed.

(** ** Methods and functions *)
(** The name of the function for [f] *)
Definition fn_named (U : uni) (scope : list ident) (f : func) (s : str) : Prop :=
  match fn_typ f with
  | FMethod _ MConstructor => (exists j, s = numbered (u "new") j) /\ ~ In (ident_from_py U s) scope
  | FMethod _ MCallable => (exists j, s = numbered (u "call") j) /\ ~ In (ident_from_py U s) scope
  | _ => called U (fn_name f) s
  end.
Lemma fresh_numbered : forall U base scope c, uni_ok U -> base = "call"%string \/ base = "new"%string -> fresh U base scope = Ok c ->
  (exists j, as_py c = numbered (u base) j) /\ ~ In (ident_from_py U (as_py c)) scope.
Proof.
  intros U base scope c HU Hb H. apply fresh_spec in H as (j & Ej & Hn & _).
  assert (P : candidate U base j = u base ++ suffix_of j /\ syn_ident_ok U (candidate U base j) = true).
  { apply (candidate_plain U base j HU).
    - destruct HU as (Hst & Hcn & _). destruct Hb as [-> | ->]; (eexists _, _; split; [reflexivity|]; split; [right; now rewrite Hst|]);
        intros y Hy; cbn in Hy; repeat (destruct Hy as [<-|Hy]; [now rewrite Hcn|]); easy.
    - destruct Hb as [-> | ->]; reflexivity.
    - destruct Hb as [-> | ->]; reflexivity. }
  destruct P as [P _]. assert (E : as_py c = u base ++ suffix_of j).
  { rewrite Ej. unfold candidate. apply as_py_from_py. destruct Hb as [-> | ->]; reflexivity. }
  rewrite E. split; [now exists j|]. change (ident_from_py U (u base ++ suffix_of j)) with (candidate U base j). now rewrite <- Ej.
Qed.
Lemma fn_names : forall g scope f i n, uni_ok (g_uni g) -> fn_generate g scope f = Ok i -> called (g_uni g) (fn_name f) n -> spellable_name (g_uni g) n ->
  match i with
  | IFunction l => l = [] \/ is_bound (fn_typ f) = false /\ exists docs d, (forall x, In x docs -> exists t, x = GDoc t) /\ l = docs ++ [GPub; GFn d] /\ fn_named (g_uni g) scope f (as_py (k_name (f_contract d)))
  | IMethod _ l => l = [] \/ is_bound (fn_typ f) = true /\ exists s, just_fn l s /\ fn_named (g_uni g) scope f s
  end.
Proof.
  intros g scope f i n HU H Hc [Hn Hs]. unfold fn_generate in H. apply bind_Ok in H as (docs & Hdoc & H). apply bind_Ok in H as (nm & Hnm & H).
  destruct (called_name _ _ _ Hc) as [E1 E2]. rewrite E1 in Hnm. injection Hnm as <-.
  destruct (fn_ident (g_uni g) (ident_from_py (g_uni g) n)) as [id|] eqn:Eid; [|injection H as <-; now left].
  destruct (fn_spelled _ _ _ HU Hn Eid) as [[_ ->]|[K _]]; [|contradiction].
  apply bind_Ok in H as (ids & _ & H). apply bind_Ok in H as (preps & _ & H). apply bind_Ok in H as (tys & _ & H).
  apply bind_Ok in H as (rt & _ & H). apply bind_Ok in H as ([pb k] & Hco & H). apply bind_Ok in H as (od & Hd & H).
  destruct od as [d|]; [|injection H as <-; now left].
  apply bind_Ok in H as (pos & _ & H). apply bind_Ok in H as (kw & _ & H). injection H as <-.
  pose proof (doc_only _ _ _ Hdoc) as Hdo.
  assert (KK : fn_named (g_uni g) scope f (as_py (k_name k)) /\ pb = negb (is_bound (fn_typ f))).
  { unfold gen_contract in Hco. unfold fn_named. destruct (fn_typ f) as [|cp mk|]; try (injection Hco as <- <-; cbn; split; [now rewrite E2|reflexivity]).
    destruct mk; try (injection Hco as <- <-; cbn; split; [now rewrite E2|reflexivity]).
    - apply bind_Ok in Hco as (cn & Hf & Hco). apply bind_Ok in Hco as (nn & Hsy & Hco). injection Hco as <- <-. apply to_syn_ident in Hsy as [-> _]. split; [|reflexivity].
      now apply (fresh_numbered _ "new" scope _ HU (or_intror eq_refl)).
    - apply bind_Ok in Hco as (cn & Hf & Hco). apply bind_Ok in Hco as (nn & Hsy & Hco). injection Hco as <- <-. apply to_syn_ident in Hsy as [-> _]. split; [|reflexivity].
      now apply (fresh_numbered _ "call" scope _ HU (or_introl eq_refl)). }
  destruct KK as [K1 ->]. destruct (is_bound (fn_typ f)) eqn:Eb; right; (split; [reflexivity|]); cbn [negb app].
  - eexists. split; [|exact K1]. eexists docs, _. split; [exact Hdo|]. split; reflexivity.
  - eexists docs, _. split; [exact Hdo|]. split; [reflexivity|]. exact K1.
Qed.

(** ** Classes *)
Record class_facts (U : uni) (c : class) : Prop := mk_class_facts {
  cf_place : exists name, forall p, In p (member_paths c) -> exists n, starts_with (u "r#") n = false /\ p = path_snoc name (ident_from_py U n);
  cf_distinct : NoDup (member_paths c);
  cf_kind : forall f cp, In f (cl_methods c) -> (fn_typ f = FMethod cp MConstructor -> called U (fn_name f) (u "__init__")) /\ (fn_typ f = FMethod cp MCallable -> called U (fn_name f) (u "__call__"));
  cf_reserved : forall p n, In p (cl_props c) -> called U (pr_name p) n -> ~ In n reserved;
  cf_owner : forall p, In p (cl_props c) -> pr_owner p = OwnerClass }.

Section class_names.
  Variables (U : uni) (c : class).
  Hypothesis HU : uni_ok U.
  Hypothesis CF : class_facts U c.
  Lemma member_titled : forall p, In p (member_paths c) -> exists n, called U p n.
  Proof. intros p Hp. destruct (cf_place _ _ CF) as (name & K). destruct (K p Hp) as (n & Hn & ->). exists n. now apply called_snoc. Qed.
  Lemma member_same : forall p q n, In p (member_paths c) -> In q (member_paths c) -> called U p n -> called U q n -> p = q.
  Proof.
    intros p q n Hp Hq Cp Cq. destruct (cf_place _ _ CF) as (name & K). destruct (K p Hp) as (a & _ & Ea). destruct (K q Hq) as (b & _ & Eb). subst p q.
    now apply (called_same U name n).
  Qed.
  Lemma in_methods : forall f, In f (cl_methods c) -> In (fn_name f) (member_paths c).
  Proof. intros f Hf. apply in_or_app. left. now apply in_map. Qed.
  Lemma in_props : forall p, In p (cl_props c) -> In (pr_name p) (member_paths c).
  Proof. intros p Hp. apply in_or_app. right. now apply in_map. Qed.
  Lemma method_same : forall f f' n, In f (cl_methods c) -> In f' (cl_methods c) -> called U (fn_name f) n -> called U (fn_name f') n -> f = f'.
  Proof.
    intros f f' n Hf Hf' C1 C2. pose proof (cf_distinct _ _ CF) as D. unfold member_paths in D.
    apply (NoDup_map_iff fn_name (cl_methods c)); auto; [|apply (member_same _ _ n); auto using in_methods].
    clear - D. induction (map fn_name (cl_methods c)) as [|y l IH]; [constructor|]. cbn in D. inversion D as [|? ? D1 D2]; subst. constructor; [|now apply IH]. intros K. apply D1. apply in_or_app. now left.
  Qed.
  Lemma prop_same : forall f f' n, In f (cl_props c) -> In f' (cl_props c) -> called U (pr_name f) n -> called U (pr_name f') n -> f = f'.
  Proof.
    intros f f' n Hf Hf' C1 C2. pose proof (cf_distinct _ _ CF) as D. unfold member_paths in D.
    apply (NoDup_map_iff pr_name (cl_props c)); auto; [|apply (member_same _ _ n); auto using in_props].
    clear - D. induction (map fn_name (cl_methods c)) as [|y l IH]; [exact D|]. cbn in D. inversion D as [|? ? D1 D2]; subst. now apply IH.
  Qed.
  Lemma method_not_prop : forall f p n, In f (cl_methods c) -> In p (cl_props c) -> called U (fn_name f) n -> called U (pr_name p) n -> False.
  Proof.
    intros f p n Hf Hp C1 C2. pose proof (cf_distinct _ _ CF) as D. unfold member_paths in D.
    assert (E : fn_name f = pr_name p) by (apply (member_same _ _ n); auto using in_methods, in_props).
    assert (K1 : In (fn_name f) (map fn_name (cl_methods c))) by now apply in_map. assert (K2 : In (fn_name f) (map pr_name (cl_props c))) by (rewrite E; now apply in_map).
    clear - D K1 K2. induction (map fn_name (cl_methods c)) as [|y l IH]; [easy|]. cbn in D. inversion D as [|? ? D1 D2]; subst. destruct K1 as [->|K1]; [|now apply IH].
    apply D1. apply in_or_app. now right.
  Qed.
  Lemma members_nodup : NoDup (cl_methods c) /\ NoDup (cl_props c).
  Proof.
    pose proof (cf_distinct _ _ CF) as D. unfold member_paths in D. split; [apply (NoDup_map_inv fn_name)|apply (NoDup_map_inv pr_name)].
    - clear - D. induction (map fn_name (cl_methods c)) as [|y l IH]; [constructor|]. cbn in D. inversion D as [|? ? D1 D2]; subst. constructor; [|now apply IH]. intros K. apply D1. apply in_or_app. now left.
    - clear - D. induction (map fn_name (cl_methods c)) as [|y l IH]; [exact D|]. cbn in D. inversion D as [|? ? D1 D2]; subst. now apply IH.
  Qed.
  Variable scope : list ident.
  Hypothesis Hscope : mapM (fun f => path_name (fn_name f)) (cl_methods c) = Ok scope.
  Lemma in_scope : forall f n, In f (cl_methods c) -> called U (fn_name f) n -> In (ident_from_py U n) scope.
  Proof. intros f n Hf C1. destruct (mapM_In_l _ _ _ _ Hscope Hf) as (i & Hi & E). destruct (called_name _ _ _ C1) as [E1 _]. rewrite E1 in E. now injection E as <-. Qed.
  Lemma scope_in : forall i, In i scope -> exists f, In f (cl_methods c) /\ path_name (fn_name f) = Ok i.
  Proof. intros i Hi. destruct (mapM_In _ _ _ _ Hscope Hi) as (f & Hf & E). now exists f. Qed.
  Hypothesis CL : clear_class U c.
  Lemma numbered_differ : forall i j, numbered (u "new") i = numbered (u "call") j -> False.
  Proof. intros i j E. discriminate E. Qed.
  Lemma method_once : forall f f' s, In f (cl_methods c) -> In f' (cl_methods c) -> fn_named U scope f s -> fn_named U scope f' s -> f = f'.
  Proof.
    intros f f' s Hf Hf' H H'. unfold fn_named in *.
    assert (K : forall t, In t (cl_methods c) -> called U (fn_name t) s -> ~ In (ident_from_py U s) scope -> False) by (intros t Ht C1 N; apply N; now apply (in_scope t)).
    destruct (fn_typ f) as [|cp []|] eqn:Ef, (fn_typ f') as [|cp' []|] eqn:Ef'; try (now apply (method_same f f' s)); try (exfalso; now apply (K f)); try (exfalso; now apply (K f'));
      try (destruct H as [H _]; now apply (K f')); try (exfalso; destruct H as [_ H]; now apply (K f')); try (exfalso; destruct H' as [_ H']; now apply (K f)).
    - destruct (cf_kind _ _ CF f cp Hf) as [N1 _]. destruct (cf_kind _ _ CF f' cp' Hf') as [N2 _]. now apply (method_same f f' (u "__init__")); auto.
    - destruct H as [(i & ->) _], H' as [(j & E) _]. now apply numbered_differ in E.
    - destruct H as [(i & ->) _], H' as [(j & E) _]. symmetry in E. now apply numbered_differ in E.
    - destruct (cf_kind _ _ CF f cp Hf) as [_ N1]. destruct (cf_kind _ _ CF f' cp' Hf') as [_ N2]. now apply (method_same f f' (u "__call__")); auto.
  Qed.
  (** The scope for the accessors *)
  Let scope' := scope ++ extra_scope U (cl_methods c).
  Lemma ident_inj : forall a b, starts_with (u "r#") a = false -> starts_with (u "r#") b = false -> ident_from_py U a = ident_from_py U b -> a = b.
  Proof. intros a b Ha Hb E. rewrite <- (as_py_from_py U a Ha), <- (as_py_from_py U b Hb). now rewrite E. Qed.
  Lemma accessor_cases : forall p s, In p (cl_props c) -> accessor_name U scope' p s -> ~ In (ident_from_py U s) scope' /\ exists n, called U (pr_name p) n /\
    (s = n \/ s = u "get_" ++ n /\ (n = u "new" \/ n = u "call") \/ s = u "set_" ++ n /\ pr_mutable p = true).
  Proof.
    intros p s Hp (Hs & n & Hc & K). split; [exact Hs|]. exists n. split; [exact Hc|]. destruct K as [K|[[K1 K2]|K]]; auto. right. left. split; [exact K1|].
    unfold scope' in K2. apply in_app_or in K2 as [K2|K2].
    - exfalso. apply scope_in in K2 as (f & Hf & Ef). apply (method_not_prop f p n Hf Hp); [|exact Hc]. split; [apply Hc|]. now apply path_name_ends in Ef.
    - unfold extra_scope in K2. apply in_app_or in K2 as [K2|K2]; destruct (has_kind _ _); try easy; destruct K2 as [K2|[]];
        apply ident_inj in K2; try reflexivity; try apply Hc; [left|right]; now symmetry.
  Qed.
  Lemma accessor_once : forall p q s, In p (cl_props c) -> In q (cl_props c) -> accessor_name U scope' p s -> accessor_name U scope' q s -> p = q.
  Proof.
    intros p q s Hp Hq Kp Kq. destruct (accessor_cases p s Hp Kp) as (_ & a & Ca & Ka). destruct (accessor_cases q s Hq Kq) as (_ & b & Cb & Kb).
    destruct Ka as [Ka|[[Ka Ka']|[Ka Ka']]], Kb as [Kb|[[Kb Kb']|[Kb Kb']]].
    - subst. now apply (prop_same p q b).
    - exfalso. apply (cc_get _ _ CL q p b Hq Hp Kb' Cb). rewrite <- Kb, Ka. exact Ca.
    - exfalso. apply (cc_set _ _ CL q p b Hq Hp Kb' Cb). rewrite <- Kb, Ka. exact Ca.
    - exfalso. apply (cc_get _ _ CL p q a Hp Hq Ka' Ca). rewrite <- Ka, Kb. exact Cb.
    - rewrite Ka in Kb. apply app_inv_head in Kb as ->. now apply (prop_same p q b).
    - rewrite Ka in Kb. discriminate Kb.
    - exfalso. apply (cc_set _ _ CL p q a Hp Hq Ka' Ca). rewrite <- Ka, Kb. exact Cb.
    - rewrite Ka in Kb. discriminate Kb.
    - rewrite Ka in Kb. apply app_inv_head in Kb as ->. now apply (prop_same p q b).
  Qed.
  Lemma method_accessor : forall f p s, In f (cl_methods c) -> In p (cl_props c) -> is_bound (fn_typ f) = true -> fn_named U scope f s -> accessor_name U scope' p s -> False.
  Proof.
    intros f p s Hf Hp Hb Kf Kp. destruct (accessor_cases p s Hp Kp) as (Hs & a & Ca & Ka).
    assert (Hs1 : ~ In (ident_from_py U s) scope) by (intros K; apply Hs; unfold scope'; apply in_or_app; now left).
    unfold fn_named in Kf. destruct (fn_typ f) as [|cp k|] eqn:Et; try discriminate. destruct k; try discriminate; [apply Hs1; now apply (in_scope f)|].
    destruct Kf as [(j & ->) _]. destruct (cf_kind _ _ CF f cp Hf) as [_ N]. specialize (N Et). destruct Ka as [Ka|[[Ka _]|[Ka _]]]; try discriminate Ka. subst a.
    destruct j as [|j]; [|now apply (cc_call _ _ CL f p j Hf N Hp)]. apply Hs. unfold scope'. apply in_or_app. right. unfold extra_scope. apply in_or_app. right.
    replace (has_kind MCallable (cl_methods c)) with true; [left; unfold numbered; now rewrite app_nil_r|]. symmetry. apply existsb_exists. exists f. split; [exact Hf|]. now rewrite Et.
  Qed.
End class_names.

Lemma fold_members : forall l m, mb_struct (fold_left add_member l m) = mb_struct m ++ flat_map (fun i => match i with IFunction k => k | _ => [] end) l /\
  mb_impls (fold_left add_member l m) = mb_impls m ++ flat_map (fun i => match i with IMethod _ k => k | _ => [] end) l.
Proof.
  induction l as [|i l IH]; intros m; [now rewrite !app_nil_r|]. cbn [fold_left flat_map]. destruct (IH (add_member m i)) as [-> ->].
  destruct i as [k|t k]; cbn; now rewrite <- ?app_assoc.
Qed.
Lemma block_app : forall a b, block_names (a ++ b) = block_names a ++ block_names b.
Proof. intros. apply flat_map_app. Qed.
Lemma block_flat : forall {A} (g : A -> list frag) l, block_names (flat_map g l) = flat_map (fun a => block_names (g a)) l.
Proof. intros A g. induction l as [|a l IH]; [reflexivity|]. cbn [flat_map]. now rewrite block_app, IH. Qed.
Lemma class_blocks : forall g c l, uni_ok (g_uni g) -> class_facts (g_uni g) c -> clear_class (g_uni g) c -> class_generate g c = Ok l ->
  (forall n b, In (GImpl n b) l -> once (block_names b)) /\ (forall t n b, In (GImplFor t n b) l -> once (block_names b)).
Proof.
  intros g c l HU CF CL H. unfold class_generate in H. cbv zeta in H. apply bind_Ok in H as (docs & Hd & H). apply bind_Ok in H as (nm & Hnm & H).
  destruct (struct_ident _ _) as [id|]; [|injection H as <-; split; intros; easy].
  apply bind_Ok in H as (scope & Hsc & H). apply bind_Ok in H as (ms & Hms & H). apply bind_Ok in H as (ps & Hps & H). apply bind_Ok in H as (tid & Ht & H). injection H as <-.
  pose proof (doc_only _ _ _ Hd) as Hdo. destruct (fold_members (ms ++ ps) (mk_members [] [] [])) as [F1 F2]. cbn [mb_struct mb_impls app] in F1, F2.
  destruct (members_nodup (g_uni g) c CF) as [N1 N2].
  set (own i := match i with IFunction k => k | IMethod _ _ => [] end) in F1. set (bnd i := match i with IMethod _ k => k | IFunction _ => [] end) in F2.
  assert (Mt : forall f, In f (cl_methods c) -> exists n, called (g_uni g) (fn_name f) n /\ spellable_name (g_uni g) n).
  { intros f Hf. destruct (member_titled _ c CF (fn_name f) (in_methods c f Hf)) as [n Hn]. exists n. split; [exact Hn|]. now apply (cc_methods _ _ CL f). }
  assert (A1 : NoDup (flat_map (fun i => map as_py (block_names (own i))) ms)).
  { refine (proj1 (gather_once (fn_generate g scope) (fun i => map as_py (block_names (own i))) (fn_named (g_uni g) scope) _ _ Hms N1 _ (method_once _ _ CF scope Hsc))).
    intros f i Hf Hi. destruct (Mt f Hf) as (n & Hn & Hsn). pose proof (fn_names g scope f i n HU Hi Hn Hsn) as K. destruct i as [k|t k]; cbn [own]; [|split; [constructor|intros s []]].
    destruct K as [->|(_ & dd & d & Hdd & -> & K)]; [split; [constructor|intros s []]|]. unfold block_names. rewrite flat_map_app, (docs_none _ dd Hdd) by reflexivity. cbn.
    split; [repeat constructor; easy|]. intros s [<-|[]]. exact K. }
  set (claim_b f s := is_bound (fn_typ f) = true /\ fn_named (g_uni g) scope f s).
  assert (A2 : NoDup (flat_map (fun i => map as_py (block_names (bnd i))) ms) /\ forall s, In s (flat_map (fun i => map as_py (block_names (bnd i))) ms) -> exists f, In f (cl_methods c) /\ claim_b f s).
  { refine (gather_once (fn_generate g scope) (fun i => map as_py (block_names (bnd i))) claim_b _ _ Hms N1 _ _).
    - intros f i Hf Hi. destruct (Mt f Hf) as (n & Hn & Hsn). pose proof (fn_names g scope f i n HU Hi Hn Hsn) as K. destruct i as [k|t k]; cbn [bnd]; [split; [constructor|intros s []]|].
      destruct K as [->|(Kb & s & J & K)]; [split; [constructor|intros s []]|]. unfold block_names. rewrite (just_fn_names _ k s J) by reflexivity.
      split; [repeat constructor; easy|]. intros s' [<-|[]]. now split.
    - intros a a' s Ha Ha' [_ C1] [_ C2]. now apply (method_once (g_uni g) c CF scope Hsc a a' s). }
  assert (A3 : NoDup (flat_map (fun i => map as_py (block_names (bnd i))) ps) /\ forall s, In s (flat_map (fun i => map as_py (block_names (bnd i))) ps) ->
     exists p, In p (cl_props c) /\ accessor_name (g_uni g) (scope ++ extra_scope (g_uni g) (cl_methods c)) p s).
  { refine (gather_once (prop_generate g (scope ++ extra_scope (g_uni g) (cl_methods c))) (fun i => map as_py (block_names (bnd i))) _ _ _ Hps N2 _ (accessor_once _ c CF scope Hsc CL)).
    intros p i Hp Hi. destruct (member_titled _ c CF (pr_name p) (in_props c p Hp)) as [n Hn]. pose proof (cc_props _ _ CL p n Hp Hn) as Hsn. pose proof (cf_reserved _ _ CF p n Hp Hn) as Hrn.
    unfold prop_generate in Hi. apply bind_Ok in Hi as ([gt gi] & Hg & Hi). apply bind_Ok in Hi as ([st si] & Hs & Hi). rewrite (cf_owner _ _ CF p Hp) in Hi. injection Hi as <-. cbn [bnd].
    rewrite block_app. apply (accessor_names g _ p gt gi st si n HU Hg Hs Hn Hsn Hrn); reflexivity. }
  assert (A4 : NoDup (flat_map (fun i => map as_py (block_names (own i))) ps) /\ flat_map (fun i => map as_py (block_names (own i))) ps = []).
  { assert (E : flat_map (fun i => map as_py (block_names (own i))) ps = []); [|rewrite E; split; [constructor|reflexivity]].
    assert (Q : forall i, In i ps -> own i = []).
    { intros i Hi. destruct (mapM_In _ _ _ _ Hps Hi) as (p & Hp & E). unfold prop_generate in E. apply bind_Ok in E as ([gt gi] & _ & E). apply bind_Ok in E as ([st si] & _ & E).
      rewrite (cf_owner _ _ CF p Hp) in E. now injection E as <-. }
    clear - Q. induction ps as [|i ps IH]; [reflexivity|]. cbn. rewrite (Q i) by now left. cbn. apply IH. intros j Hj. apply Q. now right. }
  split.
  - intros n b Hin. assert (E : b = mb_struct (fold_left add_member (ms ++ ps) (mk_members [] [] []))).
    { apply in_app_or in Hin as [Hin|Hin]; [destruct (Hdo _ Hin); discriminate|]. cbn in Hin. repeat (destruct Hin as [Hin|Hin]; [first [discriminate|now injection Hin as _ <-]|]). easy. }
    rewrite E, F1. unfold once. rewrite block_flat, map_flat, flat_map_app. rewrite (proj2 A4), app_nil_r. exact A1.
  - intros t n b Hin. assert (E : b = mb_impls (fold_left add_member (ms ++ ps) (mk_members [] [] []))).
    { apply in_app_or in Hin as [Hin|Hin]; [destruct (Hdo _ Hin); discriminate|]. cbn in Hin. repeat (destruct Hin as [Hin|Hin]; [first [discriminate|now injection Hin as _ _ <-]|]). easy. }
    rewrite E, F2. unfold once. rewrite block_flat, map_flat, flat_map_app. apply NoDup_app_intro; [apply A2|apply A3|]. intros s H1 H2.
    destruct (proj2 A2 s H1) as (f & Hf & Kb & Kf). destruct (proj2 A3 s H2) as (p & Hp & Kp). now apply (method_accessor (g_uni g) c CF scope Hsc CL f p s).
Qed.

(** ** The facts hold of the classes that are generated *)
Lemma class_known : forall x o name c, honest (pe_uni x) (pe_world x) -> class_parse (pe_env x) (pe_cfg x) o name = Ok c -> class_facts (pe_uni x) c.
Proof.
  intros x o name c Hw H.
  assert (D := class_distinct _ _ _ _ _ H). destruct (class_parse_typed _ _ _ _ _ H) as (_ & Ow & _).
  assert (Sh : shown_inside x (AClass c)) by (destruct x as [e cfg ord]; exact (member_shown e cfg ord o name c H)).
  assert (Q : (forall p, In p (member_paths c) -> exists n, starts_with (u "r#") n = false /\ p = path_snoc name (ident_from_py (pe_uni x) n)) /\
    forall f cp, In f (cl_methods c) -> (fn_typ f = FMethod cp MConstructor -> called (pe_uni x) (fn_name f) (u "__init__")) /\ (fn_typ f = FMethod cp MCallable -> called (pe_uni x) (fn_name f) (u "__call__"))).
  { clear D Ow Sh. unfold class_parse in H. apply bind_Ok in H as ([ms ps] & H1 & H). apply bind_Ok in H as (doc & _ & H). injection H as <-. cbn [cl_methods]. unfold member_paths. cbn [cl_methods cl_props].
    set (P := fun st : list func * list property => (forall p, In p (map fn_name (fst st) ++ map pr_name (snd st)) -> exists n, starts_with (u "r#") n = false /\ p = path_snoc name (ident_from_py (pe_uni x) n)) /\
      forall f cp, In f (fst st) -> (fn_typ f = FMethod cp MConstructor -> called (pe_uni x) (fn_name f) (u "__init__")) /\ (fn_typ f = FMethod cp MCallable -> called (pe_uni x) (fn_name f) (u "__call__"))).
    change (P (ms, ps)). refine (each_attr_inv P _ _ _ _ _ _ _ _ _ H1); [|split; [intros ? []|intros ? ? []]].
    intros [ms0 ps0] a [ms1 ps1] s Hs Hr _ [P1 P2] Hst. apply unique_names_In in Hs. pose proof (hn_dir _ _ Hw _ _ Hs) as Hraw. apply read_attr_inv in Hr as (Ea & _). cbn [fst snd] in *.
    assert (Es : as_py (at_name a) = s) by (rewrite Ea; now apply as_py_from_py).
    assert (New : exists n, starts_with (u "r#") n = false /\ path_snoc name (at_name a) = path_snoc name (ident_from_py (pe_uni x) n)) by (exists s; split; [exact Hraw|now rewrite Ea]).
    unfold class_step in Hst. apply bind_Ok in Hst as (v & _ & Hst).
    assert (Meth : forall f, fn_parse (pe_env x) (at_obj a) (path_snoc name (at_name a)) (FMethod name (method_kind (at_name a))) = Ok f -> P (ms0 ++ [f], ps0)).
    { intros f Hp. destruct (fn_parse_typed _ _ _ _ _ Hp) as [En _]. split; cbn [fst snd].
      - intros p. rewrite map_app. cbn [map]. rewrite En. intros K. apply in_app_or in K as [K|K]; [|apply P1; apply in_or_app; now right].
        apply in_app_or in K as [K|[<-|[]]]; [apply P1; apply in_or_app; now left|exact New].
      - intros g cp K. apply in_app_or in K as [K|[<-|[]]]; [now apply P2|]. rewrite En. split; intros Et.
        + pose proof (fn_parse_kind _ _ _ _ _ _ _ _ Hp Et (or_introl eq_refl)) as K. unfold method_kind in K. rewrite Es in K.
          destruct (str_eqb s (u "__init__")) eqn:E; [|destruct (str_eqb s (u "__call__")); discriminate]. apply str_eqb_eq in E. subst s. rewrite Ea, E. now apply called_snoc.
        + pose proof (fn_parse_kind _ _ _ _ _ _ _ _ Hp Et (or_intror eq_refl)) as K. unfold method_kind in K. rewrite Es in K.
          destruct (str_eqb s (u "__init__")); [discriminate|]. destruct (str_eqb s (u "__call__")) eqn:E; [|discriminate]. apply str_eqb_eq in E. subst s. rewrite Ea, E. now apply called_snoc. }
    destruct v; try (injection Hst as <- <-; now split); apply bind_Ok in Hst as (y & Hy & Hst); injection Hst as <- <-; try (now apply Meth).
    destruct (prop_parse_typed _ _ _ _ _ Hy) as [En _]. split; [|exact P2]. cbn [fst snd]. intros p. rewrite map_app. cbn [map]. rewrite En. intros K.
    apply in_app_or in K as [K|K]; [apply P1; apply in_or_app; now left|]. apply in_app_or in K as [K|[<-|[]]]; [apply P1; apply in_or_app; now right|exact New]. }
  destruct Q as [Q1 Q2]. split; auto; [now exists name|].
  intros p n Hp Hn Hr. destruct (proj2 Sh p Hp) as (q & i & b & E & _ & K). rewrite E in Hn. apply snoc_called in Hn. subst n. destruct K as [K|K].
  - apply K. now left.
  - destruct K as [K|K]; rewrite K in Hr; revert Hr; cbn; intuition discriminate.
Qed.
Lemma final_class : forall x, order_ok (pe_ord x) -> honest (pe_uni x) (pe_world x) -> forall fuel l c ms, asked_modules (pe_world x) l -> asks x fuel l cg_new = Ok c -> final_modules x fuel c = Ok ms ->
  forall m k d, In m ms -> within k m -> In d (m_classes k) -> class_facts (pe_uni x) d.
Proof.
  intros x Ho Hw fuel l c ms Hl Hc Hf m k d Hm Hk Hd.
  refine (final_module_items x Ho (honest_named _ _ Hw) fuel l c ms Hl Hc Hf (fun it => match it with AClass d => class_facts (pe_uni x) d | _ => True end) _ m k (AClass d) Hm Hk Hd).
  intros o m0 k0 it0 Ho0 Hp0. apply (parsed_items x (fun n o E => proj1 (hn_import _ _ Hw n o E)) (fun it => match it with AClass d => class_facts (pe_uni x) d | _ => True end)) with (fuel := fuel) (o := o); auto.
  - intros o' name a it _ _ _ Hit. destruct it; try exact I. destruct Hit as [_ Hit]. now apply (class_known x (at_obj a) (path_snoc name (at_name a))).
  - intros o' name cc i it it' _ _ _ _ Pit Hmv. destruct it, it'; cbn in Hmv; try easy; try exact I. destruct Hmv as [_ ->]. destruct Pit as [A1 A2 A3 A4 A5]. now split.
Qed.

(** ** The scope of a module *)
Record module_facts (U : uni) (m : module) : Prop := mk_module_facts {
  mf_tidy : tidy m;
  mf_titled : forall it, has m it -> titled U it;
  mf_once : forall it it' p p' n, has m it -> has m it' -> item_path it = Some p -> item_path it' = Some p' -> called U p n -> called U p' n -> it = it';
  mf_subs : NoDup (m_subs m);
  mf_sub : forall s, In s (m_subs m) -> exists n, called U (m_name s) n;
  mf_sub_once : forall s s' n, In s (m_subs m) -> In s' (m_subs m) -> called U (m_name s) n -> called U (m_name s') n -> s = s';
  mf_typed : mod_typed m;
  mf_props : forall p n, In p (m_properties m) -> called U (pr_name p) n -> ~ In n reserved;
  mf_classes : forall c, In c (m_classes m) -> class_facts U c;
  mf_target : forall i, In i (m_imports m) -> absolute (im_target i) }.

Definition value_claim (U : uni) (m : module) (it : item) (s : str) : Prop :=
  match it with
  | AnExport _ | ATypeVar _ => False
  | AProperty p => exists n, called U (pr_name p) n /\ (s = n \/ s = u "set_" ++ n /\ forall f, In f (m_functions m) -> ~ called U (fn_name f) s)
  | _ => exists p, item_path it = Some p /\ called U p s
  end.
Definition type_claim (U : uni) (it : item) (s : str) : Prop :=
  match it with
  | AnExport _ | AFunction _ | AProperty _ => False
  | AClass c => exists n, called U (cl_name c) n /\ (s = n \/ s = n ++ u "Methods")
  | _ => exists p, item_path it = Some p /\ called U p s
  end.
Lemma methods_differ : forall n : str, n ++ u "Methods" <> n.
Proof. intros n E. apply (f_equal (@length _)) in E. rewrite app_length in E. cbn in E. lia. Qed.
Lemma methods_raw : forall n, starts_with (u "r#") n = false -> starts_with (u "r#") (n ++ u "Methods") = false.
Proof.
  intros [|a [|b n]] H; [reflexivity| |]; change (u "r#") with [114; 35]%N in *; unfold starts_with in *; cbn [app strip_prefix] in *.
  - destruct (N.eqb 114 a); reflexivity.
  - destruct (N.eqb 114 a); [|reflexivity]. destruct (N.eqb 35 b); [discriminate|reflexivity].
Qed.
Lemma class_names : forall g c l n, uni_ok (g_uni g) -> class_generate g c = Ok l -> called (g_uni g) (cl_name c) n -> spellable_name (g_uni g) n ->
  (value_names l = [] \/ map as_py (value_names l) = [n]) /\ (type_names l = [] \/ map as_py (type_names l) = [n; n ++ u "Methods"]).
Proof.
  intros g c l n HU H Hc Hs. unfold class_generate in H. cbv zeta in H. apply bind_Ok in H as (docs & Hd & H). apply bind_Ok in H as (nm & Hnm & H).
  destruct (called_name _ _ _ Hc) as [E1 E2]. rewrite E1 in Hnm. injection Hnm as <-.
  destruct (struct_spelled (g_uni g) n HU (proj1 Hs)) as (id & Eid & [[_ ->]|[K _]]); [|now destruct Hs]. rewrite Eid in H.
  apply bind_Ok in H as (scope & _ & H). apply bind_Ok in H as (ms & _ & H). apply bind_Ok in H as (ps & _ & H). apply bind_Ok in H as (tid & Ht & H). injection H as <-.
  assert (Et : as_py tid = n ++ u "Methods").
  { clear - Ht Hc Hs HU. apply to_syn_ident in Ht as [-> Ht]. destruct Hc as [Hn _].
    assert (X : ident_from_py (g_uni g) n = n \/ ident_from_py (g_uni g) n = r_hash ++ n) by (unfold ident_from_py, py_to_rs; destruct (syn_ident_ok (g_uni g) n); auto).
    destruct X as [X|X]; rewrite X in *; [apply as_py_from_py; now apply methods_raw|].
    unfold ident_from_py, py_to_rs in *. destruct (syn_ident_ok (g_uni g) ((r_hash ++ n) ++ u "Methods")) eqn:E; [reflexivity|].
    exfalso. apply (rust_ident_syn _ _ HU) in Ht. apply syn_ident_ok_inv in Ht as [[Ht _]|(t & Et & Ht & _)]; [now apply (py_identifier_no_raw _ _ HU) in Ht|].
    injection Et as <-. now apply (py_identifier_no_raw _ _ HU) in Ht. }
  unfold value_names, type_names. rewrite !flat_map_app. rewrite !(docs_none _ docs (doc_only _ _ _ Hd)) by reflexivity. split; right; cbn; [now rewrite E2|]. now rewrite E2, Et.
Qed.
Lemma none_names : forall (h : frag -> list ident) l, (forall f, In f l -> h f = []) -> flat_map h l = [].
Proof. intros h. induction l as [|f l IH]; intros H; [reflexivity|]. cbn. rewrite (H f) by now left. apply IH. intros g Hg. apply H. now right. Qed.
Lemma leads_value : forall f, leads f = true -> value_name f = [] /\ type_name f = [].
Proof. intros [] H; try discriminate; now split. Qed.
Lemma filter_nodup : forall {A} (f : A -> bool) l, NoDup l -> NoDup (filter f l).
Proof. intros A f l H. now apply NoDup_filter. Qed.
Lemma numbered_plain : forall j, as_py (numbered (u "call") j) = numbered (u "call") j.
Proof. reflexivity. Qed.
Lemma numbered_methods : forall j n, numbered (u "call") j <> n ++ u "Methods".
Proof.
  intros j n E. apply (f_equal (@rev _)) in E. rewrite rev_app_distr in E. change (rev (u "Methods")) with (115%N :: rev (u "Method")) in E. cbn [app] in E.
  assert (K : In 115%N (numbered (u "call") j)) by (apply in_rev; rewrite E; now left). unfold numbered in K. apply in_app_or in K as [K|K]; [cbn in K; repeat (destruct K as [K|K]; [discriminate|]); easy|].
  destruct j as [|j]; [easy|]. unfold dec in K. apply dec_digits_only in K as [[]|K]. lia.
Qed.
Lemma trait_names : forall U l s, Spec_Items.items (item_ok U InTrait) s l -> block_names l = map k_name (declared l).
Proof.
  intros U. induction l as [|f l IH]; intros s H; [reflexivity|]. destruct f; cbn in H |- *; destruct H as [H1 H]; try (now destruct H1); try (f_equal; now apply (IH _ H)); now apply (IH _ H).
Qed.
Lemma impl_names : forall U l s, Spec_Items.items (item_ok U InTraitImpl) s l -> block_names l = map k_name (defined l).
Proof.
  intros U. induction l as [|f l IH]; intros s H; [reflexivity|]. destruct f; cbn in H |- *; destruct H as [H1 H]; try (now destruct H1); try (f_equal; now apply (IH _ H)); now apply (IH _ H).
Qed.
Lemma class_traits_once : forall g c l, uni_ok (g_uni g) -> relative_table (g_cx g) -> class_facts (g_uni g) c -> clear_class (g_uni g) c -> class_generate g c = Ok l ->
  forall n b, In (GTrait n b) l -> once (block_names b).
Proof.
  intros g c l HU HT CF CL H n b Hin. destruct (class_blocks g c l HU CF CL H) as [_ B]. destruct (class_shape g c l HU HT (cf_owner _ _ CF) H) as [->|(docs & id & tid & m & Hd & _ & _ & (_ & M2 & M3 & M4) & E)]; [easy|].
  assert (Eb : b = mb_defs m).
  { rewrite E in Hin. apply in_app_or in Hin as [Hin|Hin]; [destruct (Hd _ Hin) as [s K]; discriminate|]. cbn in Hin. repeat (destruct Hin as [Hin|Hin]; [try discriminate; injection Hin as <- <-; auto|]). easy. }
  subst b. rewrite (trait_names _ _ _ M2), M4, <- (impl_names _ _ _ M3). apply (B tid id). rewrite E. apply in_or_app. right. cbn. auto 20.
Qed.
Section scope.
  Variables (x : mctx) (m : module) (P : parts).
  Let U := mx_uni x.
  Hypothesis HU : uni_ok U.
  Hypothesis MF : module_facts U m.
  Hypothesis CL : clear U m.
  Hypothesis HP : parts_of x m P.
  Hypothesis Hor : forall i, In i (m_imports m) -> existsb (path_exists (im_origin i)) (mx_top x) = true -> absolute (im_origin i).
  Hypothesis Hpre : pt_prelude P = [] \/ exists cc ex j, pt_prelude P = [GPub; GMod cc [GPub; GUseSuper ex]] /\ cc = numbered (u "call") j /\ ~ in_use m cc.

  Lemma scope_fn : forall i, In i (pt_scope P) -> exists f, In f (m_functions m) /\ path_name (fn_name f) = Ok i.
  Proof. intros i Hi. destruct (mapM_In _ _ _ _ (po_scope _ _ _ HP) Hi) as (f & Hf & E). now exists f. Qed.
  Lemma fn_scope : forall f n, In f (m_functions m) -> called U (fn_name f) n -> In (ident_from_py U n) (pt_scope P).
  Proof. intros f n Hf C1. destruct (mapM_In_l _ _ _ _ (po_scope _ _ _ HP) Hf) as (i & Hi & E). destruct (called_name _ _ _ C1) as [E1 _]. rewrite E1 in E. now injection E as <-. Qed.
  Lemma value_once : forall it it' s, has m it -> has m it' -> value_claim U m it s -> value_claim U m it' s -> it = it'.
  Proof.
    intros it it' s H H' C C'.
    assert (K : forall p q n, In p (m_properties m) -> has m q -> called U (pr_name p) n -> (forall f, In f (m_functions m) -> ~ called U (fn_name f) (u "set_" ++ n)) ->
      forall r, item_path q = Some r -> called U r (u "set_" ++ n) -> value_claim U m q (u "set_" ++ n) -> False).
    { intros p q n Hp Hq Hn Hno r Er Cr V. pose proof (cr_set _ _ CL p n q r Hp Hn Hq Er Cr) as Q. destruct q; try easy. injection Er as <-. now apply (Hno f). }
    assert (J : forall q t, match q with AProperty _ => False | _ => True end -> value_claim U m q t -> exists p, item_path q = Some p /\ called U p t) by (intros [] t; cbn; tauto).
    assert (G : forall p q, In p (m_properties m) -> has m q -> match q with AProperty _ => False | _ => True end -> value_claim U m (AProperty p) s -> value_claim U m q s -> AProperty p = q).
    { intros p q Hp Hq Hk (n & Hn & [->|[-> Hno]]) Cq; destruct (J q _ Hk Cq) as (r & Er & Cr); [|exfalso; now apply (K p q n Hp Hq Hn Hno r)].
      apply (mf_once _ _ MF (AProperty p) q (pr_name p) r n); auto. }
    destruct it as [i|i|c|q|f|p]; [easy| | |easy| |]; (destruct it' as [i'|i'|c'|q'|f'|p']; [easy| | |easy| |]);
      try (destruct C as (r & Er & Cr), C' as (r' & Er' & Cr'); eapply (mf_once _ _ MF); eauto; fail);
      try (apply G; auto; exact I); try (symmetry; apply G; auto; exact I).
    destruct C as (n & Hn & K1), C' as (n' & Hn' & K2). destruct K1 as [->|[-> Hno]], K2 as [E|[E Hno']].
    - subst n'. apply (mf_once _ _ MF _ _ (pr_name p) (pr_name p') n); auto.
    - exfalso. rewrite E in *. apply (K p' (AProperty p) n' H' H Hn' Hno' (pr_name p)); auto. exists (u "set_" ++ n'). auto.
    - exfalso. apply (K p (AProperty p') n H H' Hn Hno (pr_name p')); auto; [now rewrite E|]. exists n'. rewrite E. auto.
    - apply app_inv_head in E as ->. apply (mf_once _ _ MF _ _ (pr_name p) (pr_name p') n'); auto.
  Qed.
  Lemma type_once : forall it it' s, has m it -> has m it' -> type_claim U it s -> type_claim U it' s -> it = it'.
  Proof.
    intros it it' s H H' C C'.
    assert (K : forall c q n, In c (m_classes m) -> has m q -> called U (cl_name c) n -> forall r, item_path q = Some r -> called U r (n ++ u "Methods") -> type_claim U q (n ++ u "Methods") -> False).
    { intros c q n Hc Hq Hn r Er Cr V. pose proof (proj1 (cr_trait _ _ CL c n Hc Hn) q r Hq Er Cr) as Q. now destruct q. }
    assert (J : forall q t, match q with AClass _ => False | _ => True end -> type_claim U q t -> exists p, item_path q = Some p /\ called U p t) by (intros [] t; cbn; tauto).
    assert (G : forall c q, In c (m_classes m) -> has m q -> match q with AClass _ => False | _ => True end -> type_claim U (AClass c) s -> type_claim U q s -> AClass c = q).
    { intros c q Hp Hq Hk (n & Hn & [-> | ->]) Cq; destruct (J q _ Hk Cq) as (r & Er & Cr); [|exfalso; now apply (K c q n Hp Hq Hn r)].
      apply (mf_once _ _ MF (AClass c) q (cl_name c) r n); auto. }
    destruct it as [i|i|c|q|f|p]; [easy| | | |easy|easy]; (destruct it' as [i'|i'|c'|q'|f'|p']; [easy| | | |easy|easy]);
      try (destruct C as (r & Er & Cr), C' as (r' & Er' & Cr'); eapply (mf_once _ _ MF); eauto; fail);
      try (apply G; auto; exact I); try (symmetry; apply G; auto; exact I).
    destruct C as (n & Hn & K1), C' as (n' & Hn' & K2). destruct K1 as [-> | ->], K2 as [E|E].
    - subst n'. apply (mf_once _ _ MF _ _ (cl_name c) (cl_name c') n); auto.
    - exfalso. rewrite E in *. apply (K c' (AClass c) n' H' H Hn' (cl_name c)); auto. exists (n' ++ u "Methods"). auto.
    - exfalso. apply (K c (AClass c') n H H' Hn (cl_name c')); auto; [now rewrite E|]. exists n'. rewrite E. auto.
    - apply app_inv_tail in E as ->. apply (mf_once _ _ MF _ _ (cl_name c) (cl_name c') n'); auto.
  Qed.
  Lemma title : forall it p, has m it -> item_path it = Some p -> exists n, called U p n /\ spellable_name U n.
  Proof. intros it p H E. destruct (mf_titled _ _ MF it H p E) as (n & Hn). exists n. split; [exact Hn|]. now apply (cr_spelled _ _ CL it p n). Qed.

  (** The parts *)
  Lemma imports_part : forall h, (h GPub = []) -> (forall v, h (GUse v) = used_name v) ->
    once (flat_map h (pt_imports P)) /\ forall s, In s (map as_py (flat_map h (pt_imports P))) -> exists i, In i (m_imports m) /\ called U (im_target i) s.
  Proof.
    intros h H1 H2. destruct (mf_tidy _ _ MF) as (_ & T & _).
    destruct (part_once h _ _ (fun i s => called U (im_target i) s) _ _ (po_imports _ _ _ HP)) as [A1 A2].
    - now apply filter_nodup.
    - intros i k Hi Hk. apply filter_In in Hi as [Hi He]. apply use_shape in Hk as [->|(v & -> & Hv)]; [split; [constructor|intros s []]|].
      cbn [flat_map]. rewrite H1, H2, app_nil_r. cbn [app]. destruct (title (AnImport i) (im_target i) Hi eq_refl) as (n & Hn & _).
      destruct (import_generate_correct _ _ _ (Hor i Hi He) (mf_target _ _ MF i Hi) Hv) as (_ & _ & _ & _ & B & _). unfold used_name. rewrite B.
      destruct Hn as (Hn & q & Eq). rewrite Eq, last_opt_app. cbn. rewrite as_py_from_py by exact Hn. split; [repeat constructor; easy|]. intros s [<-|[]]. split; [exact Hn|now exists q].
    - intros i i' s Hi Hi' C1 C2. apply filter_In in Hi as [Hi _]. apply filter_In in Hi' as [Hi' _].
      assert (E : AnImport i = AnImport i') by (apply (mf_once _ _ MF _ _ (im_target i) (im_target i') s); auto). now injection E.
    - split; [exact A1|]. intros s Hs. destruct (A2 s Hs) as (i & Hi & C1). apply filter_In in Hi as [Hi _]. now exists i.
  Qed.
  Lemma classes_values : once (value_names (pt_classes P)) /\ forall s, In s (map as_py (value_names (pt_classes P))) -> exists c, In c (m_classes m) /\ value_claim U m (AClass c) s.
  Proof.
    destruct (mf_tidy _ _ MF) as (_ & _ & T & _). apply (part_once value_name _ _ (fun c s => value_claim U m (AClass c) s) _ _ (po_classes _ _ _ HP) T).
    - intros c k Hc Hk. destruct (title (AClass c) (cl_name c) Hc eq_refl) as (n & Hn & Hs). destruct (class_names (pt_ctx x P) c k n HU Hk Hn Hs) as [[E|E] _]; unfold value_names in E; unfold once; rewrite E.
      + split; [constructor|intros s []].
      + split; [repeat constructor; easy|]. intros s [<-|[]]. now exists (cl_name c).
    - intros c c' s Hc Hc' C1 C2. assert (E : AClass c = AClass c') by now apply (value_once _ _ s). now injection E.
  Qed.
  Lemma classes_types : once (type_names (pt_classes P)) /\ forall s, In s (map as_py (type_names (pt_classes P))) -> exists c, In c (m_classes m) /\ type_claim U (AClass c) s.
  Proof.
    destruct (mf_tidy _ _ MF) as (_ & _ & T & _). apply (part_once type_name _ _ (fun c s => type_claim U (AClass c) s) _ _ (po_classes _ _ _ HP) T).
    - intros c k Hc Hk. destruct (title (AClass c) (cl_name c) Hc eq_refl) as (n & Hn & Hs). destruct (class_names (pt_ctx x P) c k n HU Hk Hn Hs) as [_ [E|E]]; unfold type_names in E; unfold once; rewrite E.
      + split; [constructor|intros s []].
      + split.
        * constructor; [|repeat constructor; easy]. intros [K|[]]. now apply methods_differ in K.
        * intros s [<-|[<-|[]]]; exists n; auto.
    - intros c c' s Hc Hc' C1 C2. assert (E : AClass c = AClass c') by now apply (type_once _ _ s). now injection E.
  Qed.
  Lemma vars_types : once (type_names (pt_vars P)) /\ forall s, In s (map as_py (type_names (pt_vars P))) -> exists p, In p (m_typevars m) /\ type_claim U (ATypeVar p) s.
  Proof.
    destruct (mf_tidy _ _ MF) as (_ & _ & _ & T & _). apply (part_once type_name _ _ (fun c s => type_claim U (ATypeVar c) s) _ _ (po_vars _ _ _ HP) T).
    - intros p k Hp Hk. destruct (title (ATypeVar p) p Hp eq_refl) as (n & Hn & Hs). apply var_shape in Hk as (i & Ei & _ & ->). destruct (called_name _ _ _ Hn) as [E1 E2]. rewrite E1 in Ei. injection Ei as <-.
      unfold once. cbn. rewrite E2. split; [repeat constructor; easy|]. intros s [<-|[]]. now exists p.
    - intros c c' s Hc Hc' C1 C2. assert (E : ATypeVar c = ATypeVar c') by now apply (type_once _ _ s). now injection E.
  Qed.
  Lemma fns_values : once (value_names (pt_fns P)) /\ forall s, In s (map as_py (value_names (pt_fns P))) -> exists f, In f (m_functions m) /\ value_claim U m (AFunction f) s.
  Proof.
    destruct (mf_tidy _ _ MF) as (_ & _ & _ & _ & T & _). apply (part_once value_name _ _ (fun c s => value_claim U m (AFunction c) s) _ _ (po_fns _ _ _ HP) T).
    - intros f k Hf Hk. destruct (title (AFunction f) (fn_name f) Hf eq_refl) as (n & Hn & Hs). apply bind_Ok in Hk as (i & Hi & Hk). destruct i as [l|t l]; [|discriminate]. injection Hk as <-.
      pose proof (fn_names (pt_ctx x P) (pt_scope P) f _ n HU Hi Hn Hs) as K. cbn beta iota in K. destruct K as [->|(_ & docs & d & Hd & -> & K)]; [split; [constructor|intros s []]|].
      rewrite flat_map_app, (docs_none _ docs Hd) by reflexivity. unfold once. cbn. split; [repeat constructor; easy|]. intros s [<-|[]]. exists (fn_name f). split; [reflexivity|].
      unfold fn_named in K. destruct (mf_typed _ _ MF) as (_ & _ & T3). destruct (T3 f Hf) as [E|E]; rewrite E in K; exact K.
    - intros c c' s Hc Hc' C1 C2. assert (E : AFunction c = AFunction c') by now apply (value_once _ _ s). now injection E.
  Qed.
  Lemma props_values : once (value_names (pt_props P)) /\ forall s, In s (map as_py (value_names (pt_props P))) -> exists p, In p (m_properties m) /\ value_claim U m (AProperty p) s.
  Proof.
    destruct (mf_tidy _ _ MF) as (_ & _ & _ & _ & _ & T). apply (part_once value_name _ _ (fun c s => value_claim U m (AProperty c) s) _ _ (po_props _ _ _ HP) T).
    - intros p k Hp Hk. destruct (title (AProperty p) (pr_name p) Hp eq_refl) as (n & Hn & Hs). destruct (mf_typed _ _ MF) as (_ & T2 & _). destruct (T2 p Hp) as (Eo & _ & _).
      apply bind_Ok in Hk as (i & Hi & Hk). unfold prop_generate in Hi. apply bind_Ok in Hi as ([gt gi] & Hg & Hi). apply bind_Ok in Hi as ([st si] & Hst & Hi). rewrite Eo in Hi. injection Hi as <-. injection Hk as <-.
      cbn [flat_map value_name app]. rewrite flat_map_app.
      replace (flat_map value_name (if pr_mutable p then GPub :: si else [])) with (flat_map value_name si) by (destruct (pr_mutable p); [reflexivity|now injection Hst as <- <-]).
      destruct (accessor_names (pt_ctx x P) (pt_scope P) p gt gi st si n HU Hg) with (h := value_name) as [A1 A2]; auto; [now apply (mf_props _ _ MF p)|].
      split; [exact A1|]. intros s K. destruct (A2 s K) as (Hno & n' & Hn' & Q). exists n'. split; [exact Hn'|]. destruct Q as [->|[[-> Q]|[-> _]]]; [now left| |right].
      + exfalso. apply scope_fn in Q as (f & Hf & Ef). assert (E : AFunction f = AProperty p); [|discriminate].
        apply (mf_once _ _ MF (AFunction f) (AProperty p) (fn_name f) (pr_name p) n'); auto. split; [apply Hn'|]. now apply path_name_ends in Ef.
      + split; [reflexivity|]. intros f Hf C1. apply Hno. now apply (fn_scope f).
    - intros c c' s Hc Hc' C1 C2. assert (E : AProperty c = AProperty c') by now apply (value_once _ _ s). now injection E.
  Qed.
  Lemma subs_types : once (type_names (pt_subs P)) /\ forall s, In s (map as_py (type_names (pt_subs P))) -> exists t, In t (m_subs m) /\ called U (m_name t) s.
  Proof.
    apply (part_once type_name _ _ (fun t s => called U (m_name t) s) _ _ (po_subs _ _ _ HP) (mf_subs _ _ MF)).
    - intros t k Ht Hk. destruct (mod_generate_inv _ _ _ Hk) as (Q & id & HQ & Hid & _ & ->). destruct (mf_sub _ _ MF t Ht) as (n & Hn). destruct (called_name _ _ _ Hn) as [E1 E2]. rewrite E1 in Hid. injection Hid as <-.
      rewrite !flat_map_app. rewrite (none_names type_name (pt_top x t)) by (unfold pt_top; destruct (in_dec _ _ _); [intros f [<-|[]]; reflexivity|intros f []]).
      rewrite (docs_none type_name (pt_docs Q) (doc_only _ _ _ (po_docs _ _ _ HQ))) by reflexivity. unfold once. cbn. change (rs_as_py (ident_from_py U n)) with (as_py (ident_from_py U n)). 
      split; [repeat constructor; easy|]. intros s [<-|[]]. rewrite E2. exact Hn.
    - intros t t' s Ht Ht' C1 C2. now apply (mf_sub_once _ _ MF t t' s).
  Qed.
  Lemma embed_values : value_names (gen_embed m) = [] \/ value_names (gen_embed m) = [embed_name] /\ m_source m <> None.
  Proof. unfold gen_embed. destruct (m_source m); [right; split; [reflexivity|discriminate]|now left]. Qed.
  Lemma prelude_types : pt_prelude P = [] \/ exists j, type_names (pt_prelude P) = [numbered (u "call") j] /\ ~ in_use m (numbered (u "call") j).
  Proof. destruct Hpre as [E|(cc & ex & j & E & -> & N)]; [now left|right]. exists j. now rewrite E. Qed.
  Let T3 := proj2 (proj2 (mf_typed _ _ MF)).
  Lemma body_values : once (value_names (pt_body m P)).
  Proof.
    assert (E : value_names (pt_body m P) = value_names (gen_embed m) ++ value_names (pt_imports P) ++ value_names (pt_classes P) ++ value_names (pt_fns P) ++ value_names (pt_props P)).
    { unfold value_names, pt_body. rewrite !flat_map_app. rewrite (none_names value_name (pt_prelude P)), (none_names value_name (pt_vars P)), (none_names value_name (pt_subs P)).
      - cbn [app]. now rewrite app_nil_r.
      - intros f Hf. destruct (when_from _ _ _ _ _ (po_subs _ _ _ HP) Hf) as (_ & s & k & _ & Hk & Hin). destruct (mod_lead_or_mod _ _ _ _ Hk Hin) as [K|(a & b & ->)]; [now apply leads_value|reflexivity].
      - intros f Hf. destruct (when_from _ _ _ _ _ (po_vars _ _ _ HP) Hf) as (_ & s & k & _ & Hk & Hin). apply var_shape in Hk as (i & _ & _ & ->). now destruct Hin as [<-|[<-|[]]].
      - destruct Hpre as [K|(cc & ex & j & K & _)]; rewrite K; intros f Hf; [easy|]. now destruct Hf as [<-|[<-|[]]]. }
    destruct (imports_part value_name) as [I1 I2]; try reflexivity. destruct classes_values as [C1 C2]. destruct fns_values as [F1 F2]. destruct props_values as [P1 P2].
    pose proof value_once as V.
    assert (J : forall s, In s (map as_py (flat_map value_name (pt_imports P))) -> exists i, In i (m_imports m) /\ value_claim U m (AnImport i) s).
    { intros s Hs. destruct (I2 s Hs) as (i & Hi & K). exists i. split; [exact Hi|]. now exists (im_target i). }
    unfold once in *. unfold value_names in *. rewrite E, !map_app. repeat apply NoDup_app_intro; auto.
    - destruct embed_values as [K|[K _]]; unfold value_names in K; rewrite K; repeat constructor; easy.
    - intros s H1 H2. destruct (F2 s H1) as (a & Ha & Ca). destruct (P2 s H2) as (b & Hb & Cb). assert (K : AFunction a = AProperty b) by now apply (V _ _ s). discriminate.
    - intros s H1 H2. destruct (C2 s H1) as (a & Ha & Ca). apply in_app_or in H2 as [H2|H2].
      + destruct (F2 s H2) as (b & Hb & Cb). assert (K : AClass a = AFunction b) by now apply (V _ _ s). discriminate.
      + destruct (P2 s H2) as (b & Hb & Cb). assert (K : AClass a = AProperty b) by now apply (V _ _ s). discriminate.
    - intros s H1 H2. destruct (J s H1) as (a & Ha & Ca). apply in_app_or in H2 as [H2|H2]; [|apply in_app_or in H2 as [H2|H2]].
      + destruct (C2 s H2) as (b & Hb & Cb). assert (K : AnImport a = AClass b) by now apply (V _ _ s). discriminate.
      + destruct (F2 s H2) as (b & Hb & Cb). assert (K : AnImport a = AFunction b) by now apply (V _ _ s). discriminate.
      + destruct (P2 s H2) as (b & Hb & Cb). assert (K : AnImport a = AProperty b) by now apply (V _ _ s). discriminate.
    - intros s H1 H2. destruct embed_values as [K|[K Hs]]; unfold value_names in K; rewrite K in H1; [easy|]. destruct H1 as [<-|[]].
      pose proof (cr_embed _ _ CL Hs) as Q. assert (N : forall it, has m it -> ~ value_claim U m it (as_py embed_name)).
      { intros it Hit V1. assert (Cp : exists p, item_path it = Some p /\ called U p embed_name).
        { destruct it as [i|i|c|q|f|p]; try exact V1; try easy. exists (pr_name p). split; [reflexivity|]. destruct V1 as (n & Hn & [K1|[K1 _]]); [|discriminate K1]. change (as_py embed_name) with embed_name in K1. now rewrite K1. }
        destruct Cp as (p & Ep & Cp). specialize (Q it p Hit Ep Cp). destruct it; try easy. }
      apply in_app_or in H2 as [H2|H2]; [destruct (J _ H2) as (a & Ha & Ca); now apply (N (AnImport a))|].
      apply in_app_or in H2 as [H2|H2]; [destruct (C2 _ H2) as (a & Ha & Ca); now apply (N (AClass a))|].
      apply in_app_or in H2 as [H2|H2]; [destruct (F2 _ H2) as (a & Ha & Ca); now apply (N (AFunction a))|destruct (P2 _ H2) as (a & Ha & Ca); now apply (N (AProperty a))].
  Qed.
  Lemma body_types : once (type_names (pt_body m P)).
  Proof.
    assert (E : type_names (pt_body m P) = type_names (pt_imports P) ++ type_names (pt_prelude P) ++ type_names (pt_vars P) ++ type_names (pt_classes P) ++ type_names (pt_subs P)).
    { unfold type_names, pt_body. rewrite !flat_map_app. rewrite (none_names type_name (gen_embed m)), (none_names type_name (pt_fns P)), (none_names type_name (pt_props P)); [reflexivity|..].
      - intros f Hf. destruct (when_from _ _ _ _ _ (po_props _ _ _ HP) Hf) as (_ & s & k & _ & Hk & Hin). destruct (prop_part_frag _ _ _ _ _ Hk Hin) as [K|(d & -> & _)]; [now apply leads_value|reflexivity].
      - intros f Hf. destruct (when_from _ _ _ _ _ (po_fns _ _ _ HP) Hf) as (_ & s & k & Hs & Hk & Hin). destruct (fn_part_frag _ _ _ _ _ Hk Hin (T3 s Hs)) as [K|(d & -> & _)]; [now apply leads_value|reflexivity].
      - unfold gen_embed. destruct (m_source m); [|easy]. intros f Hf. now repeat (destruct Hf as [<-|Hf]; [reflexivity|]). }
    destruct (imports_part type_name) as [I1 I2]; try reflexivity. destruct classes_types as [C1 C2]. destruct vars_types as [F1 F2]. destruct subs_types as [S1 S2].
    pose proof type_once as V.
    assert (J : forall s, In s (map as_py (flat_map type_name (pt_imports P))) -> exists i, In i (m_imports m) /\ type_claim U (AnImport i) s).
    { intros s Hs. destruct (I2 s Hs) as (i & Hi & K). exists i. split; [exact Hi|]. now exists (im_target i). }
    assert (D : forall it t s, has m it -> In t (m_subs m) -> type_claim U it s -> called U (m_name t) s -> False).
    { intros it t s Hit Ht Cs Ct. assert (G : (exists p, item_path it = Some p /\ called U p s) -> False).
      { intros (p & Ep & Cp). pose proof (cr_sub _ _ CL t s it p Ht Ct Hit Ep Cp) as Q. now destruct it. }
      destruct it as [i|i|c|q|f|p]; try easy; try (now apply G). destruct Cs as (n & Hn & [-> | ->]); [apply G; now exists (cl_name c)|]. now apply (proj2 (cr_trait _ _ CL c n Hit Hn) t). }
    assert (L : forall s, In s (map as_py (flat_map type_name (pt_prelude P))) -> (forall it, has m it -> ~ type_claim U it s) /\ forall t, In t (m_subs m) -> ~ called U (m_name t) s).
    { intros s Hs. destruct prelude_types as [K|(j & K & N)]; [rewrite K in Hs; easy|]. unfold type_names in K. rewrite K in Hs. destruct Hs as [<-|[]]. rewrite numbered_plain.
      assert (EI : ident_from_py U (numbered (u "call") j) = numbered (u "call") j).
      { apply (candidate_plain U "call" j HU); [now apply call_ident|reflexivity|reflexivity]. }
      split.
      - intros it Hit Cs. assert (G : (exists p, item_path it = Some p /\ called U p (numbered (u "call") j)) -> False).
        { intros (p & Ep & _ & q & Eq). rewrite EI in Eq. apply N. destruct it as [i|i|c|y|f|y]; try discriminate; [right; exists i; split; [exact Hit|]; injection Ep as ->; now exists q|..];
            left; right; eexists _, p; (split; [exact Hit|]); (split; [exact Ep|]); (split; [now exists q|]); discriminate. }
        destruct it as [i|i|c|y|f|y]; try easy; try (now apply G). destruct Cs as (n & Hn & [K1|K1]); [apply G; exists (cl_name c); split; [reflexivity|now rewrite K1]|]. now apply numbered_methods in K1.
      - intros t Ht (_ & q & Eq). rewrite EI in Eq. apply N. left. left. exists t. split; [exact Ht|now exists q]. }
    unfold once in *. unfold type_names in *. rewrite E, !map_app. repeat apply NoDup_app_intro; auto.
    - destruct prelude_types as [K|(j & K & _)]; [rewrite K; constructor|]. unfold type_names in K. rewrite K. repeat constructor; easy.
    - intros s H1 H2. destruct (C2 s H1) as (a & Ha & Ca). destruct (S2 s H2) as (b & Hb & Cb). now apply (D (AClass a) b s).
    - intros s H1 H2. destruct (F2 s H1) as (a & Ha & Ca). apply in_app_or in H2 as [H2|H2].
      + destruct (C2 s H2) as (b & Hb & Cb). assert (K : ATypeVar a = AClass b) by now apply (V _ _ s). discriminate.
      + destruct (S2 s H2) as (b & Hb & Cb). now apply (D (ATypeVar a) b s).
    - intros s H1 H2. destruct (L s H1) as [L1 L2]. apply in_app_or in H2 as [H2|H2]; [destruct (F2 _ H2) as (a & Ha & Ca); now apply (L1 (ATypeVar a))|].
      apply in_app_or in H2 as [H2|H2]; [destruct (C2 _ H2) as (a & Ha & Ca); now apply (L1 (AClass a))|]. destruct (S2 _ H2) as (b & Hb & Cb). now apply (L2 b).
    - intros s H1 H2. destruct (J s H1) as (a & Ha & Ca). apply in_app_or in H2 as [H2|H2]; [destruct (L s H2) as [L1 _]; now apply (L1 (AnImport a))|].
      apply in_app_or in H2 as [H2|H2]; [|apply in_app_or in H2 as [H2|H2]].
      + destruct (F2 s H2) as (b & Hb & Cb). assert (K : AnImport a = ATypeVar b) by now apply (V _ _ s). discriminate.
      + destruct (C2 s H2) as (b & Hb & Cb). assert (K : AnImport a = AClass b) by now apply (V _ _ s). discriminate.
      + destruct (S2 s H2) as (b & Hb & Cb). now apply (D (AnImport a) b s).
  Qed.
  Lemma body_blocks : forall f, In f (pt_body m P) -> match f with GImpl _ b | GTrait _ b | GImplFor _ _ b => once (block_names b) | _ => True end.
  Proof.
    intros f Hin. assert (K : match f with GImpl _ _ | GTrait _ _ | GImplFor _ _ _ => In f (pt_classes P) | _ => True end).
    { destruct (body_frag _ _ _ _ HP T3 Hin) as [E|[(?&?&?&->&_)|[(?&->&_)|[(?&?&->&_)|[(?&->&_)|[Hcl|[(?&->&_)|[(?&->&_)|(?&?&->&_)]]]]]]]]; try exact I; destruct f; try exact I; try discriminate; exact Hcl. }
    assert (G : In f (pt_classes P) -> exists c l, In c (m_classes m) /\ class_generate (pt_ctx x P) c = Ok l /\ In f l).
    { intros Hf. destruct (when_from _ _ _ _ _ (po_classes _ _ _ HP) Hf) as (_ & c & l & Hc & Hl & Hf'). now exists c, l. }
    destruct f as [| | | | | | | | | |n b|n b|t n b| |]; try exact I; destruct (G K) as (c & l & Hc & Hl & Hf); pose proof (mf_classes _ _ MF c Hc) as CF; pose proof (cr_classes _ _ CL c Hc) as CC.
    - now apply (proj1 (class_blocks (pt_ctx x P) c l HU CF CC Hl) n).
    - now apply (class_traits_once (pt_ctx x P) c l HU (parts_table _ _ _ HP) CF CC Hl n).
    - now apply (proj2 (class_blocks (pt_ctx x P) c l HU CF CC Hl) t n).
  Qed.
  Lemma body_clear : no_clash (pt_body m P).
  Proof.
    split; [apply body_values|]. split; [apply body_types|]. split; [|split].
    - intros n b Hin. exact (body_blocks _ Hin).
    - intros n b Hin. exact (body_blocks _ Hin).
    - intros t n b Hin. exact (body_blocks _ Hin).
  Qed.
End scope.

(** ** The output *)
Lemma last_named : forall U p, module_named U p -> leading_colon p = false /\ (forall y, In y (segs p) -> path_kw y = false) /\ exists n, called U p n.
Proof.
  intros U p (l & Hl & Hc & _ & ->). rewrite named_segs by exact Hc. cbn [leading_colon segs]. split; [reflexivity|]. split.
  - intros y Hy. apply in_map_iff in Hy as (s & <- & _). apply from_py_not_path_kw.
  - destruct (exists_last Hl) as (q & s & ->). exists s. split; [apply (Hc s); apply in_or_app; right; now left|]. exists (map (ident_from_py U) q). cbn [segs]. now rewrite map_app.
Qed.
Lemma path_eta : forall a b, leading_colon a = false -> leading_colon b = false -> segs a = segs b -> a = b.
Proof. intros [] []. cbn. congruence. Qed.
Lemma sub_within : forall k m s, within k m -> In s (m_subs k) -> within s m.
Proof. intros k m s Hk Hs. induction Hk as [|m' t Ht H IH]; [apply (within_sub s k s Hs); constructor|now apply (within_sub s m' t)]. Qed.
Section output.
  Variable x : penv.
  Let U := pe_uni x.
  Let w := pe_world x.
  Hypothesis HU : uni_ok U.
  Hypothesis Ho : order_ok (pe_ord x).
  Hypothesis Hw : honest U w.
  Hypothesis Hdf : names_differ w.
  Variables (numpy : bool) (fuel : nat) (l : list request) (c : codegen) (ms : list module) (out : list frag).
  Hypothesis Hl : asked_modules w l.
  Hypothesis Hc : asks x fuel l cg_new = Ok c.
  Hypothesis Hf : final_modules x fuel c = Ok ms.
  Hypothesis Hout : cg_generate x numpy fuel c = Ok out.
  Let X := gen_ctx x numpy ms.

  Lemma final_named : forall m k, In m ms -> within k m -> module_named U (m_name k).
  Proof.
    intros m k Hm Hk1. destruct (final_inv x fuel c ms Hf) as (inp & k0 & Hin & Hk & E).
    destruct (canonical_tree x inp k0 Hk) as [N T].
    { intros m' Hm'. destruct (input_is x Hw fuel l c Hl Hc inp m' Hin Hm') as (o & Hmod & Hp). now apply (parsed_tree x Ho Hw fuel o m'). }
    rewrite E in Hm. apply in_map_iff in Hm as (m1 & <- & Hm1). apply with_source_within in Hk1 as [->|(t & Ht & Hk1)].
    - destruct (with_source_same (cg_sources c) m1) as (En & _). rewrite En. apply (T m1 Hm1 m1 (within_here m1)).
    - apply (T m1 Hm1 k). now apply (within_sub k m1 t).
  Qed.
  Lemma sub_extends : forall m k s, In m ms -> within k m -> In s (m_subs k) -> extends (m_name k) (m_name s).
  Proof.
    intros m k s Hm Hk Hs. destruct (within_reach k m Hk ms Hm) as [ch Hr].
    assert (Hr2 : reach ms (ch ++ [m_name s]) s).
    { clear - Hr Hs. induction Hr as [l0 m Hl|l0 m ch k Hl Hr IH]; [apply reach_down; [exact Hl|]; now apply reach_here|]. cbn. apply reach_down; auto. }
    destruct (final_linked x Ho Hw fuel l c ms Hl Hc Hf _ (ex_intro _ s Hr2)) as [L _]. destruct (reach_last _ _ _ Hr) as (d & Ed). rewrite Ed, <- app_assoc in L. cbn [app] in L.
    clear - L. induction d as [|a d IH]; [apply L|]. apply IH. destruct d; apply L.
  Qed.
  Lemma final_facts : forall m k, In m ms -> within k m -> module_facts U k.
  Proof.
    intros m k Hm Hk.
    pose proof (fun it H => final_titled x Ho Hw fuel l c ms Hl Hc Hf m k it Hm Hk H) as Ti. pose proof (fun it H => final_located x Ho Hw fuel l c ms Hl Hc Hf m k it Hm Hk H) as Lo.
    pose proof (final_distinct x Ho Hw fuel l c ms Hl Hc Hf Hdf m k Hm Hk) as Di. destruct (final_siblings x Ho Hw fuel l c ms Hl Hc Hf) as [_ Si]. specialize (Si m k Hm Hk).
    pose proof (fun s Hs => last_named U (m_name s) (final_named m s Hm (sub_within k m s Hk Hs))) as Su. destruct (last_named U (m_name k) (final_named m k Hm Hk)) as (Lc & Lk & _).
    split.
    - now apply (final_tidy x Ho Hw fuel l c ms Hl Hc Hf m k).
    - exact Ti.
    - intros it it' p p' n H H' E E' C C'. apply (distinct_items k it it' p Di H H' E). rewrite E'. f_equal.
      destruct (Lo it H p E) as (i & ->), (Lo it' H' p' E') as (i' & ->). now apply (called_same U (m_name k) n).
    - now apply NoDup_map_inv in Si.
    - intros s Hs. now destruct (Su s Hs) as (_ & _ & S3).
    - intros s s' n Hs Hs' C C'. apply (named_once (m_subs k) s s' Si Hs Hs'). destruct (Su s Hs) as (S1 & _ & _), (Su s' Hs') as (S1' & _ & _).
      destruct (sub_extends m k s Hm Hk Hs) as (i & Ei), (sub_extends m k s' Hm Hk Hs') as (i' & Ei'). apply path_eta; auto.
      destruct C as (_ & q & Eq), C' as (_ & q' & Eq'). rewrite Ei in Eq. rewrite Ei' in Eq'. apply app_inj_tail in Eq as [_ ->]. apply app_inj_tail in Eq' as [_ ->]. now rewrite Ei, Ei'.
    - now apply (final_typed x fuel l c ms Ho Hc Hf m k).
    - intros p n Hp Cn Hr. pose proof (final_shown x Ho (honest_named _ _ Hw) fuel l c Hl Hc ms m k (AProperty p) Hf Hm Hk Hp) as Sh.
      destruct (called_name _ _ _ Cn) as [E1 E2]. pose proof (shown_last x _ (pr_name p) _ Sh eq_refl E1) as K. apply K. rewrite E2. now left.
    - intros d Hd. now apply (final_class x Ho Hw fuel l c ms Hl Hc Hf m k d).
    - intros i Hi. destruct (Lo (AnImport i) Hi _ eq_refl) as (j & Ej). destruct (Ti (AnImport i) Hi _ eq_refl) as (n & Hn & q & Eq). rewrite Ej in Eq. cbn [segs path_snoc] in Eq. apply app_inj_tail in Eq as [_ ->].
      rewrite Ej. split; [exact Lc|]. intros y Hy. cbn [segs path_snoc] in Hy. apply in_app_or in Hy as [Hy|[<-|[]]]; [now apply Lk|]. apply from_py_not_path_kw.
  Qed.
  Lemma found_absolute : forall p, existsb (path_exists p) ms = true -> absolute p.
  Proof.
    intros p Hex. apply existsb_exists in Hex as (m1 & Hm1 & Hex). apply path_exists_found in Hex as (k1 & Hk1 & [(s & Hs & <-)|(it & Hit & Ep & _)]).
    - destruct (last_named U (m_name s) (final_named m1 s Hm1 (sub_within k1 m1 s Hk1 Hs))) as (S1 & S2 & _). now split.
    - destruct (last_named U (m_name k1) (final_named m1 k1 Hm1 Hk1)) as (S1 & S2 & _).
      destruct (final_located x Ho Hw fuel l c ms Hl Hc Hf m1 k1 it Hm1 Hk1 Hit _ Ep) as (j & Ej). destruct (final_titled x Ho Hw fuel l c ms Hl Hc Hf m1 k1 it Hm1 Hk1 Hit _ Ep) as (n & Hn & q & Eq).
      rewrite Ej in Eq. cbn [segs path_snoc] in Eq. apply app_inj_tail in Eq as [_ ->]. rewrite Ej. split; [exact S1|]. intros y Hy. cbn [segs path_snoc] in Hy.
      apply in_app_or in Hy as [Hy|[<-|[]]]; [now apply S2|]. apply from_py_not_path_kw.
  Qed.
  Lemma exports_once : forall m k0 P cc ex, In k0 ms -> within m k0 -> parts_of X m P -> In (GMod cc [GPub; GUseSuper ex]) (pt_prelude P) -> (forall i, In i ex -> counterpart m i) -> once ex.
  Proof.
    intros m k0 P cc ex Hk0 Hm HP Hin Hco. pose proof (po_prelude _ _ _ HP) as H. destruct (generate_preludes (mx_cfg X)); cbn [when] in H; [|injection H as E; rewrite <- E in Hin; easy].
    destruct (final_tidy x Ho Hw fuel l c ms Hl Hc Hf k0 m Hk0 Hm) as [T _].
    assert (N : NoDup ex).
    { destruct (prelude_shape _ _ _ H) as [E|(id & ex' & E & G)]; [rewrite E in Hin; easy|]. rewrite E in Hin. destruct Hin as [K|[K|[]]]; [discriminate|]. injection K as -> ->. rewrite E in G. clear H E.
      unfold gen_prelude in G. destruct (m_prelude m) as [|e0 r0] eqn:Epr; [discriminate|]. rewrite <- Epr in *. clear Epr e0 r0. apply bind_Ok in G as (kept & Hk & G). apply bind_Ok in G as (ex0 & He & G).
      apply mapM_syn_In in He as [-> _]. destruct kept as [|a r] eqn:Ek; [discriminate|]. rewrite <- Ek in *. clear Ek a r. apply bind_Ok in G as (c0 & _ & G). apply bind_Ok in G as (id0 & _ & G). injection G as _ <-.
      now apply (filterM_NoDup _ _ _ Hk). }
    unfold once. apply NoDup_map_intro; [exact N|]. intros a b Ha Hb E.
    assert (Q : forall i, In i ex -> i = ident_from_py U (as_py i)).
    { intros i Hi. destruct (Hco i Hi) as [(s & Hs & q & Eq)|(it & p & Hit & Ep & (q & Eq) & _)].
      - destruct (mf_sub _ _ (final_facts k0 m Hk0 Hm) s Hs) as (n & Hn & q' & Eq'). rewrite Eq in Eq'. apply app_inj_tail in Eq' as [_ ->]. now rewrite as_py_from_py.
      - destruct (final_titled x Ho Hw fuel l c ms Hl Hc Hf k0 m it Hk0 Hm Hit p Ep) as (n & Hn & q' & Eq'). rewrite Eq in Eq'. apply app_inj_tail in Eq' as [_ ->]. fold U. now rewrite as_py_from_py. }
    rewrite (Q a Ha), (Q b Hb). now rewrite E.
  Qed.
  Lemma roots_once : once (type_names out).
  Proof.
    unfold cg_generate in Hout. rewrite Hf in Hout. cbn [obind] in Hout. destruct (final_siblings x Ho Hw fuel l c ms Hl Hc Hf) as [Si _].
    refine (proj1 (part_once type_name true (mod_generate X) (fun t s => called U (m_name t) s) ms out Hout (NoDup_map_inv _ _ Si) _ _)).
    - intros t k Ht Hk. destruct (mod_generate_inv _ _ _ Hk) as (Q & id & HQ & Hid & _ & ->). destruct (last_named U (m_name t) (final_named t t Ht (within_here t))) as (_ & _ & n & Hn).
      destruct (called_name _ _ _ Hn) as [E1 E2]. rewrite E1 in Hid. injection Hid as <-.
      rewrite !flat_map_app. rewrite (none_names type_name (pt_top X t)) by (unfold pt_top; destruct (in_dec _ _ _); [intros f [<-|[]]; reflexivity|intros f []]).
      rewrite (docs_none type_name (pt_docs Q) (doc_only _ _ _ (po_docs _ _ _ HQ))) by reflexivity. unfold once. cbn [flat_map type_name app map].
      split; [repeat constructor; easy|]. intros s [<-|[]]. rewrite E2. exact Hn.
    - intros t t' s Ht Ht' C1 C2. apply (named_once ms t t' Si Ht Ht').
      destruct (last_named U (m_name t) (final_named t t Ht (within_here t))) as (L1 & _). destruct (last_named U (m_name t') (final_named t' t' Ht' (within_here t'))) as (L1' & _). apply path_eta; auto.
      assert (One : forall r, In r ms -> length (segs (m_name r)) = 1).
      { intros r Hr. destruct (final_linked x Ho Hw fuel l c ms Hl Hc Hf [m_name r]) as [_ (n & q & E & H1)]; [exists r; now apply reach_here|]. injection E as <- _. exact H1. }
      pose proof (One t Ht) as O1. pose proof (One t' Ht') as O2. destruct C1 as (_ & q & Eq), C2 as (_ & q' & Eq'). rewrite Eq in O1. rewrite Eq' in O2. rewrite app_length in O1, O2. cbn in O1, O2.
      destruct q; [|cbn in O1; lia]. destruct q'; [|cbn in O2; lia]. now rewrite Eq, Eq'.
  Qed.
  Theorem output_once : (forall m k, In m ms -> within k m -> clear U k) -> forall ns k, at_path out ns k -> no_clash k.
  Proof.
    intros HC ns k A. destruct (scope_module x Ho Hw numpy fuel l c ms out Hl Hc Hf Hout ns k A) as [[-> K]|[(ex & ->)|(m & m0 & P & Hm0 & Hm & En & HP & ->)]].
    - assert (Ek : k = out) by (now inversion A). split; [|split; [rewrite Ek; exact roots_once|]].
      + unfold once, value_names. rewrite (none_names value_name k); [constructor|]. intros f Hin. destruct (K f Hin) as [E|(n & b & ->)]; [now apply leads_value|reflexivity].
      + split; [|split]; intros; match goal with H : In _ k |- _ => destruct (K _ H) as [E|(n' & b' & E)]; discriminate end.
    - destruct (prelude_scope x HU Ho Hw numpy fuel l c ms out Hl Hc Hf Hout ns _ ex A) as (q & cc & k' & m & m0 & P & _ & _ & Hin & Hm0 & Hm & _ & HP & -> & _ & Kx & _); [right; now left|].
      assert (O : once ex).
      { destruct (body_mods _ _ _ _ _ HP Hin) as [Hp|(s & ls & Hs & Hg & Hin')]; [apply (exports_once m m0 P cc ex Hm0 Hm HP Hp); intros i Hi; now apply Kx|].
        exfalso. destruct (generated_mods _ _ _ _ _ Hg Hin') as (P' & HP' & _ & _ & Eb). assert (HS : In (GUseSuper ex) (pt_body s P')) by (rewrite <- Eb; right; now left).
        destruct (final_typed x fuel l c ms Ho Hc Hf m0 s Hm0 (sub_within m m0 s Hm Hs)) as (_ & _ & T3).
        destruct (body_frag _ _ _ _ HP' T3 HS) as [E|[(?&?&?&E&_)|[(?&E&_)|[(?&?&E&_)|[(?&E&_)|[Hcl|[(?&E&_)|[(?&E&_)|(?&?&E&_)]]]]]]]]; try discriminate.
        destruct (when_from _ _ _ _ _ (po_classes _ _ _ HP') Hcl) as (_ & d & ld & _ & Hld & Hin2). pose proof (class_shape_frag _ _ _ _ Hld Hin2). discriminate. }
      unfold no_clash, value_names, type_names. cbn [flat_map value_name type_name app]. rewrite app_nil_r. split; [exact O|]. split; [exact O|]. split; [|split]; intros; match goal with H : In _ _ |- _ => destruct H as [E|[E|[]]]; discriminate end.
    - apply (body_clear X m P HU (final_facts m0 m Hm0 Hm) (HC m0 m Hm0 Hm) HP).
      + intros i _ Hex. now apply found_absolute.
      + destruct (prelude_parts x HU Ho Hw numpy fuel l c ms Hl Hc Hf m m0 P Hm0 Hm HP) as [E|(_ & cc & ex & j & E & _ & _ & Ej & N & _)]; [now left|right]. now exists cc, ex, j.
  Qed.
End output.
