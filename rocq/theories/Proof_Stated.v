(** * Lemmas: what the readers of the file find (C71) *)
From Verif Require Import Base Spec_Lex Spec_Code Spec_Decl Model_Ident Model_Path Model_Import Model_Text Model_Config Model_Type Model_IntoRs Model_World Model_Out
  Model_Function Model_Property Model_Class Model_Module Model_Parse Model_Codegen Model_Token Model_Print
  Spec_Path Spec_Names Spec_Rust Spec_Items Spec_Tree Spec_Api Spec_Prop Spec_Out Spec_Safe Spec_Attr Spec_Doc Spec_Acts Spec_Use Spec_Sig Spec_Print
  Proof_Base Proof_Ident Proof_Path Proof_IntoRs Proof_Function Proof_Items Proof_Module Proof_Api Proof_Parts Proof_Rooted Proof_Scope Proof_Use Proof_Doc Proof_Switch
  Proof_Grammar Proof_Code Proof_Ast Proof_File Proof_Decl Proof_Written Proof_Valid Proof_Acts Proof_Sig Proof_Behave.
From Verif Require Import Spec_Decl.

(** ** Fragments with what stands in front of them *)
Fixpoint fronted (p : front) (l : list frag) : list (front * frag) :=
  match l with
  | [] => []
  | GPub :: r => fronted (made_public p) r
  | GDoc s :: r => fronted (add_attr (ADoc s) p) r
  | GAttr a :: r => fronted (add_attr (marked a) p) r
  | y :: r => (p, y) :: fronted plain r
  end.
Fixpoint pending (p : front) (l : list frag) : front :=
  match l with
  | [] => p
  | GPub :: r => pending (made_public p) r
  | GDoc s :: r => pending (add_attr (ADoc s) p) r
  | GAttr a :: r => pending (add_attr (marked a) p) r
  | _ :: r => pending plain r
  end.
Lemma states_fronted : forall l p, states_all p l = flat_map (fun e => states (fst e) (snd e)) (fronted p l).
Proof. induction l as [|y l IH]; intros p; [reflexivity|]. destruct y; cbn [states_all fronted flat_map fst snd]; rewrite IH; reflexivity. Qed.
Lemma states_In : forall l p d, In d (states_all p l) <-> exists q y, In (q, y) (fronted p l) /\ In d (states q y).
Proof.
  intros l p d. rewrite states_fronted, in_flat_map. split; [intros ([q y] & H1 & H2); eauto|intros (q & y & H1 & H2)]. now exists (q, y).
Qed.
Lemma fronted_from : forall l p q y, In (q, y) (fronted p l) -> In y l /\ leads y = false.
Proof.
  induction l as [|z l IH]; intros p q y H; [destruct H|]. destruct z; cbn [fronted] in H; try (destruct (IH _ q y H) as [A B]; split; [now right|exact B]);
    (destruct H as [H|H]; [injection H as <- <-; split; [now left|reflexivity]|destruct (IH _ q y H) as [A B]; split; [now right|exact B]]).
Qed.
Lemma fronted_In : forall l p y, In y l -> leads y = false -> exists q, In (q, y) (fronted p l).
Proof.
  induction l as [|z l IH]; intros p y Hin Hy; [destruct Hin|]. destruct Hin as [<-|Hin].
  - exists p. destruct z; try discriminate; now left.
  - destruct z; cbn [fronted]; try (destruct (IH plain y Hin Hy) as [s Hs]; exists s; now right); now apply IH.
Qed.
Lemma docs_add : forall s p, docs (add_attr (ADoc s) p) = docs p ++ [s].
Proof. intros s p. unfold docs, add_attr. cbn [fr_attrs]. now rewrite flat_map_app. Qed.
Lemma docs_attr : forall a p, docs (add_attr (marked a) p) = docs p.
Proof. intros a p. unfold docs, add_attr. cbn [fr_attrs]. rewrite flat_map_app. destruct a; apply app_nil_r. Qed.
Lemma fronted_described : forall l p, described (docs p) l = map (fun e => (docs (fst e), snd e)) (fronted p l).
Proof.
  induction l as [|y l IH]; intros p; [reflexivity|]. destruct y; cbn [described fronted map fst snd]; rewrite <- ?IH; try reflexivity.
  - now rewrite docs_add.
  - now rewrite docs_attr.
Qed.
Lemma fronted_docs : forall l q y, In (q, y) (fronted plain l) -> In (docs q, y) (described [] l).
Proof. intros l q y H. change [] with (docs plain). rewrite fronted_described. apply in_map_iff. now exists (q, y). Qed.

(** ** Scopes *)
Lemma in_one : forall {A} (a b : A), In a [b] -> a = b.
Proof. intros A a b [<- | []]. reflexivity. Qed.
Lemma states_mod : forall l q p n k, In (CMod p n k) (states_all q l) -> exists b, In (GMod n b) l /\ k = states_all plain b.
Proof.
  intros l q p n k H. apply states_In in H as (q' & y & Hy & H). apply fronted_from in Hy as [Hy _]. rewrite states_frag in H.
  destruct y; try (now destruct H); try (apply in_one in H; try discriminate H); [destruct H as [H|[H|[]]]; discriminate H|]. injection H as _ -> ->. eauto.
Qed.
Lemma inside_states : forall ds ns r, inside_decls ds ns r -> forall l, ds = states_all plain l -> exists k, at_path l ns k /\ r = states_all plain k.
Proof.
  induction 1 as [l0|l0 p n k ns r Hin Hk IH]; intros l E; subst.
  - exists l. split; [constructor|reflexivity].
  - destruct (states_mod _ _ _ _ _ Hin) as (b & Hb & ->). destruct (IH b eq_refl) as (k & Hk' & ->). exists k. split; [now apply (at_down l n b)|reflexivity].
Qed.
Lemma stated : forall k y (d : front -> decl), In y k -> leads y = false -> (forall q, exists q', In (d q') (states q y)) -> exists q', In (d q') (states_all plain k).
Proof.
  intros k y d Hy Hl H. destruct (fronted_In k plain y Hy Hl) as [q Hq]. destruct (H q) as [q' Hd]. exists q'. apply states_In. eauto.
Qed.
Lemma path_states : forall l ns k, at_path l ns k -> inside_decls (states_all plain l) ns (states_all plain k).
Proof.
  induction 1 as [l|l n b ns k Hin Hk IH]; [constructor|].
  destruct (stated l _ (fun p => CMod p n (states_all plain b)) Hin eq_refl) as [p Hp]; [intros q; exists q; rewrite states_frag; now left|].
  now apply (decls_there _ p n (states_all plain b)).
Qed.

(** ** Lists of items, one after the other *)
Definition all_of (Q : front -> frag -> Prop) (l : list frag) : Prop := pending plain l = plain /\ forall q y, In (q, y) (fronted plain l) -> Q q y.
Lemma fronted_app : forall a p b, fronted p (a ++ b) = fronted p a ++ fronted (pending p a) b.
Proof. induction a as [|y a IH]; intros p b; [reflexivity|]. destruct y; cbn [app fronted pending]; rewrite IH; reflexivity. Qed.
Lemma pending_app : forall a p b, pending p (a ++ b) = pending (pending p a) b.
Proof. induction a as [|y a IH]; intros p b; [reflexivity|]. destruct y; cbn [app pending]; apply IH. Qed.
Lemma all_nil : forall Q, all_of Q [].
Proof. intros Q. split; [reflexivity|easy]. Qed.
Lemma all_app : forall Q a b, all_of Q a -> all_of Q b -> all_of Q (a ++ b).
Proof.
  intros Q a b [A1 A2] [B1 B2]. split; [now rewrite pending_app, A1|]. intros q y H. rewrite fronted_app, A1 in H. apply in_app_or in H as [H|H]; auto.
Qed.
Lemma all_concat : forall Q ls, (forall l, In l ls -> all_of Q l) -> all_of Q (concat ls).
Proof. intros Q. induction ls as [|l ls IH]; intros H; [apply all_nil|]. cbn. apply all_app; [apply H; now left|apply IH; intros k Hk; apply H; now right]. Qed.
Lemma all_when : forall {A} Q b (f : A -> outcome (list frag)) l r, when b (concatM f l) = Ok r -> (forall a k, In a l -> f a = Ok k -> incl k r -> all_of Q k) -> all_of Q r.
Proof.
  intros A Q b f l r H HQ. destruct b; [|injection H as <-; apply all_nil]. cbn in H. apply bind_Ok in H as (ks & Hks & H). injection H as <-.
  apply all_concat. intros k Hk. destruct (mapM_In _ _ _ _ Hks Hk) as (a & Ha & E). apply (HQ a); auto. intros y Hy. apply in_concat. now exists k.
Qed.
Definition with_docs (t : list str) (p : front) : front := mk_front (fr_public p) (fr_attrs p ++ map ADoc t).
Lemma fronted_docs_app : forall t p l, fronted p (map GDoc t ++ l) = fronted (with_docs t p) l.
Proof.
  induction t as [|a t IH]; intros [b l0] l; cbn [map app fronted]; [unfold with_docs; cbn; now rewrite app_nil_r|]. rewrite IH. unfold with_docs, add_attr. cbn. now rewrite <- app_assoc.
Qed.
Lemma pending_docs_app : forall t p l, pending p (map GDoc t ++ l) = pending (with_docs t p) l.
Proof.
  induction t as [|a t IH]; intros [b l0] l; cbn [map app pending]; [unfold with_docs; cbn; now rewrite app_nil_r|]. rewrite IH. unfold with_docs, add_attr. cbn. now rewrite <- app_assoc.
Qed.
Lemma extras_docs : forall b t l, extras (mk_front b (map ADoc t ++ l)) = extras (mk_front b l).
Proof. intros b t l. unfold extras. cbn [fr_attrs]. rewrite filter_app. replace (filter _ (map ADoc t)) with (@nil attribute); [reflexivity|]. induction t as [|a t IH]; [reflexivity|exact IH]. Qed.
Lemma gen_docs : forall g d r, gen_doc g d = Ok r -> exists t, r = map GDoc t.
Proof. intros g d r H. apply doc_lines in H as (t & -> & _). now exists t. Qed.
(** A public or private item with documentation *)
Lemma all_item : forall (Q : front -> frag -> Prop) t (b : bool) y, leads y = false -> Q (mk_front b (map ADoc t)) y -> all_of Q (map GDoc t ++ (if b then [GPub] else []) ++ [y]).
Proof.
  intros Q t b y Hy HQ. split.
  - rewrite pending_docs_app. destruct b, y; try discriminate; reflexivity.
  - intros q z H. rewrite fronted_docs_app in H. unfold with_docs, plain in H. cbn [fr_public fr_attrs app] in H.
    assert (E : (q, z) = (mk_front b (map ADoc t), y)) by (destruct b, y; try discriminate; destruct H as [H|[]]; now symmetry). now injection E as -> ->.
Qed.

(** ** What is made public *)
Definition sees (top : bool) (K : list decl) (q : front) (y : frag) : Prop := forall d, In d (states q y) -> presented top K d.
(** Functions with documentation *)
Definition member (public : bool) (q : front) (y : frag) : Prop := (exists d, y = GFn d) /\ fr_public q = public /\ extras q = [].
Lemma member_docs : forall b t d, member b (mk_front b (map ADoc t)) (GFn d).
Proof. intros b t d. split; [eauto|]. split; [reflexivity|]. rewrite <- (app_nil_r (map ADoc t)), extras_docs. reflexivity. Qed.
Lemma member_sees : forall top K q y, member true q y -> sees top K q y.
Proof. intros top K q y ((d & ->) & H1 & H2) e He. rewrite states_frag in He. apply in_one in He. subst e. now split. Qed.
Lemma fn_public : forall g scope f i, fn_generate g scope f = Ok i ->
  match i with IFunction l => all_of (member true) l | IMethod t l => all_of (member false) l /\ forall y, In y t -> exists k, y = GDecl k end.
Proof.
  intros g scope f i H. unfold fn_generate in H. apply bind_Ok in H as (docs & Hd & H). apply gen_docs in Hd as (t & ->).
  apply bind_Ok in H as (n & _ & H). destruct (fn_ident (g_uni g) n) as [id|]; [|injection H as <-; apply all_nil].
  apply bind_Ok in H as (ids & _ & H). apply bind_Ok in H as (preps & _ & H). apply bind_Ok in H as (tys & _ & H). apply bind_Ok in H as (rt & _ & H).
  apply bind_Ok in H as ([pb k] & Hk & H). apply bind_Ok in H as (od & _ & H). destruct od as [dd|]; [|injection H as <-; split; [apply all_nil|easy]].
  apply bind_Ok in H as (pos & _ & H). apply bind_Ok in H as (kw & _ & H).
  assert (E : pb = negb (is_bound (fn_typ f))).
  { unfold gen_contract in Hk. destruct (fn_typ f) as [|cp kd|]; [now injection Hk as <- _| |now injection Hk as <- _].
    destruct kd; try (now injection Hk as <- _); apply bind_Ok in Hk as (c & _ & Hk); apply bind_Ok in Hk as (m & _ & Hk); now injection Hk as <- _. }
  subst pb. destruct (is_bound (fn_typ f)); cbn [negb] in H; injection H as <-.
  - split; [apply (all_item (member false) t false); [reflexivity|apply member_docs]|]. intros y [<- | []]. eauto.
  - apply (all_item (member true) t true); [reflexivity|apply member_docs].
Qed.
Lemma getter_frags : forall g scope p t l, gen_getter g scope p = Ok (t, l) ->
  (forall y, In y t -> exists k, y = GDecl k) /\ (l = [] \/ exists s d, l = map GDoc s ++ [GFn d] /\ (pr_doc p = None -> s = [])).
Proof.
  intros g scope p t l H. apply getter_shape in H as (n & id & _ & _ & H). destruct id as [id|]; [|destruct H as [-> ->]; split; [easy|now left]].
  destruct H as (ds & d & ty & Hd & _ & _ & _ & _ & _ & _ & _ & -> & ->). split; [unfold declare; intros y Hy; destruct (owner_is_class _); [destruct Hy as [<- | []]; eauto|destruct Hy]|].
  right. apply doc_lines in Hd as (s & -> & Hs). exists s, d. split; [reflexivity|]. intros E. rewrite E in Hs. exact Hs.
Qed.
Lemma setter_frags : forall g scope p t l, gen_setter g scope p = Ok (t, l) ->
  (forall y, In y t -> exists k, y = GDecl k) /\ (l = [] \/ exists s d, l = map GDoc s ++ [GFn d] /\ (pr_setter_doc p = None -> s = [])).
Proof.
  intros g scope p t l H. apply setter_shape in H as (n & id & _ & _ & H). destruct id as [id|]; [|destruct H as [-> ->]; split; [easy|now left]].
  destruct H as (ds & d & ty & Hd & _ & _ & _ & _ & _ & _ & _ & -> & ->). split; [unfold declare; intros y Hy; destruct (owner_is_class _); [destruct Hy as [<- | []]; eauto|destruct Hy]|].
  right. apply doc_lines in Hd as (s & -> & Hs). exists s, d. split; [reflexivity|]. intros E. rewrite E in Hs. exact Hs.
Qed.
Lemma private_item : forall l, (l = [] \/ exists s d, l = map GDoc s ++ [GFn d]) -> all_of (member false) l.
Proof. intros l [->|(s & d & ->)]; [apply all_nil|]. apply (all_item (member false) s false); [reflexivity|apply member_docs]. Qed.
Lemma prop_private : forall g scope p i, pr_owner p = OwnerClass -> prop_generate g scope p = Ok i ->
  exists t l, i = IMethod t l /\ all_of (member false) l /\ forall y, In y t -> exists k, y = GDecl k.
Proof.
  intros g scope p i Ho H. unfold prop_generate in H. apply bind_Ok in H as ([gt gi] & Hg & H). apply bind_Ok in H as ([st si] & Hs & H). rewrite Ho in H. injection H as <-.
  apply getter_frags in Hg as [G1 G2].
  assert (S : (forall y, In y st -> exists k, y = GDecl k) /\ (si = [] \/ exists s d, si = map GDoc s ++ [GFn d])).
  { destruct (pr_mutable p); [|injection Hs as <- <-; split; [easy|now left]]. apply setter_frags in Hs as [S1 [S2|(s & d & S2 & _)]]; split; eauto. }
  destruct S as [S1 S2]. exists (gt ++ st), (gi ++ si). split; [reflexivity|]. split.
  - apply all_app; apply private_item; [|exact S2]. destruct G2 as [G2|(s & d & G2 & _)]; eauto.
  - intros y Hy. apply in_app_or in Hy as [Hy|Hy]; auto.
Qed.
Lemma prop_public : forall U g scope p i, pr_owner p = OwnerModule -> pr_doc p = None -> pr_setter_doc p = None -> prop_generate g scope p = Ok i ->
  forall l, i = IFunction l -> well_formed U InModule l -> all_of (member true) l.
Proof.
  intros U g scope p i Ho D1 D2 H l -> W. unfold prop_generate in H. apply bind_Ok in H as ([gt gi] & Hg & H). apply bind_Ok in H as ([st si] & Hs & H). rewrite Ho in H.
  apply getter_frags in Hg as [_ Hg]. unfold well_formed in W.
  assert (P : forall d, all_of (member true) [GPub; GFn d]) by (intros d; apply (all_item (member true) [] true); [reflexivity|apply (member_docs true [])]).
  assert (N : forall l, items (item_ok U InModule) Nothing (GPub :: l) -> forall l', l <> [] /\ l <> GPub :: l').
  { intros k [_ K] l'. split; intros ->; [discriminate K|]. cbn [items] in K. destruct K as [K _]. now apply K. }
  destruct (pr_mutable p).
  - apply setter_frags in Hs as [_ Hs]. injection H as <-.
    destruct Hg as [->|(s & d & -> & Es)]; [now destruct (proj2 (N _ W si) eq_refl)|]. rewrite (Es D1) in *. cbn [map app] in *.
    destruct Hs as [->|(s' & d' & -> & Es')].
    + cbn [items] in W. destruct W as (_ & _ & _ & W). discriminate W.
    + rewrite (Es' D2) in *. cbn [map app]. apply (all_app _ [_; _] [_; _]); apply P.
  - injection H as <-. rewrite app_nil_r in *. destruct Hg as [->|(s & d & -> & Es)]; [now destruct (proj1 (N _ W []) eq_refl)|]. rewrite (Es D1). apply P.
Qed.
Lemma class_members_public : forall is m, (forall i, In i is -> match i with IFunction l => all_of (member true) l | IMethod t l => all_of (member false) l /\ forall y, In y t -> exists k, y = GDecl k end) ->
  all_of (member true) (mb_struct m) -> all_of (member false) (mb_impls m) -> (forall y, In y (mb_defs m) -> exists k, y = GDecl k) ->
  all_of (member true) (mb_struct (fold_left add_member is m)) /\ all_of (member false) (mb_impls (fold_left add_member is m)) /\
  forall y, In y (mb_defs (fold_left add_member is m)) -> exists k, y = GDecl k.
Proof.
  induction is as [|i is IH]; intros m H H1 H2 H3; [split; [exact H1|split; [exact H2|exact H3]]|]. cbn [fold_left]. pose proof (H i (or_introl eq_refl)) as Hi.
  apply IH; [intros j Hj; apply H; now right|..]; destruct i as [l|t l]; cbn [add_member mb_struct mb_impls mb_defs]; auto.
  - now apply all_app.
  - apply all_app; [exact H2|apply Hi].
  - intros y Hy. apply in_app_or in Hy as [Hy|Hy]; [auto|]. now apply (proj2 Hi).
Qed.
Lemma decls_plain : forall l, (forall y, In y l -> exists k, y = GDecl k) -> forall q h, In (q, h) (states_decls plain l) -> q = plain.
Proof.
  induction l as [|y l IH]; intros H q h Hin; [destruct Hin|]. destruct (H y (or_introl eq_refl)) as [k ->]. cbn [states_decls] in Hin.
  destruct Hin as [E|Hin]; [now injection E as <- _|]. apply (IH (fun z Hz => H z (or_intror Hz)) q h Hin).
Qed.
Lemma members_states : forall b l, all_of (member b) l -> forall e, In e (states_all plain l) -> is_member b e.
Proof.
  intros b l [_ H] e He. apply states_In in He as (q & y & Hq & He). destruct (H q y Hq) as ((d & ->) & H1 & H2). rewrite states_frag in He. apply in_one in He. subst e. now exists q, (head_of (f_contract d)).
Qed.
Lemma class_public : forall top g c l k, (forall p, In p (cl_props c) -> pr_owner p = OwnerClass) -> class_generate g c = Ok l -> incl l k -> all_of (sees top (states_all plain k)) l.
Proof.
  intros top g c l k Hpo H Hincl. unfold class_generate in H. apply bind_Ok in H as (ds & Hdoc & H). apply bind_Ok in H as (name & Hname & H).
  destruct (struct_ident (g_uni g) name) as [id|]; [|injection H as <-; apply all_nil]. apply bind_Ok in H as (scope & _ & H).
  apply bind_Ok in H as (ms & Hms & H). apply bind_Ok in H as (ps & Hps & H). apply bind_Ok in H as (tid & _ & H).
  destruct (class_members_public (ms ++ ps) (mk_members [] [] [])) as (S1 & S2 & S3); [|apply all_nil|apply all_nil|easy|].
  { intros j Hj. apply in_app_or in Hj as [Hj|Hj].
    - destruct (mapM_In _ _ _ _ Hms Hj) as (f & Hf & Hg). now apply (fn_public g scope f).
    - destruct (mapM_In _ _ _ _ Hps Hj) as (q & Hq & Hg). destruct (prop_private _ _ _ _ (Hpo q Hq) Hg) as (t & l0 & -> & A & B). now split. }
  set (m := fold_left add_member (ms ++ ps) (mk_members [] [] [])) in *. injection H as <-.
  assert (Hst : has_struct (states_all plain k) id).
  { assert (I : In (GStruct id) k) by (apply Hincl; apply in_or_app; right; cbn; tauto).
    destruct (stated k _ (fun q => COther q (OStruct id [pyo3 ["PyAny"%string] []])) I eq_refl) as [q Hq]; [intros q; exists q; rewrite states_frag; now left|]. now exists q, [pyo3 ["PyAny"%string] []]. }
  apply gen_docs in Hdoc as (t & ->). split.
  - rewrite pending_docs_app. reflexivity.
  - intros q y Hy. rewrite fronted_docs_app in Hy. cbn in Hy. intros d Hd.
    destruct Hy as [Hy|[Hy|[Hy|[Hy|[Hy|[]]]]]]; injection Hy as <- <-; rewrite states_frag in Hd.
    + apply in_one in Hd. subst d. cbn [presented]. split; [reflexivity|]. unfold with_docs, plain, add_attr, made_public. cbn [fr_attrs fr_public app]. now rewrite extras_docs.
    + destruct Hd as [<- | [<- | []]]; now split.
    + apply in_one in Hd. subst d. cbn [presented]. split; [reflexivity|]. split; [reflexivity|]. now apply members_states.
    + apply in_one in Hd. subst d. cbn [presented]. split; [reflexivity|]. split; [now exists id|]. intros q h Hq. apply (decls_plain _ S3) in Hq. subst q. now split.
    + apply in_one in Hd. subst d. cbn [presented]. split; [reflexivity|]. split; [reflexivity|]. now apply members_states.
Qed.
Lemma module_public : forall top K X m l, mod_generate X m = Ok l -> (top = true -> In m (mx_top X)) -> all_of (sees top K) l.
Proof.
  intros top K X m l H Htop. apply mod_generate_inv in H as (P & id & HP & Hid & _ & ->). pose proof (po_docs _ _ _ HP) as Hdoc. apply gen_docs in Hdoc as (t & E). rewrite E.
  unfold pt_top. destruct (in_dec _ _ _) as [I|I].
  - split; [cbn [app]; cbn [pending]; rewrite pending_docs_app; reflexivity|]. intros q y Hy. cbn [app fronted] in Hy. rewrite fronted_docs_app in Hy. cbn [fronted] in Hy. apply in_one in Hy. injection Hy as -> ->.
    intros d Hd. rewrite states_frag in Hd. apply in_one in Hd. subst d. cbn [presented]. split; [reflexivity|]. intros _. unfold with_docs, add_attr, plain, made_public. cbn [fr_attrs fr_public app].
    change (AText ?s :: map ADoc t) with ([AText s] ++ map ADoc t). unfold extras. cbn [fr_attrs]. rewrite filter_app. replace (filter _ (map ADoc t)) with (@nil attribute); [reflexivity|]. clear. induction t as [|a t IH]; [reflexivity|exact IH].
  - apply (all_item _ t true); [reflexivity|]. intros d Hd. rewrite states_frag in Hd. apply in_one in Hd. subst d. cbn [presented]. split; [reflexivity|]. intros E'. now apply Htop in E'.
Qed.
Lemma body_public : forall X m P, uni_ok (mx_uni X) -> parts_of X m P -> variables_named (mx_uni X) m ->
  (forall c p, In c (m_classes m) -> In p (cl_props c) -> pr_owner p = OwnerClass) ->
  (forall f, In f (m_functions m) -> fn_typ f = FFunction \/ fn_typ f = FClosure) ->
  (forall p, In p (m_properties m) -> pr_owner p = OwnerModule /\ pr_doc p = None /\ pr_setter_doc p = None) ->
  all_of (sees false (states_all plain (pt_body m P))) (pt_body m P).
Proof.
  intros X m P HU HP Hv Hcp Hty Hpo. set (k := pt_body m P). unfold pt_body.
  apply all_app. { unfold gen_embed. destruct (m_source m); [|apply all_nil]. split; [reflexivity|]. intros q y [E|[]]. injection E as <- <-. intros d Hd. rewrite states_frag in Hd. apply in_one in Hd. subst d. now split. }
  apply all_app. { apply (all_when _ _ _ _ _ (po_imports _ _ _ HP)). intros i l _ Hl _. apply use_shape in Hl as [->|(v & -> & _)]; [apply all_nil|].
    split; [reflexivity|]. intros q y [E|[]]. injection E as <- <-. intros d Hd. rewrite states_frag in Hd. apply in_one in Hd. subst d. now split. }
  apply all_app. { pose proof (po_prelude _ _ _ HP) as H. destruct (generate_preludes _); [|injection H as <-; apply all_nil]. cbn in H.
    apply prelude_shape in H as [->|(id & ex & -> & _)]; [apply all_nil|]. split; [reflexivity|]. intros q y [E|[]]. injection E as <- <-. intros d Hd. rewrite states_frag in Hd. apply in_one in Hd. subst d. now split. }
  apply all_app. { apply (all_when _ _ _ _ _ (po_vars _ _ _ HP)). intros i l _ Hl _. apply var_shape in Hl as (n & _ & _ & ->).
    split; [reflexivity|]. intros q y [E|[]]. injection E as <- <-. intros d Hd. rewrite states_frag in Hd. apply in_one in Hd. subst d. now split. }
  apply all_app. { apply (all_when _ _ _ _ _ (po_classes _ _ _ HP)). intros c l Hin Hl Hi. apply (class_public false (pt_ctx X P) c l k (fun p => Hcp c p Hin) Hl).
    intros y Hy. apply Hi in Hy. unfold k, pt_body. rewrite !in_app_iff. tauto. }
  assert (M : forall l, all_of (member true) l -> all_of (sees false (states_all plain k)) l) by (intros l [A B]; split; [exact A|]; intros q y Hy; now apply member_sees, B).
  apply all_app. { apply (all_when _ _ _ _ _ (po_fns _ _ _ HP)). intros f l Hin Hl _. unfold fn_frags in Hl. apply bind_Ok in Hl as (i & Hi & Hl). apply fn_public in Hi.
    destruct i as [l'|]; [|discriminate]. injection Hl as <-. now apply M. }
  apply all_app. { pose proof (po_props _ _ _ HP) as Hps. apply (all_when _ _ _ _ _ Hps). intros p l Hin Hl _. pose proof Hl as Hl0. unfold prop_frags in Hl. apply bind_Ok in Hl as (i & Hi & Hl).
    destruct i as [l'|]; [|discriminate]. injection Hl as ->. destruct (Hpo p Hin) as (O & D1 & D2). apply M. apply (prop_public (mx_uni X) _ _ _ _ O D1 D2 Hi l eq_refl).
    destruct Hv as (F & HF & HV). destruct (HV p Hin) as (n & (Hn & q & Hq) & Hacc). unfold prop_frags in Hl0.
    pose proof (mapM_names _ _ _ _ HF (po_scope _ _ _ HP)) as Es. rewrite Es in Hl0.
    assert (HR : forall f, In f F -> starts_with r_hash f = false).
    { intros f Hf. clear - HF Hf. induction HF as [|a b l k [Ha _] H IHf]; [easy|]. destruct Hf as [<-|Hf]; auto. }
    destruct (accessors_some (mx_uni X) F n HU Hn HR Hacc) as [A1 A2].
    assert (E : forall name, path_name (pr_name p) = Ok name -> name = ident_from_py (mx_uni X) n).
    { intros z Hz. unfold path_name in Hz. rewrite Hq, last_opt_app in Hz. now injection Hz as <-. }
    apply (accessor_module (pt_ctx X P) (map (ident_from_py (mx_uni X)) F) p l HU (parts_table _ _ _ HP) D1 D2); [| |exact Hl0]; intros z Hz; apply E in Hz; subst z; assumption. }
  apply (all_when _ _ _ _ _ (po_subs _ _ _ HP)). intros s l Hin Hl _. apply (module_public false _ X s l Hl). discriminate.
Qed.

(** ** Signatures *)
Lemma in_flat : forall {A B} (f : A -> list B) l b, In b (flat_map f l) -> exists a, In a l /\ In b (f a).
Proof. intros A B f l b H. now apply in_flat_map in H. Qed.
Lemma type_paths : forall t g p, In (g, p) (ty_paths (as_rust t)) ->
  g = true /\ In (MLib p) (mentions t) \/ g = false /\ (exists s, p = [s] /\ In (MBare s) (mentions t)) \/ exists q, In (MLocal q) (mentions t) /\ p = segs q /\ g = leading_colon q.
Proof.
  assert (S : forall t, forall n, rty_size t <= n -> forall g p, In (g, p) (ty_paths (as_rust t)) ->
    g = true /\ In (MLib p) (mentions t) \/ g = false /\ (exists s, p = [s] /\ In (MBare s) (mentions t)) \/ exists q, In (MLocal q) (mentions t) /\ p = segs q /\ g = leading_colon q).
  2: { intros t. exact (S t _ (le_n _)). }
  intros t n. revert t. induction n as [|n IH]; intros t Hn g p Hin; [destruct t; cbn in Hn; lia|].
  assert (L : forall l, (forall a, In a l -> rty_size a <= n) -> In (g, p) (flat_map ty_paths (map as_rust l)) ->
    g = true /\ In (MLib p) (flat_map mentions l) \/ g = false /\ (exists s, p = [s] /\ In (MBare s) (flat_map mentions l)) \/ exists q, In (MLocal q) (flat_map mentions l) /\ p = segs q /\ g = leading_colon q).
  { intros l Hl H. apply in_flat in H as (b & Hb & H). apply in_map_iff in Hb as (a & <- & Ha).
    assert (F : forall r, In r (mentions a) -> In r (flat_map mentions l)) by (intros r Hr; apply in_flat_map; eauto).
    destruct (IH a (Hl a Ha) g p H) as [[-> K]|[(-> & s & -> & K)|(q & K & -> & ->)]]; [left; auto|right; left; eauto 6|right; right; eauto]. }
  assert (B : forall l, rty_size (RTup l) <= S n -> forall a, In a l -> rty_size a <= n).
  { intros l Hl a Ha. pose proof (rty_size_In l a Ha). cbn in Hl. lia. }
  destruct t; cbn [as_rust ty_paths mentions] in *.
  - destruct Hin as [E|[]]. injection E as <- <-. right. left. split; [reflexivity|]. eexists. split; [reflexivity|now left].
  - destruct Hin as [E|Hin]; [injection E as <- <-; right; left; split; [reflexivity|]; eexists; split; [reflexivity|now left]|].
    cbn [flat_map] in Hin. rewrite app_nil_r in Hin. cbn in Hn. destruct (IH t ltac:(lia) g p Hin) as [[-> K]|[(-> & s & -> & K)|(q & K & -> & ->)]]; [left|right; left|right; right]; cbn [In]; eauto 6.
  - cbn in Hn. exact (IH t ltac:(lia) g p Hin).
  - cbn in Hn. exact (IH t ltac:(lia) g p Hin).
  - destruct l as [|a [|b l]].
    + destruct Hin.
    + apply (L [a] (B _ Hn)). cbn [map flat_map]. now rewrite app_nil_r.
    + apply (L _ (B _ Hn)). exact Hin.
  - destruct Hin as [E|Hin]; [injection E as <- <-; left; split; [reflexivity|now left]|].
    destruct (L args (B args Hn) Hin) as [[-> K]|[(-> & s & -> & K)|(q & K & -> & ->)]]; [left|right; left|right; right]; cbn [In]; eauto 6.
  - destruct Hin as [E|Hin]; [injection E as <- <-; left; split; [reflexivity|now left]|].
    cbn [flat_map ty_paths app] in Hin. rewrite app_nil_r in Hin. cbn in Hn. destruct (IH t ltac:(lia) g p Hin) as [[-> K]|[(-> & s & -> & K)|(q & K & -> & ->)]]; [left|right; left|right; right]; cbn [In]; eauto 6.
  - destruct Hin as [E|[]]. injection E as <- <-. right. right. eexists. split; [now left|now split].
  - destruct Hin as [E|Hin]; [injection E as <- <-; left; split; [reflexivity|now left]|].
    destruct (L args (B args Hn) Hin) as [[-> K]|[(-> & s & -> & K)|(q & K & -> & ->)]]; [left|right; left|right; right]; cbn [In]; eauto 6.
Qed.
Definition embed_head : head := mk_head (u "pyo3_embed_python_source_code") [interpreter] (py_result (YTuple [])).
Lemma heads_fns : forall l p h, In h (fn_heads (states_all p l)) -> h = embed_head \/ exists c, In c (flat_map frag_contracts l) /\ h = head_of c.
Proof.
  intros l p h H. apply in_flat in H as (d & Hd & Hh). apply states_In in Hd as (q & y & Hy & Hd). apply fronted_from in Hy as [Hy _]. rewrite states_frag in Hd.
  destruct y as [|?|?|f|?|?|?|?|?|?|?|?|?|?|?]; try (now destruct Hd); try (apply in_one in Hd; subst d; cbn in Hh; try (now destruct Hh)).
  - destruct Hh as [<- | []]. right. exists (f_contract f). split; [apply in_flat_map; exists (GFn f); split; [exact Hy|now left]|reflexivity].
  - destruct Hd as [<- | [<- | []]]; destruct Hh.
  - destruct Hh as [<- | []]. now left.
Qed.
Lemma heads_decls : forall l p, map snd (states_decls p l) = map head_of (declared l).
Proof. induction l as [|y l IH]; intros p; [reflexivity|]. destruct y; cbn [states_decls declared map snd]; rewrite ?IH; reflexivity. Qed.
Lemma declared_contract : forall l c, In c (declared l) -> In c (flat_map frag_contracts l).
Proof. induction l as [|y l IH]; intros c H; [destruct H|]. cbn [flat_map]. apply in_or_app. destruct y; cbn [declared] in H; auto. destruct H as [<- | H]; [left; now left|auto]. Qed.
Lemma heads_scope : forall k h, In h (scope_heads (states_all plain k)) -> h = embed_head \/ exists c, In c (contracts k) /\ h = head_of c.
Proof.
  intros k h H. apply in_flat in H as (d & Hd & Hh). apply states_In in Hd as (q & y & Hy & Hd). apply fronted_from in Hy as [Hy _]. rewrite states_frag in Hd.
  assert (C : forall c, In c (match y with GImpl _ b | GTrait _ b | GImplFor _ _ b => flat_map frag_contracts b | _ => frag_contracts y end) -> In c (contracts k)) by (intros c Hc; apply in_flat_map; now exists y).
  destruct y as [|?|?|f|?|?|?|?|?|?|?|?|?|?|?]; try (now destruct Hd); try (apply in_one in Hd; subst d; cbn in Hh; try (now destruct Hh)).
  - destruct Hh as [<- | []]. right. exists (f_contract f). split; [apply C; now left|reflexivity].
  - destruct Hd as [<- | [<- | []]]; destruct Hh.
  - apply heads_fns in Hh as [->|(c & Hc & ->)]; [now left|right; eauto].
  - rewrite heads_decls in Hh. apply in_map_iff in Hh as (c & <- & Hc). right. exists c. split; [apply C; now apply declared_contract|reflexivity].
  - apply heads_fns in Hh as [->|(c & Hc & ->)]; [now left|right; eauto].
  - destruct Hh as [<- | []]. now left.
Qed.
Lemma in_lib : forall p, In p library_items -> In p library_paths.
Proof. intros p [<- | H]; apply in_or_app; [left; cbn; tauto|now right]. Qed.
Lemma head_paths : forall k c t g p, In c (contracts k) -> In t (head_types (head_of c)) -> In (g, p) (ty_paths t) ->
  g = true /\ In p library_paths \/ g = false /\ p = [u "Self"] \/
  exists r, mentioned k r /\ (g = true /\ r = MLib p \/ g = false /\ (exists s, p = [s] /\ r = MBare s) \/ exists q, r = MLocal q /\ p = segs q /\ g = leading_colon q).
Proof.
  intros k c t g p Hc Ht Hp.
  assert (R : forall r, In r (sig_types c) -> In (g, p) (ty_paths (as_rust r)) ->
    exists r, mentioned k r /\ (g = true /\ r = MLib p \/ g = false /\ (exists s, p = [s] /\ r = MBare s) \/ exists q, r = MLocal q /\ p = segs q /\ g = leading_colon q)).
  { intros r Hr H. destruct (type_paths r g p H) as [[-> K]|[(-> & s & -> & K)|(q & K & -> & ->)]]; eexists; (split; [exists c, r; split; [exact Hc|split; [exact Hr|exact K]]|]); [left|right; left|right; right]; eauto. }
  assert (L : forall q, In q library_paths -> (true, q) = (g, p) -> g = true /\ In p library_paths) by (intros q Hq E; injection E as <- <-; now split).
  destruct Ht as [<- | Ht].
  - cbn [hd_ret head_of py_result pyo3 ty_paths] in Hp. destruct Hp as [E|Hp]; [left; refine (L _ _ E); cbn; tauto|]. cbn [flat_map] in Hp. rewrite app_nil_r in Hp.
    unfold sig_types in R. destruct (k_ret c) as [r| |].
    + right. right. apply (R r); [apply in_or_app; right; now left|exact Hp].
    + cbn [pyo3 ty_paths flat_map app] in Hp. destruct Hp as [E|[E|[]]]; [left; refine (L _ _ E); cbn; tauto|]. injection E as <- <-. right. left. now split.
    + destruct Hp.
  - cbn [hd_params head_of map] in Ht. destruct Ht as [<- | Ht].
    + destruct (k_self c); cbn in Hp; [destruct Hp|]. destruct Hp as [E|[]]. left. refine (L _ _ E). cbn; tauto.
    + rewrite map_map in Ht. apply in_map_iff in Ht as ([n r] & <- & Hr). right. right. apply (R r); [apply in_or_app; left; apply in_map_iff; now exists (n, r)|exact Hp].
Qed.
Lemma heads_defined : forall l p, (forall y, In y l -> leads y = true \/ exists d, y = GFn d) -> fn_heads (states_all p l) = map head_of (defined l).
Proof.
  induction l as [|y l IH]; intros p H; [reflexivity|]. assert (H' : forall z, In z l -> leads z = true \/ exists d, z = GFn d) by (intros z Hz; apply H; now right).
  destruct (H y (or_introl eq_refl)) as [E|(d & ->)]; [destruct y; try discriminate; cbn [states_all defined]; now apply IH|].
  cbn [states_all states app defined map]. unfold fn_heads at 1. cbn [flat_map app]. f_equal. now apply IH.
Qed.

(** ** The output *)
Section output.
  Variable x : penv.
  Let U := pe_uni x.
  Hypothesis HU : uni_ok U.
  Hypothesis Ho : order_ok (pe_ord x).
  Hypothesis Hw : honest U (pe_world x).
  Variables (numpy : bool) (fuel : nat) (l : list request) (c : codegen) (out : list frag).
  Hypothesis Hl : asked_modules (pe_world x) l.
  Hypothesis Hc : asks x fuel l cg_new = Ok c.
  Hypothesis Hv : forall ms m k, final_modules x fuel c = Ok ms -> In m ms -> within k m -> variables_named U k.
  Hypothesis Hout : cg_generate x numpy fuel c = Ok out.
  Lemma output_decls : forall odd, (forall a, odd a = true -> scalar a = true) -> read_decls U (text odd out) = Some (states_all plain out).
  Proof.
    intros odd Hs. apply decls_ok; [exact (output_lexes x numpy fuel c out odd HU Hs Hout)|exact (output_wf x numpy fuel l c out HU Ho Hc Hv Hout)|].
    apply fine_and. exact (output_fine x HU Ho Hw numpy fuel l c out Hl Hc Hout).
  Qed.
  Lemma output_final : exists ms, final_modules x fuel c = Ok ms.
  Proof. destruct (final_modules x fuel c) as [ms| | |] eqn:Hf; [now exists ms|unfold cg_generate in Hout; rewrite Hf in Hout; discriminate..]. Qed.
  Lemma output_public : forall ns k, at_path out ns k -> forall d, In d (states_all plain k) -> presented (match ns with [] => true | _ => false end) (states_all plain k) d.
  Proof.
    intros ns k Hk d Hd. apply states_In in Hd as (q & y & Hy & Hd). destruct output_final as (ms & Hf).
    destruct (scope_at x numpy fuel l c out Ho Hw Hl Hc Hout ms ns k Hf Hk) as [[-> ->]|[(ex & ->)|(m & k' & P & Hm & Hk' & <- & HP & ->)]].
    - pose proof Hout as H. unfold cg_generate in H. rewrite Hf in H. cbn [obind] in H. apply bind_Ok in H as (ls & Hls & H). injection H as <-.
      refine (proj2 (all_concat (sees true (states_all plain (concat ls))) ls _) q y Hy d Hd). intros lm Hlm. destruct (mapM_In _ _ _ _ Hls Hlm) as (m & Hm & E).
      apply (module_public true _ (gen_ctx x numpy ms) m); [exact E|]. intros _. exact Hm.
    - destruct Hy as [E|[]]. injection E as <- <-. rewrite states_frag in Hd. apply in_one in Hd. subst d. now split.
    - destruct (final_typed x fuel l c ms Ho Hc Hf m k' Hm Hk') as (T1 & T2 & T3).
      assert (N : forall b, presented false b d -> presented (match segs (m_name k') with [] => true | _ => false end) b d).
      { intros b. destruct (segs (m_name k')) eqn:E; [|easy]. destruct (rt_name _ (final_rooted x Ho (honest_named _ _ Hw) fuel l c ms Hl Hc Hf m k' Hm Hk')) as [K _]. now destruct (K E). }
      apply N. refine (proj2 (body_public (gen_ctx x numpy ms) k' P HU HP (Hv ms m k' Hf Hm Hk') (fun cl p Hcl => T1 cl Hcl p) T3 T2) q y Hy d Hd).
  Qed.

  (** *** Types *)
  Lemma output_types : forall ns k h t g p, at_path out ns k -> In h (scope_heads (states_all plain k)) -> In t (head_types h) -> In (g, p) (ty_paths t) ->
    if g then In p library_paths \/ In p missing_paths
    else p = [u "Self"] \/ (exists s, p = [s] /\ In s Spec_Sig.bare_types) \/
      (traverse_submodules (pe_cfg x) = true -> generate_classes (pe_cfg x) = true -> generate_type_vars (pe_cfg x) = true ->
       exists b i, leads_to (states_all plain out) ns p b i /\ (has_struct b i \/ has_alias b i)).
  Proof.
    intros ns k h t g p Hk Hh Ht Hp. destruct output_final as (ms & Hf).
    apply heads_scope in Hh as [->|(ct & Hct & ->)].
    - cbn in Ht. destruct Ht as [<-|[<-|[]]]; cbn in Hp; destruct Hp as [E|[]]; injection E as <- <-; left; cbn; tauto.
    - destruct (head_paths k ct t g p Hct Ht Hp) as [[-> K]|[[-> ->]|(r & Hr & K)]]; [now left|now left|].
      destruct (mentions_known x Ho Hw numpy fuel l c ms out Hl Hc Hf Hout ns k Hk) as [K1 K2].
      destruct K as [[-> ->]|[(-> & s & -> & ->)|(q & -> & -> & ->)]].
      + destruct (K2 p Hr) as [K|K]; [left; now apply in_lib|now right].
      + right. left. exists s. split; [reflexivity|]. now apply K1.
      + assert (E : leading_colon q = false).
        { destruct (scope_mention x Ho Hw numpy fuel l c ms out Hl Hc Hf Hout ns k _ Hk Hr) as (m & m0 & P & _ & _ & _ & HP & _ & [(key & Kq) _]). exact (parts_table _ _ _ HP _ _ Kq). }
        rewrite E. right. right. intros O1 O2 O3. destruct (mentions_types x HU Ho Hw numpy fuel l c ms out Hl Hc Hf Hout O1 O2 O3 ns k q Hk Hr) as (q' & i & b & R & A & D).
        exists (states_all plain b), i. split; [exists q'; split; [exact R|now apply path_states]|]. destruct D as [D|D]; [left|right].
        * destruct (stated b _ (fun q => COther q (OStruct i [pyo3 ["PyAny"%string] []])) D eq_refl) as [q0 Hq]; [intros q0; exists q0; rewrite states_frag; now left|]. now exists q0, [pyo3 ["PyAny"%string] []].
        * destruct (stated b _ (fun q => COther q (OAlias i (pyo3 ["types"; "PyAny"]%string []))) D eq_refl) as [q0 Hq]; [intros q0; exists q0; rewrite states_frag; now left|]. now exists q0, (pyo3 ["types"; "PyAny"]%string []).
  Qed.
  (** *** Traits and structs *)
  Lemma output_impls : forall ns k, at_path out ns k ->
    (forall p t ty b, In (CImpl p (Some t) ty b) (states_all plain k) -> exists tn n q defs, t = YPath false [tn] [] /\ ty = pyo3 ["Bound"%string] [YLife (u "_"); YPath false [n] []] /\
      has_struct (states_all plain k) n /\ In (CTrait q tn defs) (states_all plain k) /\ map snd defs = fn_heads b) /\
    (forall q tn defs, In (CTrait q tn defs) (states_all plain k) -> exists p n b,
      In (CImpl p (Some (YPath false [tn] [])) (pyo3 ["Bound"%string] [YLife (u "_"); YPath false [n] []]) b) (states_all plain k) /\ map snd defs = fn_heads b).
  Proof.
    intros ns k Hk. destruct (output_traits x numpy fuel l c out HU Ho Hc Hout ns k Hk) as [T1 T2].
    pose proof (wf_at U out ns k Hk (output_wf x numpy fuel l c out HU Ho Hc Hv Hout)) as W.
    assert (B : forall t n b, In (GImplFor t n b) k -> fn_heads (states_all plain b) = map head_of (defined b)).
    { intros t n b Hb. apply heads_defined. intros y Hy. destruct (leads y) eqn:E; [now left|right]. destruct (items_In _ _ _ _ W Hb eq_refl) as [p K]. cbn [item_ok] in K. destruct K as (_ & _ & _ & _ & K).
      destruct (items_In _ _ _ _ K Hy E) as [p' K']. destruct y; cbn [item_ok] in K'; try discriminate E; try discriminate K'; try (now discriminate (proj1 K')). eauto. }
    split.
    - intros p t ty b H. apply states_In in H as (q & y & Hy & H). apply fronted_from in Hy as [Hy _]. rewrite states_frag in H.
      destruct y as [|?|?|?|?|v0|?|?|n0|? ?|? ?|n1 l1|t0 n2 l2|? ?|? ? ?]; try (now destruct H); try (apply in_one in H; try discriminate H); [destruct H as [H|[H|[]]]; discriminate H|]. injection H as _ -> -> ->.
      destruct (T1 _ _ _ Hy) as (defs & D1 & D2 & D3). destruct (stated k _ (fun q => CTrait q t0 (states_decls plain defs)) D1 eq_refl) as [q' Hq]; [intros q0; exists q0; rewrite states_frag; now left|].
      destruct (stated k _ (fun q => COther q (OStruct n2 [pyo3 ["PyAny"%string] []])) D2 eq_refl) as [q0 Hq0]; [intros q0; exists q0; rewrite states_frag; now left|].
      exists t0, n2, q', (states_decls plain defs). split; [reflexivity|]. split; [reflexivity|]. split; [now exists q0, [pyo3 ["PyAny"%string] []]|]. split; [exact Hq|]. now rewrite heads_decls, (B _ _ _ Hy), D3.
    - intros q tn defs H. apply states_In in H as (q0 & y & Hy & H). apply fronted_from in Hy as [Hy _]. rewrite states_frag in H.
      destruct y as [|?|?|?|?|v0|?|?|n0|? ?|? ?|n1 l1|t0 n2 l2|? ?|? ? ?]; try (now destruct H); try (apply in_one in H; try discriminate H); [destruct H as [H|[H|[]]]; discriminate H|]. injection H as _ -> ->.
      destruct (T2 _ _ Hy) as (n' & b & D1 & D2). destruct (stated k _ (fun q => CImpl q (Some (YPath false [n1] [])) (pyo3 ["Bound"%string] [YLife (u "_"); YPath false [n'] []]) (states_all plain b)) D1 eq_refl) as [q' Hq]; [intros q1; exists q1; rewrite states_frag; now left|].
      exists q', n', (states_all plain b). split; [exact Hq|]. now rewrite heads_decls, (B _ _ _ D1), D2.
  Qed.
  Lemma output_structs : none_prints (pe_world x) -> forall ns k p n fs, at_path out ns k -> In (COther p (OStruct n fs)) (states_all plain k) -> fs = [pyo3 ["PyAny"%string] []] /\
    exists path i a, segs path = ns /\ stands U (pe_world x) (path_snoc path i) a /\ tells_of x a (docs p) /\
      In (COther plain (OMacro (u "::pyo3::pyobject_native_type_named") [MName n])) (states_all plain k) /\
      In (COther plain (OMacro (u "::pyo3::pyobject_native_type_info") [MName n; MText (u "::pyo3::pyobject_native_static_type_object!(::pyo3::ffi::PyBaseObject_Type)"); MSome (to_py (path_snoc path i))])) (states_all plain k).
  Proof.
    intros Hn ns k p n fs Hk H. apply states_In in H as (q & y & Hy & H). pose proof (fronted_docs _ _ _ Hy) as Hd. apply fronted_from in Hy as [Hy _]. rewrite states_frag in H.
    destruct y as [|?|?|?|?|v0|?|?|n0|? ?|? ?|n1 l1|t0 n2 l2|? ?|? ? ?]; try (now destruct H); try (apply in_one in H; try discriminate H); [|destruct H as [H|[H|[]]]; discriminate H]. injection H as -> -> ->. split; [reflexivity|].
    destruct (output_told x numpy fuel l c out Ho Hw Hn Hl Hc Hout ns k _ _ Hk Hd) as (path & i & a & K1 & K2 & K3 & K4). exists path, i, a. do 3 (split; [assumption|]).
    assert (M : forall d, In d (states_all plain k) -> presented (match ns with [] => true | _ => false end) (states_all plain k) d) by (intros d; now apply (output_public ns k)).
    destruct (fronted_In k plain _ K3 eq_refl) as [q0 Hq0].
    assert (A : forall d, In d (states q0 (GMacros n0 (to_py (path_snoc path i)))) -> In d (states_all plain k)) by (intros d Hd'; apply states_In; eauto).
    rewrite states_frag in A. pose proof (A _ (or_introl eq_refl)) as A1. pose proof (A _ (or_intror (or_introl eq_refl))) as A2.
    destruct (M _ A1) as [M1 M2]. split; [|exact A2]. destruct q0 as [b0 l0]. cbn in M1, M2. subst. exact A1.
  Qed.
  (** *** Uses *)
  Lemma defined_name : forall b i, defines b i -> has_name (states_all plain b) i.
  Proof.
    intros b i D. destruct D as [(d & D & E)|[D|[D|(b' & D)]]].
    - left. destruct (stated b _ (fun q => CFn q (head_of (f_contract d))) D eq_refl) as [q0 Hq]; [intros q0; exists q0; rewrite states_frag; now left|]. now exists q0, (head_of (f_contract d)).
    - right. right. left. destruct (stated b _ (fun q => COther q (OAlias i (pyo3 ["types"; "PyAny"]%string []))) D eq_refl) as [q0 Hq]; [intros q0; exists q0; rewrite states_frag; now left|]. now exists q0, (pyo3 ["types"; "PyAny"]%string []).
    - right. left. destruct (stated b _ (fun q => COther q (OStruct i [pyo3 ["PyAny"%string] []])) D eq_refl) as [q0 Hq]; [intros q0; exists q0; rewrite states_frag; now left|]. now exists q0, [pyo3 ["PyAny"%string] []].
    - right. right. right. destruct (stated b _ (fun q => CMod q i (states_all plain b')) D eq_refl) as [q0 Hq]; [intros q0; exists q0; rewrite states_frag; now left|]. now exists q0, (states_all plain b').
  Qed.
  Lemma output_uses : all_on (pe_cfg x) -> forall ns k p v alias, at_path out ns k -> In (COther p (OUse v alias)) (states_all plain k) ->
    exists b i, leads_to (states_all plain out) ns v b i /\ has_name b i.
  Proof.
    intros On ns k p v alias Hk H. destruct output_final as (ms & Hf). apply states_In in H as (q & y & Hy & H). apply fronted_from in Hy as [Hy _]. rewrite states_frag in H.
    destruct y as [|?|?|?|?|v0|?|?|n0|? ?|? ?|n1 l1|t0 n2 l2|? ?|? ? ?]; try (now destruct H); try (apply in_one in H; try discriminate H); [|destruct H as [H|[H|[]]]; discriminate H]. injection H as _ -> _.
    destruct (uses_refer x HU Ho Hw numpy fuel l c ms out Hl Hc Hf Hout On ns k _ Hk Hy) as (q' & i & b & R & A & D). exists (states_all plain b), i.
    split; [exists q'; split; [exact R|now apply path_states]|]. now apply defined_name.
  Qed.
  (** *** Modules and preludes *)
  Lemma prelude_states : forall b, is_prelude b = true -> exists names, states_all plain b = [COther (mk_front true []) (OUses [u "super"] names)].
  Proof.
    intros b H. destruct b as [|[] [|[|?|?|?|?|?|ex|?|?|? ?|? ?|? ?|? ? ?|? ?|? ? ?] [|]]]; try discriminate. now exists ex.
  Qed.
  Lemma output_modules : none_prints (pe_world x) -> forall ns k p n b, at_path out ns k -> In (CMod p n b) (states_all plain k) ->
    (docs p = [] /\ exists names, b = [COther (mk_front true []) (OUses [u "super"] names)]) \/
    exists o, is_module (pe_world x) o /\ segs (path_from_py U (w_name (pe_world x) o)) = ns ++ [n] /\ tells_of x o (docs p).
  Proof.
    intros Hn ns k p n b Hk H. apply states_In in H as (q & y & Hy & H). pose proof (fronted_docs _ _ _ Hy) as Hd. apply fronted_from in Hy as [Hy _]. rewrite states_frag in H.
    destruct y as [|?|?|?|?|v0|?|?|n0|? ?|? ?|n1 l1|t0 n2 l2|n3 l3|? ? ?]; try (now destruct H); try (apply in_one in H; try discriminate H); [destruct H as [H|[H|[]]]; discriminate H|]. injection H as -> -> ->.
    destruct (output_told x numpy fuel l c out Ho Hw Hn Hl Hc Hout ns k _ _ Hk Hd) as [[K E]|K]; [left|now right]. split; [exact E|]. now apply prelude_states.
  Qed.
  Lemma output_preludes : all_on (pe_cfg x) -> forall ns k p v names, at_path out ns k -> In (COther p (OUses v names)) (states_all plain k) ->
    v = [u "super"] /\ exists q n b, ns = q ++ [n] /\ inside_decls (states_all plain out) q b /\ forall i, In i names -> has_name b i.
  Proof.
    intros On ns k p v names Hk H. destruct output_final as (ms & Hf). apply states_In in H as (q & y & Hy & H). apply fronted_from in Hy as [Hy _]. rewrite states_frag in H.
    destruct y as [|?|?|?|?|?|ex|?|?|? ?|? ?|? ?|? ? ?|? ?|? ? ?]; try (now destruct H); try (apply in_one in H; try discriminate H); [|destruct H as [H|[H|[]]]; discriminate H]. injection H as _ -> ->. split; [reflexivity|].
    destruct (preludes_refer x HU Ho Hw numpy fuel l c ms out Hl Hc Hf Hout On ns k _ Hk Hy) as (q' & n & k' & E & A & _ & D). exists q', n, (states_all plain k').
    split; [exact E|]. split; [now apply path_states|]. intros i Hi. now apply defined_name, D.
  Qed.
End output.
