(** * Lemmas: what the text of the output does when it runs (C70) *)
From Coq Require Import Bool.
From Verif Require Import Base Model_Ident Model_Path Model_Import Model_Text Model_Config Model_Type Model_IntoRs Model_World Model_Out
  Model_Function Model_Property Model_Class Model_Module Model_Parse Model_Codegen Spec_Path Spec_Names Spec_Call Spec_Rust Spec_Items Spec_Tree Spec_Api Spec_Out Spec_Attr Spec_Full Spec_Doc Spec_Acts Spec_Use Spec_Sig Spec_Check Spec_Lex Spec_Code Spec_Behave Spec_Print Model_Token Model_Print
  Proof_Base Proof_Ident Proof_Path Proof_Type Proof_Ann Proof_IntoRs Proof_Function Proof_Call Proof_Method Proof_Module
  Proof_Parse Proof_Forest Proof_Embed Proof_Err Proof_Api Proof_Honest Proof_Rooted Proof_Parts Proof_Property Proof_Scope Proof_Attr Proof_Shown Proof_Full Proof_Calm Proof_Use Proof_Clash Proof_Acts Proof_Sig Proof_Check Proof_Written Proof_Grammar Proof_Valid Proof_Code Proof_Ast Proof_Run Proof_File.

(** ** One function *)
Definition ready (pl : place) (d : fn_def) : Prop :=
  let k := f_contract d in
  k_self k = (match pl with InTrait => true | _ => false end) /\ (f_disp d = DSelf -> k_self k = true) /\ (f_let_py d = true -> k_self k = true) /\
  (needs_py d = true -> Spec_Check.has_py d = true) /\ map fst (f_prep d) = map fst (k_params k) /\ (forall x, In x (map fst (k_params k)) -> ~ In x own_names) /\
  match f_body d with BGet _ => k_params k = [] | BSet _ v => map fst (k_params k) = [v] | _ => True end /\
  (forall v, In v (body_vars (f_body d)) -> In v (map fst (k_params k))) /\ forall v, In v (map fst (k_params k)) -> exists t, v = u "p_" ++ t.
Lemma combine_fst : forall {A B} (l : list A) (k : list B), length l = length k -> map fst (combine l k) = l.
Proof. intros A B l. induction l as [|a l IH]; intros [|b k] E; try easy. cbn. f_equal. apply IH. now injection E. Qed.
Lemma fn_ready : forall g scope f impl d pl, fn_generate g scope f = Ok impl -> In (GFn d) (frags_of impl) -> fits_place (fn_typ f) pl -> ready pl d.
Proof.
  intros g scope f impl d pl H Hin Hpl.
  destruct (fn_generate_inv _ _ _ _ _ H Hin) as (name & id & preps & tys & rt & public & dd & pos & kw & _ & _ & Hpreps & Htys & _ & _ & Hk & Hd & _ & _ & Ely & Epr & Edisp & Eb).
  apply mapM_length in Hpreps, Htys.
  assert (Kp : map fst (k_params (f_contract d)) = map pid (fn_params f) /\ k_self (f_contract d) = is_bound (fn_typ f)).
  { assert (E : map fst (combine (map pid (fn_params f)) tys) = map pid (fn_params f)) by (apply combine_fst; now rewrite map_length).
    unfold gen_contract in Hk. destruct (fn_typ f) as [|cp mk|]; [|destruct mk|];
      try (injection Hk as _ Hk; rewrite <- Hk; split; [exact E|reflexivity]); apply bind_Ok in Hk as (cn & _ & Hk); apply bind_Ok in Hk as (n & _ & Hk); injection Hk as _ Hk; rewrite <- Hk; (split; [exact E|reflexivity]). }
  destruct Kp as [Kp Ks].
  assert (C1 : k_self (f_contract d) = (match pl with InTrait => true | _ => false end)).
  { rewrite Ks. unfold fits_place in Hpl. destruct (fn_typ f) as [|cp mk|]; [|destruct mk|]; cbn; try (rewrite Hpl); try reflexivity; destruct pl; try reflexivity; congruence. }
  assert (C2 : f_disp d = DSelf -> k_self (f_contract d) = true).
  { rewrite Edisp, Ks. unfold gen_disp in Hd. destruct (fn_typ f) as [|cp mk|]; [|destruct mk|]; try (injection Hd as <-; reflexivity); try discriminate;
      try (apply bind_Ok in Hd as (q1 & _ & Hd)); try (apply bind_Ok in Hd as (q2 & _ & Hd)); injection Hd as <-; (reflexivity || discriminate). }
  split; [exact C1|]. split; [exact C2|]. split; [now rewrite Ely, Ks|]. split; [|split; [|split; [|split; [|split]]]].
  - intros _. unfold Spec_Check.has_py. rewrite Ely, Ks. now destruct (is_bound (fn_typ f)).
  - rewrite Kp, Epr. apply combine_fst. now rewrite map_length.
  - rewrite Kp. intros x Hx. apply in_map_iff in Hx as (q & <- & _). intros K. repeat (destruct K as [K|K]; [discriminate K|]). destruct K.
  - rewrite Eb. destruct (fn_typ f) as [|cp mk|]; [|destruct mk|]; exact I.
  - exact (body_declared _ _ _ _ _ H Hin).
  - rewrite Kp. intros v Hv. apply in_map_iff in Hv as (q & <- & _). now exists (as_py (p_name q)).
Qed.
Lemma accessor_ready : forall g scope p impl d pl, prop_generate g scope p = Ok impl -> In (GFn d) (frags_of impl) ->
  (match pr_owner p with OwnerClass => pl = InTrait | OwnerModule => pl <> InTrait end) -> ready pl d.
Proof.
  intros g scope p impl d pl H Hin Hpl. unfold prop_generate in H. apply bind_Ok in H as ([gt gi] & Hg & H). apply bind_Ok in H as ([st si] & Hs & H).
  assert (K : In (GFn d) gi \/ pr_mutable p = true /\ In (GFn d) si).
  { destruct (pr_owner p); injection H as <-; cbn [frags_of] in Hin.
    - destruct Hin as [Hin|Hin]; [discriminate|]. apply in_app_or in Hin as [Hin|Hin]; [now left|]. destruct (pr_mutable p); [|destruct Hin]. destruct Hin as [Hin|Hin]; [discriminate|]. now right.
    - apply in_app_or in Hin as [Hin|Hin]; [now left|]. destruct (pr_mutable p); [now right|]. injection Hs as _ <-. destruct Hin. }
  assert (Hd : forall y, prop_disp g p = Ok y -> y = DSelf -> owner_is_class (pr_owner p) = true).
  { intros y Hy. unfold prop_disp in Hy. destruct (pr_owner p); [|reflexivity]. apply bind_Ok in Hy as (q & _ & Hy). apply bind_Ok in Hy as (L & _ & Hy). injection Hy as <-. discriminate. }
  assert (Pl : owner_is_class (pr_owner p) = match pl with InTrait => true | _ => false end) by (destruct (pr_owner p), pl; try reflexivity; try discriminate Hpl; now destruct Hpl).
  destruct K as [K|[Em K]].
  - unfold gen_getter in Hg. apply bind_Ok in Hg as (docs & Hdoc & Hg). apply bind_Ok in Hg as (n & Hn & Hg). apply bind_Ok in Hg as (id & Hid & Hg). destruct id as [id|]; [|injection Hg as _ <-; destruct K].
    apply bind_Ok in Hg as (t & Hty & Hg). apply bind_Ok in Hg as (dd & Hdd & Hg). injection Hg as _ <-. apply in_app_or in K as [K|[K|[]]]; [now destruct (frags_docs _ _ _ _ Hdoc K)|]. injection K as <-.
    assert (Hc : dd <> DSelf -> owner_is_class (pr_owner p) = false).
    { intros Hdd'. unfold prop_disp in Hdd. destruct (pr_owner p); [reflexivity|]. injection Hdd as <-. now destruct Hdd'. }
    unfold ready, needs_py, Spec_Check.has_py. cbn. split; [exact Pl|]. split; [exact (Hd _ Hdd)|]. split; [discriminate|]. split; [|split; [reflexivity|split; [easy|split; [reflexivity|split; easy]]]].
    destruct dd; [discriminate|]. intros _. rewrite Hc; [reflexivity|discriminate].
  - rewrite Em in Hs. unfold gen_setter in Hs. apply bind_Ok in Hs as (docs & Hdoc & Hs). apply bind_Ok in Hs as (n & Hn & Hs). apply bind_Ok in Hs as (id & Hid & Hs). destruct id as [id|]; [|injection Hs as _ <-; destruct K].
    apply bind_Ok in Hs as (pr & Hpr & Hs). apply bind_Ok in Hs as (t & Hty & Hs). apply bind_Ok in Hs as (dd & Hdd & Hs). injection Hs as _ <-. apply in_app_or in K as [K|[K|[]]]; [now destruct (frags_docs _ _ _ _ Hdoc K)|]. injection K as <-.
    unfold ready, needs_py, Spec_Check.has_py. cbn [f_contract f_disp f_let_py f_prep f_body k_self k_params map fst]. split; [exact Pl|]. split; [exact (Hd _ Hdd)|]. split; [auto|]. split; [|split; [reflexivity|split; [|split; [reflexivity|split; [intros v [<-|[]]; now left|intros v [<-|[]]; now exists (u "value")]]]]].
    + intros _. now destruct (owner_is_class (pr_owner p)).
    + intros x [<- | []] K. repeat (destruct K as [K|K]; [discriminate K|]). destruct K.
Qed.
Lemma class_ready : forall x g c l, class_generate g c = Ok l -> origin_item x (AClass c) -> forall y, In y l ->
  match y with GImpl _ b => forall d, In (GFn d) b -> ready InImpl d | GImplFor _ _ b => forall d, In (GFn d) b -> ready InTrait d | GFn _ => False | _ => True end.
Proof.
  intros x g c l H (a & o & i & cd & Ho & Ha & Hp & Ed & Hs) y Hy.
  destruct (class_attrs_ok _ _ _ _ Hp) as [M1 M2].
  assert (Em : cl_methods c = cl_methods cd) by now rewrite Ed. assert (Epr : cl_props c = cl_props cd) by now rewrite Ed. rewrite <- Em in M1. rewrite <- Epr in M2.
  unfold class_generate in H. apply bind_Ok in H as (docs & Hdoc & H). apply bind_Ok in H as (nm & Hnm & H).
  destruct (struct_ident (g_uni g) nm) as [id|] eqn:Eid; [|injection H as <-; destruct Hy]. apply bind_Ok in H as (scope & _ & H).
  apply bind_Ok in H as (ms & Hms & H). apply bind_Ok in H as (ps & Hps & H). apply bind_Ok in H as (tid & _ & H).
  set (m := fold_left add_member (ms ++ ps) (mk_members [] [] [])) in *.
  assert (M : forall e, (In (GFn e) (mb_struct m) -> ready InImpl e) /\ (In (GFn e) (mb_impls m) -> ready InTrait e)).
  { intros e. pose proof (member_from (fun b z => forall e, z = GFn e -> if b : bool then ready InImpl e else ready InTrait e) (ms ++ ps) (mk_members [] [] []) (GFn e)) as K.
    assert (K1 : forall impl, In impl (ms ++ ps) -> In (GFn e) (frags_of impl) -> match impl with IFunction _ => ready InImpl e | IMethod _ _ => ready InTrait e end).
    { intros impl Hi Hin. apply in_app_or in Hi as [Hi|Hi].
      - destruct (mapM_In _ _ _ _ Hms Hi) as (f & Hf & Hg). destruct (M1 f Hf) as (j & b & A1 & A2 & A3).
        destruct (fn_parse_typed _ _ _ _ _ A3) as [_ Ty]. cbn in Ty.
        pose proof (fn_place _ _ _ _ Hg (or_intror (or_intror Ty))) as Pl. destruct impl as [li|ti li]; cbn [frags_of] in Hin.
        + destruct (Pl e Hin) as [Pl' _]. exact (fn_ready _ _ _ _ e InImpl Hg Hin Pl').
        + exact (fn_ready _ _ _ _ e InTrait Hg Hin (Pl e Hin)).
      - destruct (mapM_In _ _ _ _ Hps Hi) as (p & Hpp & Hg). destruct (M2 p Hpp) as (j & b & A1 & A2 & A3 & _).
        assert (Ei : exists t l', impl = IMethod t l') by (unfold prop_generate in Hg; apply bind_Ok in Hg as ([gt gi] & _ & Hg); apply bind_Ok in Hg as ([st si] & _ & Hg); rewrite A3 in Hg; injection Hg as <-; eauto).
        destruct Ei as (t & l' & ->). apply (accessor_ready _ _ _ _ e InTrait Hg Hin). now rewrite A3. }
    split; intros He.
    - apply (proj1 (K (or_introl He) ltac:(easy) ltac:(easy) ltac:(intros l' Hl' Hz e' E; injection E as <-; exact (K1 (IFunction l') Hl' Hz)) ltac:(intros t l' Hl' Hz e' E; injection E as <-; exact (K1 (IMethod t l') Hl' Hz)))); auto.
    - apply (proj2 (K (or_intror He) ltac:(easy) ltac:(easy) ltac:(intros l' Hl' Hz e' E; injection E as <-; exact (K1 (IFunction l') Hl' Hz)) ltac:(intros t l' Hl' Hz e' E; injection E as <-; exact (K1 (IMethod t l') Hl' Hz)))); auto. }
  injection H as <-. apply in_app_or in Hy as [Hy|Hy]; [destruct (doc_only _ _ _ Hdoc _ Hy) as [t ->]; exact I|].
  cbn [app In trait_docs] in Hy. repeat (destruct Hy as [<-|Hy]; [first [exact I|exact (fun e => proj1 (M e))|exact (fun e => proj2 (M e))]|]). destruct Hy.
Qed.

(** ** The items that are read *)
Lemma shown_from : forall l q i, In i (shown_all q l) -> exists p y, In y l /\ In i (shown p y).
Proof.
  induction l as [|y l IH]; intros q i H; [destruct H|]. assert (K : forall q', In i (shown_all q' l) -> exists p z, In z (y :: l) /\ In i (shown p z)).
  { intros q' Hq. destruct (IH q' i Hq) as (p & z & Hz & Hi). exists p, z. split; [now right|exact Hi]. }
  destruct y; cbn [shown_all] in H; try (now apply (K _ H)); (apply in_app_or in H as [H|H]; [|now apply (K _ H)]); eexists q, _; (split; [now left|exact H]).
Qed.
Lemma shown_has : forall l y, In y l -> forall q, exists p, incl (shown p y) (shown_all q l).
Proof.
  induction l as [|z l IH]; intros y H q; [destruct H|]. destruct H as [<- | H].
  - exists q. destruct z; cbn [shown_all]; try (now intros i Hi); try (rewrite shown_frag; now intros i Hi); now apply incl_appl.
  - destruct z; cbn [shown_all]; try (now apply IH); destruct (IH y H bare) as [p Hp]; exists p; now apply incl_appr.
Qed.
Ltac pick H := match type of H with In _ [] => destruct H | _ => destruct H as [H|H]; [try discriminate H|pick H] end.
Lemma shown_fn : forall l q p f, In (IFn p f) (shown_all q l) -> (exists d, In (GFn d) l /\ f = fn_syntax d) \/ exists m file src, In (GEmbed m file src) l /\ f = embed_syntax m file src.
Proof.
  intros l q p f H. destruct (shown_from _ _ _ H) as (p' & y & Hy & Hi). rewrite shown_frag in Hi. destruct y; pick Hi.
  - injection Hi as _ <-. left. eauto.
  - injection Hi as _ <-. right. eauto 6.
Qed.
Lemma shown_mod : forall l q p n k, In (IMod p n k) (shown_all q l) -> exists b, In (GMod n b) l /\ k = shown_all bare b.
Proof.
  intros l q p n k H. destruct (shown_from _ _ _ H) as (p' & y & Hy & Hi). rewrite shown_frag in Hi. destruct y; pick Hi.
  - injection Hi as _ <- <-. eauto.
Qed.
Lemma shown_impl : forall l q q' h k, In (IImpl q' h k) (shown_all q l) -> exists n b, k = shown_all bare b /\
  (In (GImpl n b) l /\ target_of h = Some (OfStruct n) \/ exists t, In (GImplFor t n b) l /\ target_of h = Some (OfObject n)).
Proof.
  intros l q q' h k H. destruct (shown_from _ _ _ H) as (p' & y & Hy & Hi). rewrite shown_frag in Hi. destruct y; pick Hi.
  - injection Hi as _ <- <-. exists n, l0. split; [reflexivity|]. left. now split.
  - injection Hi as _ <- <-. exists n, l0. split; [reflexivity|]. right. exists tr. now split.
Qed.
Lemma inside_shown : forall items ns r, inside_mod items ns r -> forall l, items = shown_all bare l -> exists k, at_path l ns k /\ r = shown_all bare k.
Proof.
  induction 1 as [l0|l0 p n k ns r Hin Hk IH]; intros l E; subst.
  - exists l. split; [constructor|reflexivity].
  - destruct (shown_mod _ _ _ _ _ Hin) as (b & Hb & ->). destruct (IH b eq_refl) as (k & Hk' & ->). exists k. split; [now apply (at_down l n b)|reflexivity].
Qed.
Lemma path_shown : forall l ns k, at_path l ns k -> inside_mod (shown_all bare l) ns (shown_all bare k).
Proof.
  induction 1 as [l|l n b ns k Hin Hk IH]; [constructor|]. destruct (shown_has _ _ Hin bare) as [p Hp]. specialize (Hp (IMod p n (shown_all bare b))). rewrite shown_frag in Hp.
  now apply (inside_there _ p n (shown_all bare b)); [apply Hp; now left|].
Qed.
Lemma fn_shown : forall k w d, has_fn k w d -> is_fn_of (shown_all bare k) w (fn_syntax d).
Proof.
  assert (F : forall b d, In (GFn d) b -> exists p, In (IFn p (fn_syntax d)) (shown_all bare b)).
  { intros b d H. destruct (shown_has _ _ H bare) as [p Hp]. exists p. apply Hp. now left. }
  intros k [|n|n] d H; cbn [has_fn is_fn_of] in *.
  - now apply F.
  - destruct H as (b & Hb & Hd). destruct (F b d Hd) as [p Hp]. destruct (shown_has _ _ Hb bare) as [q Hq]. exists q, (word n), (shown_all bare b), p. split; [|split; [reflexivity|exact Hp]].
    apply Hq. rewrite shown_frag. now left.
  - destruct H as (t & b & Hb & Hd). destruct (F b d Hd) as [p Hp]. destruct (shown_has _ _ Hb bare) as [q Hq]. eexists q, _, (shown_all bare b), p. split; [apply Hq; rewrite shown_frag; now left|].
    split; [reflexivity|exact Hp].
Qed.
Definition no_embeds (k : list frag) : Prop := forall n b, (In (GImpl n b) k \/ exists t, In (GImplFor t n b) k) -> forall m file src, ~ In (GEmbed m file src) b.
Lemma items_In : forall item l st y, items item st l -> In y l -> leads y = false -> exists p, item p y.
Proof.
  intros item. induction l as [|z l IH]; intros st y H Hy Hl; [destruct Hy|]. destruct Hy as [<- | Hy].
  - destruct z; try discriminate Hl; cbn [items] in H; destruct H as [H _]; eauto.
  - destruct z; cbn [items] in H; destruct H as [_ H]; eauto.
Qed.
Lemma wf_embeds : forall U l, well_formed U InModule l -> no_embeds l.
Proof.
  intros U l H n b Hb m file src He. assert (K : exists pl, pl <> InModule /\ items (item_ok U pl) Nothing b).
  { destruct Hb as [Hb|[t Hb]]; destruct (items_In _ _ _ _ H Hb eq_refl) as [p K]; cbn [item_ok] in K; [exists Spec_Items.InImpl|exists InTraitImpl]; (split; [discriminate|apply K]). }
  destruct K as (pl & Hpl & K). destruct (items_In _ _ _ _ K He eq_refl) as [p K']. cbn [item_ok] in K'. contradiction.
Qed.
Lemma wf_at : forall U l ns k, at_path l ns k -> well_formed U InModule l -> well_formed U InModule k.
Proof. intros U l ns k. induction 1 as [|l n b ns k Hb _ IH]; intros H; [exact H|]. apply IH. destruct (items_In _ _ _ _ H Hb eq_refl) as [p K]. cbn [item_ok] in K. apply K. Qed.
Lemma shown_of : forall k w f, no_embeds k -> is_fn_of (shown_all bare k) w f ->
  (exists d, has_fn k w d /\ f = fn_syntax d) \/ w = OfModule /\ exists m file src, In (GEmbed m file src) k /\ f = embed_syntax m file src.
Proof.
  intros k w f Hn H. assert (K : w <> OfModule -> exists d, has_fn k w d /\ f = fn_syntax d).
  { intros Hm. assert (H' : exists q h k' p, In (IImpl q h k') (shown_all bare k) /\ target_of h = Some w /\ In (IFn p f) k') by (destruct w; [now destruct Hm|exact H|exact H]). destruct H' as (q & h & k' & p & Hi & Ht & Hf).
    destruct (shown_impl _ _ _ _ _ Hi) as (n & b & -> & Hb). destruct (shown_fn _ _ _ _ Hf) as [(d & Hd & ->)|(m & file & src & He & _)].
    - exists d. split; [|reflexivity]. destruct Hb as [[Hb E]|(t & Hb & E)]; rewrite E in Ht; injection Ht as <-; cbn; eauto.
    - exfalso. refine (Hn n b _ m file src He). destruct Hb as [[Hb _]|(t & Hb & _)]; eauto. }
  destruct w as [|n|n]; [|left; apply K; discriminate|left; apply K; discriminate]. destruct H as (p & H). destruct (shown_fn _ _ _ _ H) as [(d & Hd & ->)|E]; [left; now exists d|right; now split].
Qed.

(** ** Running *)
Lemma run_embed : forall V (answer : list (op V) -> op V -> option V) name file src log, run answer (embed_syntax name file src) [VPy] log = Some (loads_source answer name file src log).
Proof.
  intros V answer name file src log. vm_compute.
  repeat match goal with |- context [match answer ?a ?b with _ => _ end] => destruct (answer a b); try reflexivity end.
Qed.
Lemma walk_found : forall w answer l o a log, faithful w answer -> reaches w o l a -> exists m, Forall is_lookup m /\ walk answer l o log = (Some a, log ++ m).
Proof.
  intros w answer l o a log Hf H. revert log. induction H as [o|o s b l a Hs _ IH]; intros log; cbn [walk].
  - exists []. split; [constructor|]. now rewrite app_nil_r.
  - unfold perform. rewrite (proj2 (Hf log)), Hs. destruct (IH (log ++ [OGet o s])) as (m & Hm & E). exists (OGet o s :: m). split; [now constructor|]. rewrite E, <- app_assoc. reflexivity.
Qed.
Lemma fetch_found : forall w answer L o log, faithful w answer -> finds w L o -> exists m, Forall is_lookup m /\ fetch answer None (DImport L) log = (Some o, log ++ m).
Proof.
  intros w answer L o log Hf (m0 & Hi & Hr). cbn [fetch]. unfold perform. rewrite (proj1 (Hf log)), Hi. destruct (walk_found w answer _ _ _ (log ++ [OImport (lk_import L)]) Hf Hr) as (m & Hm & E).
  exists (OImport (lk_import L) :: m). split; [now constructor|]. rewrite E, <- app_assoc. reflexivity.
Qed.
Definition fresh_params (d : fn_def) : Prop := NoDup (map fst (k_params (f_contract d))).
Lemma syntax_params : forall d, distinct_params (fn_syntax d) -> fresh_params d.
Proof.
  intros d H. unfold distinct_params, fn_syntax, shown_params in H. cbn [r_params map fst] in H. rewrite map_map in H. cbn [fst] in H. apply NoDup_cons_iff in H as [_ H]. exact H.
Qed.
Definition self_at {V} (pl : place) (self : option V) : Prop := match pl with InTrait => self <> None | _ => self = None end.
Lemma ready_runs : forall V (answer : list (op V) -> op V -> option V) pl d self l log r, ready pl d -> distinct_params (fn_syntax d) -> self_at pl self ->
  does answer d self l log = Some r -> run answer (fn_syntax d) (recv self :: map VGiven l) log = Some r.
Proof.
  intros V answer pl d self l log r (R1 & R2 & R3 & R4 & R5 & R6 & R7 & _) Hd Hs H. apply run_fn; try assumption; [|now apply syntax_params].
  rewrite R1. unfold self_at in Hs. destruct pl; [rewrite Hs; reflexivity|rewrite Hs; reflexivity|]. destruct self; [reflexivity|now destruct Hs].
Qed.
Lemma inquire_self : forall V (answer : list (op V) -> op V -> option V) o (q : V -> op V) k log,
  inquire answer (Some o) DSelf q k log = (match answer log (q o) with Some v => k v | None => Raised end, log ++ [q o]).
Proof. intros. unfold inquire. cbn [fetch]. unfold perform. now destruct (answer log (q o)). Qed.
Lemma inquire_found : forall w answer L o q k log, faithful w answer -> finds w L o -> exists m, Forall is_lookup m /\
  inquire answer None (DImport L) q k log = (match answer (log ++ m) (q o) with Some v => k v | None => Raised end, log ++ m ++ [q o]).
Proof.
  intros w answer L o q k log Hf Ho. destruct (fetch_found w answer L o log Hf Ho) as (m & Hm & E). exists m. split; [exact Hm|]. unfold inquire. rewrite E. unfold perform. rewrite app_assoc.
  now destruct (answer (log ++ m) (q o)).
Qed.

Lemma runs_found : forall w answer d pl l log L o q k, ready pl d -> pl <> InTrait -> distinct_params (fn_syntax d) -> faithful w answer -> f_disp d = DImport L -> finds w L o ->
  does answer d None l log = Some (inquire answer None (f_disp d) q k log) -> ends_with answer (fn_syntax d) (VPy :: passed l) log (q o) k.
Proof.
  intros w answer d pl l log L o q k Hr Hpl Hd Hf HL Ho H. rewrite HL in H. destruct (inquire_found w answer L o q k log Hf Ho) as (m & Hm & E). exists m. split; [exact Hm|].
  rewrite <- E. apply (ready_runs _ answer pl d None l log _ Hr Hd); [destruct pl; [reflexivity|reflexivity|now destruct Hpl]|exact H].
Qed.
Lemma runs_self : forall V (answer : list (op V) -> op V -> option V) d o l log q k, ready InTrait d -> distinct_params (fn_syntax d) -> f_disp d = DSelf ->
  does answer d (Some o) l log = Some (inquire answer (Some o) (f_disp d) q k log) -> asks_once answer (fn_syntax d) (VObj o :: passed l) log (q o) k.
Proof.
  intros V answer d o l log q k Hr Hd HL H. rewrite HL in H. unfold asks_once. rewrite <- inquire_self. apply (ready_runs _ answer InTrait d (Some o) l log _ Hr Hd); [discriminate|exact H].
Qed.
Lemma module_behaves : forall x ns d, module_acts (passing x) x ns d -> ready AtModule d -> distinct_params (fn_syntax d) -> module_runs x ns (fn_syntax d).
Proof.
  intros x ns d (o & i & b & a & L & H1 & H2 & H3 & H4 & HL & _ & Hfind & Hs & Hu & Hp & _) Hr Hd. exists o, i, b, a. do 4 (split; [assumption|]). intros Hb answer log Hf. specialize (Hfind Hb).
  unfold uses_attr in Hu. unfold is_call in Hp. destruct (f_body d) as [ar|n ar|n|n v] eqn:Eb; [destruct Hu|..].
  - destruct Hu as [-> Hu]. left. split; [exact Hu|]. intros s l ((sg & A1 & A2 & A3 & A4 & A5) & A6 & A7 & A8 & A9).
    destruct (Hp eq_refl oid sg s l A1 A2 A3 A4 A5 A6 A7 A8 A9) as (pos & kw & Hc & Hbd). exists pos, kw. split; [exact Hbd|].
    apply (runs_found _ answer d AtModule l log L o (fun o => OMethod o (as_py i) pos kw) Extracted Hr ltac:(discriminate) Hd Hf HL Hfind). unfold does. now rewrite Eb, Hc.
  - destruct Hu as [-> Hu]. right. left. split; [exact Hu|].
    apply (runs_found _ answer d AtModule [] log L o (fun o => OGet o (as_py i)) Extracted Hr ltac:(discriminate) Hd Hf HL Hfind). unfold does. now rewrite Eb.
  - destruct Hu as (-> & Hu & _). right. right. split; [exact Hu|]. intros y.
    apply (runs_found _ answer d AtModule [AOne y] log L o (fun o => OSet o (as_py i) y) finished Hr ltac:(discriminate) Hd Hf HL Hfind). unfold does. now rewrite Eb.
Qed.
Lemma call_params : forall V (d : fn_def) (l : list (rarg V)) r, python_call d l = Some r -> length (f_prep d) = length l.
Proof.
  intros V d l r H. unfold python_call in H. destruct (call_env (f_prep d) l) as [rho|] eqn:E; [|discriminate]. clear H. revert l rho E.
  induction (f_prep d) as [|[y p] ps IH]; intros [|a l] rho E; try discriminate; [reflexivity|]. cbn in E. destruct (prepared p a); [|discriminate]. destruct (call_env ps l) as [rho'|] eqn:E'; [|discriminate].
  cbn. f_equal. exact (IH l rho' E').
Qed.
Lemma struct_behaves : forall x a d, class_acts (passing x) x a d -> ready InImpl d -> distinct_params (fn_syntax d) -> struct_runs x a (fn_syntax d).
Proof.
  intros x a d (o & i & j & b & L & H1 & H2 & H3 & HL & Hs & Hu) Hr Hd. exists o, i, j, b. do 3 (split; [assumption|]). intros Hb answer log Hf.
  destruct (f_body d) as [ar|n ar|n|n v] eqn:Eb.
  - destruct Hu as (Hj & Hn & _ & Hp & _ & Hfind). left. split; [exact Hj|]. split; [exact Hn|]. intros r s v l ((sg & A1 & A2 & A3 & A4 & A5) & A6 & A7 & A8 & A9).
    destruct (Hp oid sg r s v l A1 A2 A3 A4 A5 A6 A7 A8 A9) as (pos & kw & Hc & Hbd). exists pos, kw. split; [exact Hbd|].
    apply (runs_found _ answer d InImpl l log L a (fun o => OCall o pos kw) Extracted Hr ltac:(discriminate) Hd Hf HL (Hfind Hb)). unfold does. now rewrite Eb, Hc.
  - destruct Hu as (Hu & _ & Hp & Hfind). unfold uses_attr in Hu. rewrite Eb in Hu. destruct Hu as [-> Hu]. right. split; [exact Hu|]. intros s l ((sg & A1 & A2 & A3 & A4 & A5) & A6 & A7 & A8 & A9) Hne.
    destruct (Hp oid sg s l A1 A2 A3 A4 A5 A6 A7 A8 A9) as (pos & kw & Hc & Hbd). exists pos, kw. split; [exact Hbd|].
    assert (Hfa : finds (pe_world x) L a).
    { destruct Hfind as [[_ K]|[K _]]; [exact (K Hb)|]. exfalso. apply Hne. apply length_zero_iff_nil. rewrite <- (call_params _ _ _ _ Hc). destruct Hr as (_ & _ & _ & _ & R & _).
      rewrite K in R. now destruct (f_prep d). }
    apply (runs_found _ answer d InImpl l log L a (fun o => OMethod o (as_py j) pos kw) Extracted Hr ltac:(discriminate) Hd Hf HL Hfa). unfold does. now rewrite Eb, Hc.
  - destruct Hu as (_ & K & _). unfold is_call in K. rewrite Eb in K. discriminate.
  - destruct Hu as (_ & K & _). unfold is_call in K. rewrite Eb in K. discriminate.
Qed.
Lemma object_behaves : forall x a d, object_acts (passing x) x a d -> ready InTrait d -> distinct_params (fn_syntax d) -> object_runs x a (fn_syntax d).
Proof.
  intros x a d (j & b & H1 & HL & Hs & Hu) Hr Hd. exists j, b. split; [assumption|]. intros V answer self log.
  destruct (f_body d) as [ar|n ar|n|n v] eqn:Eb.
  - destruct Hu as (Hj & Hn & Hp). left. split; [exact Hj|]. split; [exact Hn|]. intros r s l ((sg & A1 & A2 & A3 & A4 & A5) & A6 & A7 & A8 & A9).
    destruct (Hp V sg r s self l A1 A2 A3 A4 A5 A6 A7 A8 A9) as (pos & kw & Hc & Hbd). exists pos, kw. split; [exact Hbd|].
    apply (runs_self V answer d self l log (fun o => OCall o pos kw) Extracted Hr Hd HL). unfold does. now rewrite Eb, Hc.
  - destruct Hu as (Hu & Hp & _). unfold is_call in Hp. unfold uses_attr in Hu. rewrite Eb in Hu, Hp. destruct Hu as [-> Hu]. right. left. split; [exact Hu|]. intros r s l ((sg & A1 & A2 & A3 & A4 & A5) & A6 & A7 & A8 & A9).
    destruct (Hp eq_refl V sg r s self l A1 A2 A3 A4 A5 A6 A7 A8 A9) as (pos & kw & Hc & Hbd). exists pos, kw. split; [exact Hbd|].
    apply (runs_self V answer d self l log (fun o => OMethod o (as_py j) pos kw) Extracted Hr Hd HL). unfold does. now rewrite Eb, Hc.
  - destruct Hu as (Hu & _). unfold uses_attr in Hu. rewrite Eb in Hu. destruct Hu as [-> Hu]. right. right. left. split; [exact Hu|].
    apply (runs_self V answer d self [] log (fun o => OGet o (as_py j)) Extracted Hr Hd HL). unfold does. now rewrite Eb.
  - destruct Hu as (Hu & _). unfold uses_attr in Hu. rewrite Eb in Hu. destruct Hu as (-> & Hu & _). right. right. right. split; [exact Hu|]. intros y.
    apply (runs_self V answer d self [AOne y] log (fun o => OSet o (as_py j) y) finished Hr Hd HL). unfold does. now rewrite Eb.
Qed.

(** ** The output *)
Section output.
  Variable x : penv.
  Let U := pe_uni x.
  Hypothesis Ho : order_ok (pe_ord x).
  Hypothesis Hw : honest U (pe_world x).
  Variables (numpy : bool) (fuel : nat) (l : list request) (c : codegen) (ms : list module) (out : list frag).
  Hypothesis Hl : asked_modules (pe_world x) l.
  Hypothesis Hc : asks x fuel l cg_new = Ok c.
  Hypothesis Hf : final_modules x fuel c = Ok ms.
  Hypothesis Hout : cg_generate x numpy fuel c = Ok out.
  Let X := gen_ctx x numpy ms.
  Lemma output_ready : forall ns k pl d, at_path out ns k -> stands_at k pl d -> ready pl d.
  Proof.
    intros ns k pl d A Hs.
    destruct (scope_module x Ho Hw numpy fuel l c ms out Hl Hc Hf Hout ns k A) as [[-> K]|[(ex & ->)|(m & m0 & P & Hm0 & Hm & En & HP & ->)]].
    - exfalso. destruct pl; cbn in Hs; [|destruct Hs as (n & b & Hs & _)|destruct Hs as (t & n & b & Hs & _)]; destruct (K _ Hs) as [E|(n' & b' & E)]; discriminate.
    - exfalso. destruct pl; cbn in Hs; [|destruct Hs as (n & b & Hs & _)|destruct Hs as (t & n & b & Hs & _)]; repeat (destruct Hs as [Hs|Hs]; [discriminate|]); destruct Hs.
    - destruct (final_typed x fuel l c ms Ho Hc Hf m0 m Hm0 Hm) as (T1 & T2 & T3). pose proof (fun y => body_frag X m P y HP T3) as B.
      assert (Or : forall it, has m it -> origin_item x it) by (intros it; exact (final_origin x fuel l c ms Ho Hw Hl Hc Hf m0 m it Hm0 Hm)).
      assert (Cl : forall y, In y (pt_classes P) -> match y with GImpl _ b => forall d, In (GFn d) b -> ready InImpl d | GImplFor _ _ b => forall d, In (GFn d) b -> ready InTrait d | GFn _ => False | _ => True end).
      { intros y Hy. destruct (when_from _ _ _ _ _ (po_classes _ _ _ HP) Hy) as (_ & cl & lc & Hcl & Hlc & Hin). exact (class_ready x _ cl lc Hlc (Or (AClass cl) Hcl) y Hin). }
      destruct pl; cbn [stands_at] in Hs.
      + destruct (B _ Hs) as [K|[(?&?&?&E&_)|[(v'&E&K)|[(?&?&E&K)|[(?&E&K)|[K|[(d'&E&_&K)|[(d'&E&_&K)|(?&?&E&K)]]]]]]]]; try discriminate; [now destruct (Cl _ K)|..]; injection E as <-.
        * destruct (when_from _ _ _ _ _ (po_fns _ _ _ HP) K) as (_ & f & lf & Hff & Hlf & Hin). unfold fn_frags in Hlf. apply bind_Ok in Hlf as (i & Hi & Hlf).
          destruct i as [l'|t l']; [|discriminate]. injection Hlf as ->. destruct (Or (AFunction f) Hff) as (a & t & _ & Hp & _).
          apply (fn_ready _ _ f _ d AtModule Hi Hin). destruct (T3 f Hff) as [-> | ->]; discriminate.
        * destruct (when_from _ _ _ _ _ (po_props _ _ _ HP) K) as (_ & p & lf & Hff & Hlf & Hin). unfold prop_frags in Hlf. apply bind_Ok in Hlf as (i & Hi & Hlf).
          destruct i as [l'|t l']; [|discriminate]. injection Hlf as ->. apply (accessor_ready _ _ p _ d AtModule Hi Hin). destruct (T2 p Hff) as [-> _]. discriminate.
      + destruct Hs as (n & b & Hs & Hd). destruct (B _ Hs) as [K|[(?&?&?&E&_)|[(v'&E&K)|[(?&?&E&K)|[(?&E&K)|[K|[(d'&E&_&K)|[(d'&E&_&K)|(?&?&E&K)]]]]]]]]; try discriminate. exact (Cl _ K d Hd).
      + destruct Hs as (t & n & b & Hs & Hd). destruct (B _ Hs) as [K|[(?&?&?&E&_)|[(v'&E&K)|[(?&?&E&K)|[(?&E&K)|[K|[(d'&E&_&K)|[(d'&E&_&K)|(?&?&E&K)]]]]]]]]; try discriminate. exact (Cl _ K d Hd).
  Qed.
  Hypothesis HU : uni_ok U.
  Hypothesis Hv : forall ms m k, final_modules x fuel c = Ok ms -> In m ms -> within k m -> variables_named U k.
  Theorem output_read : forall odd, (forall a, odd a = true -> scalar a = true) -> read_file U (text odd out) = Some (shown_all bare out).
  Proof.
    intros odd Hs. apply file_read; [exact (output_lexes x numpy fuel c out odd HU Hs Hout)|exact (output_wf x numpy fuel l c out HU Ho Hc Hv Hout)|].
    apply fine_and. exact (output_fine x HU Ho Hw numpy fuel l c out Hl Hc Hout).
  Qed.
  Lemma def_runs : forall ns k w d, at_path out ns k -> has_fn k w d -> distinct_params (fn_syntax d) -> fn_runs x ns w (fn_syntax d).
  Proof.
    intros ns k w d Hk H Hd. pose proof (fun y => output_acts (passing x) x numpy fuel l c out (kept_passing x numpy HU) HU Ho Hw Hl Hc Hout ns k y Hk) as A. pose proof (fun pl => output_ready ns k pl d Hk) as R.
    destruct w as [|n|n]; cbn [has_fn fn_runs] in *.
    - apply module_behaves; [exact (A _ H)|exact (R AtModule H)|exact Hd].
    - destruct H as (b & Hb & Hin). destruct (A _ Hb) as (p & i & a & P1 & P2 & _ & P4 & P5). exists p, i, a. do 3 (split; [assumption|]).
      apply struct_behaves; [exact (P5 d Hin)|apply (R InImpl); now exists n, b|exact Hd].
    - destruct H as (t & b & Hb & Hin). destruct (A _ Hb) as (p & i & a & P1 & P2 & _ & P4 & P5). exists p, i, a. do 3 (split; [assumption|]).
      apply object_behaves; [exact (P5 d Hin)|apply (R InTrait); now exists t, n, b|exact Hd].
  Qed.
  Theorem output_runs : forall odd its ns k w f, (forall a, odd a = true -> scalar a = true) -> read_file U (text odd out) = Some its -> inside_mod its ns k -> is_fn_of k w f ->
    distinct_params f -> fn_runs x ns w f \/ w = OfModule /\ embeds_source l ns f.
  Proof.
    intros odd its ns r w f Hs Hi Hr Hin Hd. rewrite (output_read odd Hs) in Hi. injection Hi as <-. destruct (inside_shown _ _ _ Hr out eq_refl) as (k & Hk & ->).
    pose proof (wf_embeds U k (wf_at U out ns k Hk (output_wf x numpy fuel l c out HU Ho Hc Hv Hout))) as Hn.
    destruct (shown_of k w f Hn Hin) as [(d & Hdf & ->)|(-> & m & file & src & He & ->)]; [left; now apply (def_runs ns k)|right]. split; [reflexivity|].
    assert (He' : In (GEmbed m file src) (embeds k)) by (apply filter_In; now split).
    destruct (output_embeds x numpy fuel l c out Ho Hw Hl Hc Hout ns k Hk) as [E|(ex & ->)]; [|now destruct He']. rewrite E in He'. destruct ns as [|n [|n' ns]]; [now destruct He'| |now destruct He'].
    destruct (given l n) as [s|] eqn:Eg; [|now destruct He']. destruct He' as [K|[]]. injection K as <- <- <-. exists n, s. split; [reflexivity|]. split; [exact Eg|]. split; [reflexivity|].
    intros V answer log. apply run_embed.
  Qed.
  Theorem output_complete : forall odd its ns k, (forall a, odd a = true -> scalar a = true) -> read_file U (text odd out) = Some its -> at_path out ns k ->
    exists r, inside_mod its ns r /\ (forall w d, has_fn k w d -> exists f, is_fn_of r w f /\ presents d f) /\
      (embeds k <> [] -> exists f, is_fn_of r OfModule f /\ r_name f = u "pyo3_embed_python_source_code").
  Proof.
    intros odd its ns k Hs Hi Hk. rewrite (output_read odd Hs) in Hi. injection Hi as <-. exists (shown_all bare k). split; [now apply path_shown|].
    split; [|intros Hne; destruct (embeds k) as [|y ys] eqn:Ee; [now destruct Hne|]; assert (Hy : In y (embeds k)) by (rewrite Ee; now left); apply filter_In in Hy as [Hy K]; destruct y as [| | | | | | | | | | | | | |m file src]; try discriminate;
      destruct (shown_has _ _ Hy bare) as [p Hp]; exists (embed_syntax m file src); (split; [exists p; apply Hp; now left|reflexivity])].
    intros w d Hd. exists (fn_syntax d). split; [now apply fn_shown|]. split; [reflexivity|]. unfold fn_syntax, shown_params. cbn [r_params map fst]. rewrite map_map. unfold receiver. now destruct (k_self (f_contract d)).
  Qed.
End output.
