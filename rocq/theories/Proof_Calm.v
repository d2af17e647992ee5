(** * Lemmas: generation does not panic *)
From Verif Require Import Base Model_Ident Model_Path Model_Import Model_Text Model_Config Model_Type Model_IntoRs Model_World Model_Out
  Model_Function Model_Property Model_Class Model_Module Spec_Path Spec_Names Spec_Call Spec_Items Spec_Tree Spec_Safe
  Proof_Base Proof_Ident Proof_Path Proof_Text Proof_IntoRs Proof_Call Proof_Function Proof_Fresh Proof_Method Proof_Kind Proof_Items Proof_Module.

Section calm.
  (** The panics and errors that are accepted *)
  Variable K : panic_kind -> Prop.
  Variable E : error_kind -> Prop.
  Definition calm {A} (m : outcome A) : Prop := match m with Ok _ => True | Err e => E e | Panic k => K k | OutOfFuel => False end.

  Lemma calm_bind : forall {A B} (m : outcome A) (f : A -> outcome B), calm m -> (forall a, m = Ok a -> calm (f a)) -> calm (obind m f).
  Proof. intros A B [a|e|k|] f H H'; cbn in *; auto. Qed.
  Lemma calm_omap : forall {A B} (f : A -> B) (m : outcome A), calm m -> calm (omap f m).
  Proof. intros A B f [a|e|k|] H; exact H. Qed.
  Lemma calm_mapM : forall {A B} (f : A -> outcome B) l, (forall a, In a l -> calm (f a)) -> calm (mapM f l).
  Proof.
    induction l as [|a l IH]; intros H; [exact I|]. cbn [mapM]. apply calm_bind; [apply H; now left|]. intros b _.
    apply calm_bind; [apply IH; intros; apply H; now right|]. intros r _. exact I.
  Qed.
  Lemma calm_filterM : forall {A} (f : A -> outcome bool) l, (forall a, In a l -> calm (f a)) -> calm (filterM f l).
  Proof.
    induction l as [|a l IH]; intros H; [exact I|]. cbn [filterM]. apply calm_bind; [apply H; now left|]. intros b _.
    apply calm_bind; [apply IH; intros; apply H; now right|]. intros r _. exact I.
  Qed.
  Lemma calm_when : forall {A} b (m : outcome (list A)), calm m -> calm (when b m).
  Proof. intros A [|] m H; [exact H|exact I]. Qed.
  Lemma calm_concatM : forall {A B} (f : A -> outcome (list B)) l, (forall a, In a l -> calm (f a)) -> calm (concatM f l).
  Proof. intros A B f l H. apply calm_omap. now apply calm_mapM. Qed.
  Lemma calm_total : forall {A} (m : outcome A), (exists a, m = Ok a) -> calm m.
  Proof. intros A m (a & ->). exact I. Qed.
End calm.

Ltac bindc := apply calm_bind.

(** ** Paths *)
Lemma nonempty_name : forall p, segs p <> [] -> exists q n, segs p = q ++ [n] /\ path_name p = Ok n.
Proof.
  intros p H. destruct (last_opt_nonempty (segs p) H) as (n & Hn). exists (removelast (segs p)), n. split; [now apply last_opt_Some|].
  unfold path_name. now rewrite Hn.
Qed.
Lemma placed_nonempty : forall p, placed p -> segs p <> [].
Proof. intros p H E. unfold placed in H. rewrite E in H. cbn in H. lia. Qed.
Lemma placed_parent : forall p, placed p -> exists q, path_parent p = Some q /\ segs q <> [].
Proof.
  intros p H. unfold path_parent. unfold placed in H. destruct (segs p) as [|a [|b l]]; [cbn in H; lia|cbn in H; lia|].
  eexists. split; [reflexivity|]. cbn. destruct l; discriminate.
Qed.
Lemma last_is_name : forall P p n, last_is P p -> path_name p = Ok n -> P n.
Proof.
  intros P p n H E. unfold path_name in E. destruct (last_opt (segs p)) as [i|] eqn:Ei; [|discriminate]. injection E as <-.
  apply last_opt_Some in Ei. exact (H _ _ Ei).
Qed.

(** ** Names *)
Lemma rust_ident_syn : forall U n, uni_ok U -> rust_ident U n -> syn_ident_ok U n = true.
Proof.
  intros U n HU [[H1 H2]|(t & -> & H1 & H2)]; [now apply syn_ident_ok_plain|]. change (u "r#") with r_hash. now apply syn_ident_ok_raw.
Qed.
Lemma to_syn_ok : forall U n, uni_ok U -> rust_ident U n -> ident_to_syn U n = Ok n.
Proof. intros U n HU H. unfold ident_to_syn, as_rs. now rewrite rust_ident_syn. Qed.
(** A prefix that makes any word an identifier *)
Definition opens (U : uni) (pre : String.string) : Prop :=
  py_identifier U (u pre) /\ forall n, ~ rust_keyword (u pre ++ n).
Lemma opened : forall U pre n, uni_ok U -> opens U pre -> word U n -> rust_ident U (ident_from_py U (u pre ++ n)).
Proof.
  intros U pre n HU [(c & t & Ep & Hc & Ht) Hk] Hw.
  assert (Hid : py_identifier U (u pre ++ n)).
  { rewrite Ep. exists c, (t ++ n). split; [easy|]. split; [easy|]. intros x Hx. apply in_app_or in Hx as [Hx|Hx]; auto. }
  rewrite from_py_plain; [|exact HU|exact Hid|apply Hk]. left. split; [exact Hid|apply Hk].
Qed.
Lemma not_keyword : forall pre, forallb (fun k => negb (starts_with (u pre) k)) syn_keywords = true -> forall n, ~ rust_keyword (u pre ++ n).
Proof.
  intros pre H n Hn. apply syn_keywords_iff in Hn. rewrite forallb_forall in H. specialize (H _ Hn). rewrite starts_with_app in H. discriminate.
Qed.
Lemma ascii_py : forall U s, uni_ok U -> lex_ident_plain uni_ascii s = true -> py_identifier U s.
Proof.
  intros U s HU H. apply lex_ident_plain_iff in H as (c & r & -> & Hc & Hr). destruct HU as (Hs & Hn & _). exists c, r. split; [easy|]. split.
  - destruct Hc as [Hc|Hc]; [now left|right]. unfold uni_ascii in Hc. cbn in Hc. apply andb_prop in Hc as [H1 H2].
    apply N.ltb_lt in H2. rewrite Hs by easy. easy.
  - intros x Hx. specialize (Hr x Hx). unfold uni_ascii in Hr. cbn in Hr. apply andb_prop in Hr as [H1 H2].
    apply N.ltb_lt in H2. now rewrite Hn.
Qed.
Lemma opens_of : forall U pre, uni_ok U -> lex_ident_plain uni_ascii (u pre) = true ->
  forallb (fun k => negb (starts_with (u pre) k)) syn_keywords = true -> opens U pre.
Proof. intros U pre HU H1 H2. split; [now apply ascii_py|now apply not_keyword]. Qed.
Lemma opens_used : forall U, uni_ok U -> opens U "p_" /\ opens U "get_" /\ opens U "set_".
Proof. intros U HU. split; [|split]; apply opens_of; now vm_compute. Qed.
(** The name of the trait of a class *)
Lemma trait_named : forall U id, uni_ok U -> rust_ident U id -> rust_ident U (ident_from_py U (id ++ u "Methods")).
Proof.
  intros U id HU H.
  assert (Hm : forall x, In x (u "Methods") -> xid_continue U x = true).
  { intros x Hx. destruct HU as (_ & Hn & _). cbn in Hx. repeat (destruct Hx as [<-|Hx]; [rewrite Hn by reflexivity; reflexivity|]). easy. }
  assert (Hk : forall t, ~ rust_keyword (t ++ u "Methods")).
  { intros t Hk. apply syn_keywords_iff in Hk. assert (Hall : forallb (fun k => negb (ends_with (u "Methods") k)) syn_keywords = true) by now vm_compute.
    rewrite forallb_forall in Hall. specialize (Hall _ Hk). rewrite ends_with_app in Hall. discriminate. }
  assert (Hid : forall t, py_identifier U t -> py_identifier U (t ++ u "Methods")).
  { intros t (c & r & -> & Hc & Hr). exists c, (r ++ u "Methods"). split; [easy|]. split; [easy|]. intros x Hx. apply in_app_or in Hx as [Hx|Hx]; auto. }
  destruct H as [[H1 H2]|(t & -> & H1 & H2)].
  - rewrite from_py_plain; auto. left. auto.
  - rewrite <- app_assoc. unfold ident_from_py, py_to_rs.
    assert (Hok : syn_ident_ok U (r_hash ++ t ++ u "Methods") = true).
    { apply syn_ident_ok_raw; [now apply Hid|]. intros Hs. apply unspellable_keyword in Hs. now apply Hk in Hs. }
    change (u "r#") with r_hash. rewrite Hok. now apply syn_rust_ident.
Qed.

(** ** Types *)
Section generation.
  Variable K : panic_kind -> Prop.
  Variable E : error_kind -> Prop.
  Notation calm := (calm K E).

  Lemma calm_path : forall dbg U s, (dbg = true -> K PDebugAssert) -> calm (path_from_py_chk dbg U s).
  Proof. intros dbg U s H. unfold path_from_py_chk. destruct dbg; cbn [andb]; [|exact I]. destruct (contains_str _ _); [exact (H eq_refl)|exact I]. Qed.

  Variable c : ctx.
  Hypothesis Hd : cx_dbg c = true -> K PDebugAssert.
  Hypothesis Hv : (forall k v, In (k, v) (cx_local c) -> syn_path_ok (cx_uni c) v = true) \/ K PUnwrap.

  Lemma calm_map_type : forall s, calm (map_type c s).
  Proof.
    intros s. unfold map_type. destruct (map_external c s) as [r|]; [exact I|]. bindc; [now apply calm_path|]. intros key _.
    destruct (lt_get (cx_local c) key) as [rel|] eqn:Eg; [|exact I]. destruct (syn_path_ok (cx_uni c) rel) eqn:Es; [exact I|].
    destruct Hv as [Hv'|Hv']; [|exact Hv']. apply lt_get_In in Eg as (k & Hk & _). rewrite (Hv' k rel Hk) in Es. discriminate.
  Qed.
  Lemma calm_into : forall t, calm (into_rs c t).
  Proof.
    induction t as [x IH|l IH|k v IHk IHv|x IH|x IH|x IH|l IH|ps r|s|t Ht] using ptype_ind'.
    - cbn [into_rs]. bindc; [now apply calm_omap|]. intros o _. exact I.
    - exact I.
    - cbn [into_rs]. bindc; [now apply calm_omap|]. intros o _. destruct (_ && _); [|exact I]. bindc; [now apply calm_omap|]. intros o' _. exact I.
    - cbn [into_rs]. destruct (is_hashable x); [|exact I]. bindc; [now apply calm_omap|]. intros o _. exact I.
    - cbn [into_rs]. bindc; [now apply calm_omap|]. intros o _. exact I.
    - cbn [into_rs]. destruct (is_hashable x); [|exact I]. bindc; [now apply calm_omap|]. intros o _. exact I.
    - destruct l as [|x [|y l]]; [exact I|exact I|]. rewrite into_tuple. destruct (is_ellipsis y && _).
      + bindc; [apply calm_omap; apply IH; now left|]. intros o _. exact I.
      + bindc; [apply calm_mapM; intros z Hz; apply calm_omap; now apply IH|]. intros o _. exact I.
    - exact I.
    - apply calm_map_type.
    - destruct t; try (exfalso; exact Ht); exact I.
  Qed.
  Lemma calm_owned : forall t, calm (into_rs_owned c t).
  Proof. intros t. apply calm_omap, calm_into. Qed.
  Lemma calm_borrowed : forall t, calm (into_rs_borrowed c t).
  Proof. intros t. apply calm_omap, calm_into. Qed.
  Lemma calm_prep : forall t, calm (preprocess_borrowed c t).
  Proof.
    assert (Hdp : forall k v, calm (dict_needs_prep c k v)).
    { intros k v. unfold dict_needs_prep. destruct (is_hashable k); [|exact I]. cbn [negb]. bindc; [apply calm_owned|]. intros a _. exact I. }
    destruct t; try exact I.
    - cbn [preprocess_borrowed]. destruct (map_external c s); [exact I|]. bindc; [now apply calm_path|]. intros a _. exact I.
    - destruct t; try exact I. cbn [preprocess_borrowed]. bindc; [apply Hdp|]. intros a _. exact I.
    - cbn [preprocess_borrowed]. bindc; [apply Hdp|]. intros a _. exact I.
    - destruct l as [|x [|y l]]; exact I.
  Qed.
End generation.

Lemma calm_syn : forall (K : panic_kind -> Prop) (E : error_kind -> Prop) U n, uni_ok U -> rust_ident U n \/ E ESyn -> calm K E (ident_to_syn U n).
Proof.
  intros K E U n HU [H|H]; [rewrite to_syn_ok by assumption; exact I|]. unfold ident_to_syn. destruct (syn_ident_ok _ _); [exact I|exact H].
Qed.

(** ** Items *)
Section items.
  Variable K : panic_kind -> Prop.
  Variable E : error_kind -> Prop.
  Notation calm := (calm K E).
  Variable g : gctx.
  Let U := g_uni g.
  Hypothesis HU : uni_ok U.
  Hypothesis Hd : cx_dbg (g_cx g) = true -> K PDebugAssert.
  Hypothesis Hv : (forall k v, In (k, v) (cx_local (g_cx g)) -> syn_path_ok U v = true) \/ K PUnwrap.

  Lemma calm_doc : forall d, calm (gen_doc g d).
  Proof.
    intros [s|]; unfold gen_doc; destruct (generate_docs _); try exact I. destruct (format_docstring_total s) as (o & ->). exact I.
  Qed.
  Lemma calm_name : forall p, segs p <> [] -> calm (path_name p).
  Proof. intros p H. destruct (nonempty_name p H) as (q & n & _ & ->). exact I. Qed.
  Lemma calm_param : forall p, word U (as_py (p_name p)) \/ E ESyn -> calm (param_ident U p).
  Proof.
    intros p H. apply calm_syn; [exact HU|]. destruct H as [H|H]; [left|now right]. apply opened; [exact HU|apply (opens_used U HU)|exact H].
  Qed.
  Lemma calm_params : forall (ps : list param), (forall p, In p ps -> word U (as_py (p_name p)) \/ E ESyn) -> calm (mapM (param_ident U) ps).
  Proof. intros ps H. apply calm_mapM. intros p Hp. apply calm_param. now apply H. Qed.
  Lemma calm_quote : forall p, segs p <> [] -> calm (import_quote (g_imp g) p).
  Proof. intros p H. apply calm_total. now apply import_quote_total. Qed.
  Lemma fresh_rust : forall base scope n, (base = "new"%string \/ base = "call"%string) -> fresh U base scope = Ok n -> rust_ident U n.
  Proof.
    intros base scope n Hb H. apply fresh_spec in H as (j & -> & _).
    assert (Hk : (forall s, starts_with r_hash (u base ++ s) = false) /\ lex_ident_plain uni_ascii (u base) = true /\
                 forallb (fun k => negb (starts_with (u base) k)) syn_keywords = true) by (destruct Hb as [-> | ->]; repeat split).
    destruct Hk as (H1 & H2 & H3).
    destruct (candidate_plain U base j HU (ascii_py U _ HU H2) (H1 _)) as [_ H].
    - apply mem_str_notIn. intros Hin. apply syn_keywords_iff in Hin. now apply not_keyword in Hin.
    - now apply syn_rust_ident.
  Qed.
  Lemma calm_fresh : forall base scope, (base = "new"%string \/ base = "call"%string) -> calm (fresh U base scope).
  Proof. intros base scope Hb. apply calm_total. apply fresh_ok. intros s. destruct Hb as [-> | ->]; reflexivity. Qed.
  Lemma calm_contract : forall t scope id ps rt, calm (gen_contract U t scope id ps rt).
  Proof.
    intros t scope id ps rt. unfold gen_contract. destruct t as [|cp k|]; [exact I| |exact I]. destruct k; try exact I.
    - bindc; [apply calm_fresh; auto|]. intros n Hn. bindc; [apply calm_syn; [exact HU|left; apply (fresh_rust "new" scope); auto]|]. intros a _. exact I.
    - bindc; [apply calm_fresh; auto|]. intros n Hn. bindc; [apply calm_syn; [exact HU|left; apply (fresh_rust "call" scope); auto]|]. intros a _. exact I.
  Qed.
  Definition fn_placed (f : func) : Prop :=
    segs (fn_name f) <> [] /\ match fn_typ f with FMethod cp _ => segs cp <> [] | _ => placed (fn_name f) end.
  Lemma calm_disp : forall f, fn_placed f -> calm (gen_disp g f).
  Proof.
    intros f [_ H]. unfold gen_disp.
    assert (F : placed (fn_name f) -> calm (let! p := unwrap PUnreachable (path_parent (fn_name f)) in let! l := import_quote (g_imp g) p in Ok (Some (DImport l)))).
    { intros Hp. destruct (placed_parent _ Hp) as (q & -> & Hq). cbn [unwrap obind]. bindc; [now apply calm_quote|]. intros l _. exact I. }
    destruct (fn_typ f) as [|cp k|]; [now apply F| |now apply F]. destruct k; try exact I; (bindc; [now apply calm_quote|intros l _; exact I]).
  Qed.
  Lemma calm_fn : forall scope f, fn_placed f -> words U f \/ E ESyn -> calm (fn_generate g scope f).
  Proof.
    intros scope f Hp Hw. unfold fn_generate. bindc; [apply calm_doc|]. intros docs _. bindc; [apply calm_name, Hp|]. intros name _.
    fold U. destruct (fn_ident U name) as [id|]; [|exact I].
    assert (Hw' : forall p, In p (fn_params f) -> word U (as_py (p_name p)) \/ E ESyn) by (intros p Hi; destruct Hw as [Hw|Hw]; [left; now apply Hw|now right]).
    assert (Hw2 : forall ks p, In p (of_kinds ks (fn_params f)) -> word U (as_py (p_name p)) \/ E ESyn).
    { intros ks p Hi. apply filter_In in Hi as [Hi _]. now apply Hw'. }
    bindc; [now apply calm_params|]. intros ids _.
    bindc; [apply calm_mapM; intros p _; now apply calm_prep|]. intros preps _.
    bindc; [apply calm_mapM; intros p _; now apply calm_borrowed|]. intros tys _.
    bindc; [now apply calm_owned|]. intros rt _.
    bindc; [apply calm_contract|]. intros [public k] _.
    bindc; [now apply calm_disp|]. intros [d|] _; [|exact I].
    bindc; [unfold gen_pos; bindc; [apply calm_params; apply Hw2|intros a _; exact I]|]. intros pos _.
    bindc; [unfold gen_kw; bindc; [apply calm_params; apply Hw2|intros a _; exact I]|]. intros kw _. exact I.
  Qed.

  Definition prop_placed (p : property) : Prop := segs (pr_name p) <> [] /\ (pr_owner p = OwnerModule -> placed (pr_name p)).
  Definition prop_word (p : property) : Prop := last_is (fun n => word U (as_py n)) (pr_name p).
  Lemma calm_prefixed : forall scope pre n, opens U pre -> word U (as_py n) \/ E ESyn -> calm (prefixed_ident U scope pre n).
  Proof.
    intros scope pre n Ho Hw. unfold prefixed_ident. destruct (name_taken _ _); [exact I|]. apply calm_omap, calm_syn; [exact HU|].
    destruct Hw as [Hw|Hw]; [left; now apply opened|now right].
  Qed.
  Lemma calm_prop_disp : forall p, prop_placed p -> calm (prop_disp g p).
  Proof.
    intros p [_ H]. unfold prop_disp. destruct (pr_owner p); [|exact I]. destruct (placed_parent _ (H eq_refl)) as (q & -> & Hq). cbn [unwrap obind].
    bindc; [now apply calm_quote|]. intros l _. exact I.
  Qed.
  Lemma calm_prop : forall scope p, prop_placed p -> prop_word p \/ E ESyn -> calm (prop_generate g scope p).
  Proof.
    intros scope p Hp Hw. destruct (opens_used U HU) as (_ & Og & Os).
    assert (Hn : forall n, path_name (pr_name p) = Ok n -> word U (as_py n) \/ E ESyn).
    { intros n Hn. destruct Hw as [Hw|Hw]; [left|now right]. exact (last_is_name _ _ _ Hw Hn). }
    unfold prop_generate. bindc.
    - unfold gen_getter. bindc; [apply calm_doc|]. intros docs _. bindc; [apply calm_name, Hp|]. intros n Hn'. fold U.
      bindc; [unfold getter_ident; destruct (_ && _); [exact I|apply calm_prefixed; auto]|].
      intros [id|] _; [|exact I]. bindc; [now apply calm_owned|]. intros t _. bindc; [now apply calm_prop_disp|]. intros d _. exact I.
    - intros [gt gi] _. bindc; [|intros [st si] _; exact I]. destruct (pr_mutable p); [|exact I].
      unfold gen_setter. bindc; [apply calm_doc|]. intros docs _. bindc; [apply calm_name, Hp|]. intros n Hn'. fold U.
      bindc; [apply calm_prefixed; auto|]. intros [id|] _; [|exact I].
      bindc; [now apply calm_prep|]. intros t _. bindc; [now apply calm_borrowed|]. intros b _. bindc; [now apply calm_prop_disp|]. intros d _. exact I.
  Qed.
  Lemma fn_function : forall scope f, (fn_typ f = FFunction \/ fn_typ f = FClosure) -> calm (fn_generate g scope f) ->
    calm (let! i := fn_generate g scope f in only_function i).
  Proof.
    intros scope f Ht Hc. destruct (fn_generate g scope f) as [i| | |] eqn:Ei; try exact Hc. cbn [obind].
    assert (Hi : match i with IFunction _ => True | IMethod _ _ => False end); [|destruct i; [exact I|destruct Hi]].
    unfold fn_generate in Ei. repeat (apply bind_Ok in Ei as (? & _ & Ei)). fold U in Ei. destruct (fn_ident _ _); [|injection Ei as <-; exact I].
    apply bind_Ok in Ei as (? & _ & Ei). apply bind_Ok in Ei as (? & _ & Ei). apply bind_Ok in Ei as (? & _ & Ei). apply bind_Ok in Ei as (? & _ & Ei).
    apply bind_Ok in Ei as ([? ?] & _ & Ei). apply bind_Ok in Ei as ([d|] & Hdisp & Ei).
    - apply bind_Ok in Ei as (? & _ & Ei). apply bind_Ok in Ei as (? & _ & Ei). destruct Ht as [Ht|Ht]; rewrite Ht in Ei; injection Ei as <-; exact I.
    - exfalso. unfold gen_disp in Hdisp. destruct Ht as [Ht|Ht]; rewrite Ht in Hdisp; repeat (apply bind_Ok in Hdisp as (? & _ & Hdisp)); discriminate.
  Qed.
  Lemma prop_function : forall scope p, pr_owner p = OwnerModule -> calm (prop_generate g scope p) ->
    calm (let! i := prop_generate g scope p in only_function i).
  Proof.
    intros scope p Ht Hc. destruct (prop_generate g scope p) as [i| | |] eqn:Ei; try exact Hc. cbn [obind].
    unfold prop_generate in Ei. apply bind_Ok in Ei as ([? ?] & _ & Ei). apply bind_Ok in Ei as ([? ?] & _ & Ei). rewrite Ht in Ei. injection Ei as <-. exact I.
  Qed.
  Lemma calm_class : forall k,  segs (cl_name k) <> [] ->
    (forall f, In f (cl_methods k) -> fn_placed f /\ (words U f \/ E ESyn)) ->
    (forall p, In p (cl_props k) -> prop_placed p /\ (prop_word p \/ E ESyn)) -> calm (class_generate g k).
  Proof.
    intros k Hn Hf Hp. unfold class_generate. bindc; [apply calm_doc|]. intros docs _. bindc; [now apply calm_name|]. intros name _. fold U.
    destruct (struct_ident U name) as [id|] eqn:Eid; [|exact I].
    bindc; [apply calm_mapM; intros f Hi; apply calm_name; now apply Hf|]. intros scope _.
    bindc; [apply calm_mapM; intros f Hi; apply calm_fn; now apply Hf|]. intros ms _.
    bindc; [apply calm_mapM; intros p Hi; apply calm_prop; now apply Hp|]. intros ps _.
    bindc; [|intros tid _; exact I]. apply calm_syn; [exact HU|]. left. apply trait_named; [exact HU|].
    unfold struct_ident, as_rs in Eid. destruct (syn_ident_ok U name) eqn:En; [injection Eid as <-; now apply syn_rust_ident|].
    destruct (syn_ident_ok U (ident_from_py U _)) eqn:E2; [|discriminate]. injection Eid as <-. now apply syn_rust_ident.
  Qed.
End items.

(** ** Modules *)
Lemma any_named_ok : forall {A} (name : A -> path) i l, (forall a, In a l -> segs (name a) <> []) ->
  exists k, length k = length l /\ (forall n, In n k <-> exists a, In a l /\ path_name (name a) = Ok n) /\ any_named name i l = Ok (mem_str i k).
Proof.
  induction l as [|a l IH]; intros H.
  - exists []. split; [reflexivity|]. split; [|reflexivity]. intros n. split; [intros []|intros (a & [] & _)].
  - destruct IH as (k & Hk & Hin & He); [intros; apply H; now right|]. destruct (nonempty_name (name a)) as (q & n & _ & Hn); [apply H; now left|].
    exists (n :: k). split; [cbn; now rewrite Hk|]. split.
    + intros m. split.
      * intros [<-|Hm]; [exists a; split; [now left|exact Hn]|]. apply Hin in Hm as (b & Hb & E). exists b. split; [now right|exact E].
      * intros (b & [<-|Hb] & E); [left; congruence|right; apply Hin; now exists b].
    + cbn [any_named]. rewrite Hn. cbn [obind]. unfold mem_str. cbn [existsb]. unfold ident_eqb.
      rewrite (str_eqb_sym n i). destruct (str_eqb i n); [reflexivity|]. exact He.
Qed.
(** Names used at the top of a module *)
Definition uses_name (m : module) (imports : bool) (n : ident) : Prop :=
  (imports = true /\ exists i, In i (m_imports m) /\ path_name (im_target i) = Ok n) \/
  (exists s, In s (m_subs m) /\ path_name (m_name s) = Ok n) \/ (exists c, In c (m_classes m) /\ path_name (cl_name c) = Ok n) \/
  (exists f, In f (m_functions m) /\ path_name (fn_name f) = Ok n) \/ (exists p, In p (m_typevars m) /\ path_name p = Ok n) \/
  (exists p, In p (m_properties m) /\ path_name (pr_name p) = Ok n).
Lemma or_lazy_mem : forall i a b, or_lazy (Ok (mem_str i a)) (Ok (mem_str i b)) = Ok (mem_str i (a ++ b)).
Proof. intros i a b. unfold or_lazy, mem_str. cbn [obind]. rewrite existsb_app. now destruct (existsb _ a). Qed.
Definition named_items (m : module) : Prop :=
  (forall i, In i (m_imports m) -> segs (im_target i) <> []) /\ (forall s, In s (m_subs m) -> segs (m_name s) <> []) /\
  (forall c, In c (m_classes m) -> segs (cl_name c) <> []) /\ (forall f, In f (m_functions m) -> segs (fn_name f) <> []) /\
  (forall p, In p (m_typevars m) -> segs p <> []) /\ (forall p, In p (m_properties m) -> segs (pr_name p) <> []).
Lemma ident_exists_ok : forall m b i, named_items m ->
  exists k, length k <= item_count m /\ (forall n, In n k <-> uses_name m b n) /\ ident_exists m i b = Ok (mem_str i k).
Proof.
  intros m b i (H1 & H2 & H3 & H4 & H5 & H6).
  destruct (any_named_ok im_target i _ H1) as (k1 & L1 & I1 & E1). destruct (any_named_ok m_name i _ H2) as (k2 & L2 & I2 & E2).
  destruct (any_named_ok cl_name i _ H3) as (k3 & L3 & I3 & E3). destruct (any_named_ok fn_name i _ H4) as (k4 & L4 & I4 & E4).
  destruct (any_named_ok (fun y => y) i _ H5) as (k5 & L5 & I5 & E5). destruct (any_named_ok pr_name i _ H6) as (k6 & L6 & I6 & E6).
  exists ((if b then k1 else []) ++ k2 ++ k3 ++ k4 ++ k5 ++ k6). split; [|split].
  - rewrite !app_length. unfold item_count. destruct b; cbn [length]; lia.
  - intros n. rewrite !in_app_iff, I2, I3, I4, I5, I6. unfold uses_name. destruct b; [rewrite I1|]; cbn; intuition discriminate.
  - unfold ident_exists. rewrite E2, E3, E4, E5, E6.
    replace (if b then any_named im_target i (m_imports m) else Ok false) with (Ok (mem_str i (if b then k1 else []))) by (destruct b; auto).
    now rewrite !or_lazy_mem.
Qed.
Lemma ident_exists_iff : forall m b i, named_items m -> exists r, ident_exists m i b = Ok r /\ (r = true <-> uses_name m b i).
Proof.
  intros m b i H. destruct (ident_exists_ok m b i H) as (k & _ & Hk & He). exists (mem_str i k). split; [exact He|]. rewrite mem_str_In. apply Hk.
Qed.

(** The free name of the prelude *)
Lemma call_raw : forall s, starts_with r_hash (u "call" ++ s) = false.
Proof. reflexivity. Qed.
Lemma first_unused_spec : forall U m fuel i c, named_items m -> first_unused U m fuel i = Ok c ->
  exists j, i <= j < i + fuel /\ c = candidate U "call" j /\ ~ uses_name m true c /\ forall k, i <= k < j -> uses_name m true (candidate U "call" k).
Proof.
  intros U m fuel i c Hm. revert i. induction fuel as [|f IH]; intros i H; [discriminate|]. cbn [first_unused] in H.
  destruct (ident_exists_iff m true (candidate U "call" i) Hm) as (r & Hr & Hu). rewrite Hr in H. cbn [obind] in H. destruct r.
  - apply IH in H as (j & Hj & Hc & Hf & Hk). exists j. split; [lia|]. split; [exact Hc|]. split; [exact Hf|]. intros k Hk'.
    destruct (Nat.eq_dec k i) as [->|]; [now apply Hu|]. apply Hk. lia.
  - injection H as <-. exists i. split; [lia|]. split; [reflexivity|]. split; [intros Hu'; apply Hu in Hu'; discriminate|]. lia.
Qed.
Lemma first_unused_total : forall U m, named_items m -> exists c, first_unused U m (S (item_count m)) 0 = Ok c.
Proof.
  intros U m Hm.
  assert (Hres : forall fuel i, (exists c, first_unused U m fuel i = Ok c) \/
            (first_unused U m fuel i = OutOfFuel /\ forall k, i <= k < i + fuel -> uses_name m true (candidate U "call" k))).
  { induction fuel as [|f IH]; intros i; [right; split; [reflexivity|lia]|]. cbn [first_unused].
    destruct (ident_exists_iff m true (candidate U "call" i) Hm) as (r & -> & Hu). cbn [obind]. destruct r; [|left; eexists; reflexivity].
    destruct (IH (S i)) as [H|[H1 H2]]; [now left|right]. split; [exact H1|]. intros k Hk. destruct (Nat.eq_dec k i) as [->|]; [now apply Hu|]. apply H2. lia. }
  destruct (Hres (S (item_count m)) 0) as [H|[_ H]]; [exact H|]. exfalso.
  destruct (ident_exists_ok m true [] Hm) as (l & Hl & Hin & _).
  assert (Hn : NoDup (map (candidate U "call") (seq 0 (S (item_count m))))).
  { apply nodup_map; [|apply seq_NoDup]. intros a b E. now apply (candidate_inj U "call" a b call_raw). }
  assert (Hi : incl (map (candidate U "call") (seq 0 (S (item_count m)))) l).
  { intros c Hc. apply in_map_iff in Hc as (k & <- & Hk). apply in_seq in Hk. apply Hin. apply H. lia. }
  assert (Hlen := NoDup_incl_length Hn Hi). rewrite map_length, seq_length in Hlen. lia.
Qed.

Lemma rooted_items : forall m, rooted m -> (forall s, In s (m_subs m) -> segs (m_name s) <> []) -> named_items m.
Proof.
  intros m [R1 R2 R3 R4 R5 R6] Hs. split; [intros i Hi; now apply R6|]. split; [exact Hs|].
  split; [intros c Hc; now apply placed_nonempty, R2|]. split; [intros f Hf; now apply placed_nonempty, R4|].
  split; [intros p Hp; now apply placed_nonempty, R3|]. intros p Hp. now apply placed_nonempty, R5.
Qed.

(** ** The table of types *)
Lemma py_text_join : forall l, join [c_dot] l = [] -> l = [] \/ l = [[]].
Proof. intros [|a [|b l]] H; [now left|right; cbn in H; now subst|]. exfalso. rewrite join_cons in H. destruct a; discriminate. Qed.
Lemma from_py_nonempty : forall U s, s <> [] -> segs (path_from_py U s) <> [].
Proof.
  intros U [|c s] H; [easy|]. unfold path_from_py. cbn [segs]. cbn [leading_dots]. destruct (N.eqb_spec c c_dot) as [->|Hc]; [discriminate|].
  destruct (repeat _ _ ++ _) eqn:E; [|discriminate]. exfalso. apply app_eq_nil in E as [_ E].
  destruct (split_char c_dot (c :: s)) as [|p ps] eqn:Es; [now apply split_char_nonnil in Es|].
  assert (Hj := join_split_char c_dot (c :: s)). rewrite Es in Hj.
  destruct p as [|x p]; [|discriminate E]. destruct ps as [|p ps]; [discriminate Hj|]. rewrite join_cons in Hj. cbn in Hj. injection Hj as Hj _. now subst.
Qed.
Lemma alias_text : forall o p t, placed p -> has_text p -> path_starts_with p o = true ->
  strip_prefix (to_py o ++ [c_dot]) (to_py p) = Some t -> t <> [].
Proof.
  intros o p t Hp Ht Hs H ->. apply strip_prefix_Some in H. rewrite app_nil_r in H.
  apply path_starts_with_iff in Hs as (r & Hr). unfold to_py in H. rewrite Hr in H.
  set (f := fun s => if str_eqb s id_super then [] else s) in H.
  destruct (nonempty_name p (placed_nonempty p Hp)) as (q & n & En & _).
  assert (Hn : f (as_py n) <> []).
  { destruct (Ht q n En) as [H1 H2]. unfold f. destruct (str_eqb (as_py n) id_super) eqn:E; [|exact H1]. apply str_eqb_eq in E. contradiction. }
  rewrite !map_app in H. destruct r as [|i r].
  { cbn [map] in H. rewrite app_nil_r in H. apply (f_equal (@length _)) in H. rewrite app_length in H. cbn in H. lia. }
  destruct (segs o) as [|j l] eqn:Eo.
  - cbn [map app join] in H. cbn [app] in Hr.
    apply (f_equal (@length _)) in H. fold (map as_py (i :: r)) in H. assert (Hlen : length (join [c_dot] (map f (map as_py (i :: r)))) = 1) by exact H.
    rewrite <- Hr, En in Hlen. unfold placed in Hp. rewrite En in Hp. rewrite app_length in Hp. cbn in Hp.
    rewrite !map_app in Hlen. rewrite join_app in Hlen; [|destruct q; [cbn in Hp; lia|discriminate]|discriminate].
    rewrite !app_length in Hlen. cbn [map join] in Hlen. destruct (f (as_py n)); [easy|]. cbn in Hlen. lia.
  - rewrite join_app in H; [|discriminate|discriminate]. apply app_inv_head in H. cbn [app] in H. injection H as H.
    apply (py_text_join (map f (map as_py (i :: r)))) in H as [H|H]; [discriminate|]. destruct r as [|i' r]; [|discriminate]. injection H as H.
    assert (i = n) by (rewrite En in Hr; apply app_inj_tail in Hr as [_ Hr]; congruence). subst. contradiction.
Qed.
Lemma sayable_syn : forall U p, uni_ok U -> sayable U p -> segs p <> [] -> syn_path_ok U p = true.
Proof.
  intros U p HU [_ H] Hn. unfold syn_path_ok. destruct (segs p) as [|i l] eqn:Ei; [easy|]. apply forallb_forall. intros s Hs. unfold syn_segment_ok, as_rs.
  destruct (H s Hs) as [H'|H']; [rewrite rust_ident_syn by assumption; reflexivity|].
  apply orb_true_intro. right. apply mem_str_In. unfold path_kw in H'. apply existsb_exists in H' as (t & Ht & E). apply str_eqb_eq in E. subst t.
  cbn in Ht |- *. intuition.
Qed.
Lemma relative_sayable : forall U self p r, leading_colon self = false -> sayable U p -> segs p <> [] -> relative_to self p false = Ok r ->
  sayable U r /\ segs r <> [].
Proof.
  intros U self p r Hl [Hlp Hp] Hn H. unfold relative_to in H. destruct (path_eqb self p) eqn:Ee.
  - injection H as <-. split; [|discriminate]. split; [reflexivity|]. intros s [<-|[]]. right. reflexivity.
  - apply path_eqb_neq in Ee.
    assert (Hsk : forall k s, In s (skipn k (segs p)) -> path_segment U s).
    { intros k s Hs. apply Hp. rewrite <- (firstn_skipn k (segs p)). apply in_or_app. now right. }
    destruct (common_prefix_spec (segs self) (segs p)) as (Hpre & H1 & H2).
    destruct (Nat.ltb_spec (common_prefix_len (segs self) (segs p)) (length (segs self))) as [Hlt|Hge]; cbn [obind andb] in H.
    + injection H as <-. split.
      * split; [reflexivity|]. intros s Hs. apply in_app_or in Hs as [Hs|Hs]; [right; apply repeat_spec in Hs; now subst|now apply Hsk in Hs].
      * cbn [segs]. destruct (length (segs self) - common_prefix_len (segs self) (segs p)) eqn:Ek; [lia|]. discriminate.
    + destruct (Nat.eqb_spec (common_prefix_len (segs self) (segs p)) (length (segs self))) as [He|He]; [|discriminate].
      cbn [obind app] in H. injection H as <-. split; [split; [reflexivity|intros s Hs; now apply Hsk in Hs]|]. cbn [segs]. rewrite He.
      apply common_prefix_full in He as (t & Ht). rewrite Ht. rewrite skipn_all_app. intros ->. rewrite app_nil_r in Ht.
      apply Ee. destruct self, p. cbn in *. congruence.
Qed.

Lemma calm_local : forall (K : panic_kind -> Prop) (E : error_kind -> Prop) dbg U m ts, (dbg = true -> K PDebugAssert) -> (forall i, In i (m_imports m) -> segs (im_target i) <> []) ->
  (forall p, In p ts -> placed p /\ (has_text p \/ K PIndex)) -> calm K E (local_types dbg U m ts).
Proof.
  intros K E dbg U m ts Hd Hi Ht.
  assert (Hrel : forall p, In p ts -> calm K E (relative_to (m_name m) p false)).
  { intros p Hp. apply calm_total, relative_to_total, placed_nonempty. now apply Ht. }
  unfold local_types. bindc; [apply calm_mapM; intros p Hp; bindc; [now apply Hrel|intros r _; exact I]|]. intros own _.
  bindc; [|intros a _; exact I]. apply calm_mapM. intros im Him. unfold alias_entries. apply calm_mapM. intros p Hp. apply filter_In in Hp as [Hp Hs].
  destruct (nonempty_name _ (Hi im Him)) as (q & n & _ & Hn).
  bindc; [|intros k _; bindc; [now apply Hrel|intros r _; exact I]].
  unfold alias_key. destruct (strip_prefix _ (to_py p)) as [t|] eqn:Et; [|rewrite Hn; exact I].
  bindc; [now apply calm_path|]. intros pq Hpq. rewrite Hn. cbn [obind]. unfold set_first.
  assert (Epq : pq = path_from_py U t). { unfold path_from_py_chk in Hpq. destruct (_ && _); [discriminate|]. now injection Hpq as <-. }
  destruct (Ht p Hp) as [Hpl [Htx|Hk]].
  - assert (Hne := from_py_nonempty U t (alias_text _ _ _ Hpl Htx Hs Et)). rewrite <- Epq in Hne. destruct (segs pq); [easy|exact I].
  - destruct (segs pq); [exact Hk|exact I].
Qed.
Lemma local_values : forall dbg U m ts lt k v, local_types dbg U m ts = Ok lt -> In (k, v) lt ->
  exists p, In p ts /\ relative_to (m_name m) p false = Ok v.
Proof.
  intros dbg U m ts lt k v H Hin. unfold local_types in H. apply bind_Ok in H as (own & Ho & H). apply bind_Ok in H as (al & Ha & H). injection H as <-.
  apply in_rev in Hin. apply in_app_or in Hin as [Hin|Hin].
  - destruct (mapM_In _ _ _ _ Ho Hin) as (p & Hp & E). apply bind_Ok in E as (r & Er & E). injection E as _ <-. now exists p.
  - apply in_concat in Hin as (e & He & Hin). destruct (mapM_In _ _ _ _ Ha He) as (im & _ & Em). unfold alias_entries in Em.
    destruct (mapM_In _ _ _ _ Em Hin) as (p & Hp & E). apply filter_In in Hp as [Hp _].
    apply bind_Ok in E as (key & _ & E). apply bind_Ok in E as (r & Er & E). injection E as _ <-. now exists p.
Qed.

Lemma calm_import : forall (K : panic_kind -> Prop) (E : error_kind -> Prop) U i, uni_ok U -> segs (im_target i) <> [] -> (im_type i = SubmoduleReexport -> segs (im_origin i) <> []) ->
  (im_type i = SubmoduleReexport -> last_is (rust_ident U) (im_target i)) \/ E ESyn -> calm K E (import_generate U i).
Proof.
  intros K E U i HU Ht Ho Ha. unfold import_generate. destruct (import_type_eqb (im_type i) SubmoduleReexport) eqn:Et; cbn [negb]; [|exact I].
  assert (Et' : im_type i = SubmoduleReexport) by (destruct (im_type i); try discriminate; reflexivity). specialize (Ho Et').
  destruct (path_eqb _ _); [exact I|]. bindc; [apply calm_total, relative_to_total; exact Ho|]. intros rel _.
  destruct (path_to_syn U rel) as [rp| | |]; try exact I.
  destruct (nonempty_name _ Ho) as (q & n & _ & ->). destruct (nonempty_name _ Ht) as (q' & n' & Eq & Hn). rewrite Hn. cbn [obind].
  destruct (ident_eqb n n'); [exact I|]. bindc; [|intros a _; exact I]. apply calm_syn; [exact HU|].
  destruct Ha as [Ha|Ha]; [left|now right]. exact (Ha Et' _ _ Eq).
Qed.
Lemma calm_prelude : forall K U m, uni_ok U -> named_items m -> calm K (fun _ => True) (gen_prelude U m).
Proof.
  intros K U m HU Hm. unfold gen_prelude. destruct (m_prelude m) as [|i l]; [exact I|].
  bindc; [apply calm_filterM; intros j _; apply calm_total; destruct (ident_exists_iff m false j Hm) as (r & Hr & _); now exists r|]. intros kept _.
  bindc; [apply calm_mapM; intros j _; apply calm_syn; [exact HU|now right]|]. intros ex _. destruct ex; [exact I|].
  bindc; [apply calm_total; now apply first_unused_total|]. intros c Hc. bindc; [apply calm_syn; [exact HU|now right]|]. intros a _. exact I.
Qed.
Lemma calm_drop : forall K E {A} (m : outcome (list A)), calm K (fun _ => True) m -> calm K E (drop_err m).
Proof. intros K E A [a|e|k|] H; exact H || exact I. Qed.

(** The recursive equation *)
Lemma mod_generate_eq : forall x m, mod_generate x m =
 (let U := mx_uni x in
  let cfg := mx_cfg x in
  let top := if in_dec module_dec m (mx_top x) then [GAttr AttrAllow] else [] in
  let! scope := mapM (fun f => path_name (fn_name f)) (m_functions m) in
  let! lt := local_types (mx_dbg x) U m (mx_types x) in
  let g := mk_gctx cfg (mx_imp x) (mk_ctx (mx_dbg x) (mx_numpy x) U lt) in
  let! docs := gen_doc g (m_doc m) in
  let! imports := when (generate_imports cfg)
    (concatM (fun i => omap use_frags (import_generate U i))
       (filter (fun i => existsb (path_exists (im_origin i)) (mx_top x)) (m_imports m))) in
  let! prelude := when (generate_preludes cfg) (drop_err (gen_prelude U m)) in
  let! type_vars := when (generate_type_vars cfg) (concatM (type_var_generate U) (m_typevars m)) in
  let! classes := when (generate_classes cfg) (concatM (class_generate g) (m_classes m)) in
  let! functions := when (generate_functions cfg)
    (concatM (fun f => let! i := fn_generate g scope f in only_function i) (m_functions m)) in
  let! properties := when (generate_properties cfg)
    (concatM (fun p => let! i := prop_generate g scope p in only_function i) (m_properties m)) in
  let! subs := when (traverse_submodules cfg) (concatM (mod_generate x) (m_subs m)) in
  let! name := path_name (m_name m) in
  let! id := match ident_to_syn U name with Err _ => Err ECodegen | r => r end in
  Ok (top ++ docs ++
      [GPub; GMod id (gen_embed m ++ imports ++ prelude ++ type_vars ++ classes ++ functions ++ properties ++ subs)])).
Proof. intros x []. reflexivity. Qed.
Lemma module_calm : forall (K : panic_kind -> Prop) (E : error_kind -> Prop) x m, uni_ok (mx_uni x) -> (mx_dbg x = true -> K PDebugAssert) ->
  (forall p, In p (mx_types x) -> placed p /\ (has_text p \/ K PIndex)) ->
  ((forall p, In p (mx_types x) -> sayable (mx_uni x) p) \/ K PUnwrap) ->
  (forall k, within k m -> rooted k) -> ((forall k, within k m -> spelled (mx_uni x) k) \/ E ESyn /\ E ECodegen) ->
  calm K E (mod_generate x m).
Proof.
  intros K E x m HU Hd Ht Hs. induction m as [m IH] using module_nested_ind. intros Hr Hw.
  assert (Rm : rooted m) by (apply Hr; constructor).
  assert (Rs : forall s, In s (m_subs m) -> segs (m_name s) <> []) by (intros s Hin; apply (Hr s); econstructor; [exact Hin|constructor]).
  assert (Hn := rooted_items m Rm Rs). destruct Rm as [[R1 R1'] R2 R3 R4 R5 R6].
  assert (Hw' : spelled (mx_uni x) m \/ E ESyn /\ E ECodegen) by (destruct Hw as [Hw|Hw]; [left; apply Hw; constructor|now right]).
  rewrite mod_generate_eq. cbv zeta. set (U := mx_uni x) in *.
  bindc; [apply calm_mapM; intros f Hf; apply calm_name, placed_nonempty; now apply R4|]. intros scope _.
  bindc; [apply calm_local; [exact Hd|intros i Hi; now apply R6|exact Ht]|]. intros lt Hlt.
  set (g := mk_gctx _ _ _).
  assert (HV : (forall k v, In (k, v) (cx_local (g_cx g)) -> syn_path_ok U v = true) \/ K PUnwrap).
  { destruct Hs as [Hs|Hs]; [left|now right]. intros k v Hin. destruct (local_values _ _ _ _ _ _ _ Hlt Hin) as (p & Hp & Hrel).
    destruct (relative_sayable U _ _ _ R1' (Hs p Hp) (placed_nonempty p (proj1 (Ht p Hp))) Hrel) as [S1 S2]. now apply sayable_syn. }
  assert (HUg : uni_ok (g_uni g)) by exact HU. assert (Hdg : cx_dbg (g_cx g) = true -> K PDebugAssert) by exact Hd.
  bindc; [apply calm_doc|]. intros docs _.
  bindc; [apply calm_when, calm_concatM; intros i Hi; apply filter_In in Hi as [Hi _]; apply calm_omap; apply calm_import; [exact HU|now apply R6|now apply R6|]|].
  { destruct Hw' as [[]|[]]; [left|now right]. intros Hty. now apply sl_import. }
  intros imports _.
  bindc; [apply calm_when, calm_drop; now apply calm_prelude|]. intros prelude _.
  bindc; [apply calm_when, calm_concatM; intros p Hp|].
  { unfold type_var_generate. destruct (nonempty_name p (placed_nonempty p (R3 p Hp))) as (q & n & Eq & ->). cbn [obind].
    bindc; [|intros a _; exact I]. apply calm_syn; [exact HU|]. destruct Hw' as [[]|[]]; [left|now right]. exact (sl_var p Hp q n Eq). }
  intros tv _.
  bindc; [apply calm_when, calm_concatM; intros c Hc|].
  { destruct (R2 c Hc) as (C1 & C2 & C3). apply calm_class; try assumption; [now apply placed_nonempty| |].
    - intros f Hf. destruct (C2 f Hf) as (F1 & cp & k & F2 & F3). split; [split; [exact F1|now rewrite F2]|].
      destruct Hw' as [[]|[]]; [left|now right]. now apply (sl_class c Hc).
    - intros p Hp. destruct (C3 p Hp) as (P1 & P2). split; [split; [exact P1|rewrite P2; discriminate]|].
      destruct Hw' as [[]|[]]; [left|now right]. now apply (sl_class c Hc). }
  intros cls _.
  bindc; [apply calm_when, calm_concatM; intros f Hf|].
  { destruct (R4 f Hf) as (F1 & F2). apply fn_function; [exact F2|]. apply calm_fn; try assumption.
    - split; [now apply placed_nonempty|]. destruct F2 as [-> | ->]; exact F1.
    - destruct Hw' as [[]|[]]; [left; now apply sl_fn|now right]. }
  intros fns _.
  bindc; [apply calm_when, calm_concatM; intros p Hp|].
  { destruct (R5 p Hp) as (P1 & P2). apply prop_function; [exact P2|]. apply calm_prop; try assumption.
    - split; [now apply placed_nonempty|]. intros _. exact P1.
    - destruct Hw' as [[]|[]]; [left; now apply (sl_prop p)|now right]. }
  intros prs _.
  bindc; [apply calm_when, calm_concatM; intros s Hin; apply IH; [exact Hin| |]|].
  { intros k Hk. apply Hr. now apply (within_sub k m s). }
  { destruct Hw as [Hw|Hw]; [left|now right]. intros k Hk. apply Hw. now apply (within_sub k m s). }
  intros subs _.
  destruct (nonempty_name _ R1) as (q & n & Eq & ->). cbn [obind]. bindc; [|intros a _; exact I].
  destruct Hw' as [[]|[_ Hw']].
  - rewrite to_syn_ok; [exact I|exact HU|exact (sl_name q n Eq)].
  - unfold ident_to_syn. destruct (syn_ident_ok _ _); [exact I|exact Hw'].
Qed.
