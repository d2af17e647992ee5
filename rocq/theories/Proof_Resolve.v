(** * Lemmas: the names in the functions of the written file (C73) *)
From Verif Require Import Base Spec_Lex Spec_Call Spec_Code Spec_Decl Model_Ident Model_Path Model_Import Model_Text Model_Config Model_Type Model_IntoRs Model_World Model_Out
  Model_Function Model_Property Model_Class Model_Module Model_Parse Model_Codegen Model_Token Model_Print
  Spec_Path Spec_Names Spec_Rust Spec_Items Spec_Tree Spec_Api Spec_Prop Spec_Out Spec_Safe Spec_Attr Spec_Doc Spec_Acts Spec_Use Spec_Sig Spec_Check Spec_Behave Spec_Print
  Proof_Base Proof_Ident Proof_Path Proof_IntoRs Proof_Function Proof_Items Proof_Module Proof_Api Proof_Parts Proof_Rooted Proof_Scope Proof_Use Proof_Doc Proof_Switch
  Proof_Grammar Proof_Code Proof_Ast Proof_File Proof_Decl Proof_Written Proof_Valid Proof_Acts Proof_Sig Proof_Check Proof_Behave Proof_Stated.
From Verif Require Import Spec_Privacy Proof_Parse Proof_Honest Proof_Attr Proof_Deps Spec_Decl Spec_Resolve.

(** ** Paths *)
Definition leaf_ok (p : list tok) : Prop := global p = true \/ p = [TWord (u "Some")] \/ p = rs "Vec::with_capacity".
Definition ok (vs : list str) (e : expr) : Prop := Forall leaf_ok (leaves vs e).
Lemma leaves_global : forall vs p, global p = true -> leaves vs (EPath p) = [p].
Proof. intros vs [|[x|c j|s|s|d|d] p] H; try discriminate H. reflexivity. Qed.
Lemma ok_list : forall vs l, Forall (ok vs) l -> Forall leaf_ok (flat_map (leaves vs) l).
Proof. intros vs l. induction 1; [constructor|]. cbn [flat_map]. apply Forall_app. now split. Qed.
Lemma ok_var : forall vs x, In x vs -> ok vs (var x).
Proof. intros vs x H. unfold ok, var. cbn [leaves]. apply mem_str_In in H. rewrite H. constructor. Qed.
Lemma ok_path : forall vs s, global (rs s) = true -> ok vs (EPath (rs s)).
Proof. intros vs s H. unfold ok. rewrite leaves_global by exact H. constructor; [now left|constructor]. Qed.
Lemma ok_call : forall vs a l c, ok vs a -> Forall (ok vs) l -> ok vs (ECall a l c).
Proof. intros vs a l c Ha Hl. unfold ok. cbn [leaves]. apply Forall_app. split; [exact Ha|now apply ok_list]. Qed.
Lemma ok_method : forall vs a m l c, ok vs a -> Forall (ok vs) l -> ok vs (EMethod a m l c).
Proof. intros vs a m l c Ha Hl. unfold ok. cbn [leaves]. apply Forall_app. split; [exact Ha|now apply ok_list]. Qed.
Lemma ok_app : forall vs s l c, global (rs s) = true -> Forall (ok vs) l -> ok vs (app_of s l c).
Proof. intros vs s l c H Hl. apply ok_call; [now apply ok_path|exact Hl]. Qed.
Lemma ok_macro : forall vs p l c, global p = true -> Forall (ok vs) l -> ok vs (EMacro p l c).
Proof. intros vs p l c H Hl. unfold ok. cbn [leaves]. constructor; [now left|now apply ok_list]. Qed.
Lemma ok_let : forall vs m x e r, ok vs e -> ok (x :: vs) r -> ok vs (ELet m x e r).
Proof. intros vs m x e r He Hr. unfold ok. cbn [leaves]. apply Forall_app. now split. Qed.
Lemma ok_seq : forall vs a b, ok vs a -> ok vs b -> ok vs (ESeq a b).
Proof. intros vs a b Ha Hb. unfold ok. cbn [leaves]. apply Forall_app. now split. Qed.
Lemma ok_some : forall vs, ok vs (EPath (rs "Some")).
Proof. intros vs. unfold ok. change (rs "Some") with [TWord (u "Some")]. cbn [leaves]. destruct (mem_str _ _); [constructor|]. constructor; [right; now left|constructor]. Qed.
Lemma ok_vec : forall vs, ok vs (EPath (rs "Vec::with_capacity")).
Proof. intros vs. unfold ok. change (leaves vs (EPath (rs "Vec::with_capacity"))) with [rs "Vec::with_capacity"]. constructor; [right; now right|constructor]. Qed.
Lemma ok_try : forall vs e, ok vs e -> ok vs (ETry e).
Proof. auto. Qed.
Lemma ok_ref : forall vs e, ok vs e -> ok vs (ERef e).
Proof. auto. Qed.
Lemma ok_closure : forall vs x e, ok (x :: vs) e -> ok vs (EClosure x e).
Proof. auto. Qed.
Lemma ok_plus : forall vs a b, ok vs a -> ok vs b -> ok vs (EAdd a b).
Proof. intros vs a b Ha Hb. unfold ok. cbn [leaves]. apply Forall_app. now split. Qed.
Ltac global_path := vm_compute; reflexivity.
Ltac all_ok := repeat match goal with |- Forall _ (_ :: _) => apply Forall_cons | |- Forall _ [] => apply Forall_nil end.

(** ** Bodies *)
Lemma ok_interned : forall vs e a, ok vs e -> ok vs (interned e a).
Proof. intros vs e a H. apply ok_macro; [global_path|]. all_ok; [exact H|constructor]. Qed.
Lemma ok_object : forall vs i, In (u "py") vs -> In i vs -> ok vs (object_ast i).
Proof. intros vs i Hp Hi. apply ok_app; [global_path|]. all_ok; now apply ok_var. Qed.
Lemma ok_array : forall vs l, In (u "py") vs -> incl l vs -> ok vs (array l).
Proof. intros vs l Hp Hl. unfold ok, array. cbn [leaves]. apply ok_list. apply Forall_forall. intros e He. apply in_map_iff in He as (i & <- & Hi). apply ok_object; auto. Qed.
Lemma ok_tuple : forall vs e, In (u "py") vs -> ok vs e -> ok vs (new_tuple e).
Proof. intros vs e Hp He. apply ok_app; [global_path|]. all_ok; [now apply ok_var|exact He]. Qed.
Lemma ok_pos : forall vs p, In (u "py") vs -> incl (pos_vars p) vs -> ok vs (pos_ast p).
Proof.
  intros vs [|v|l|l v] Hp Hv; cbn [pos_ast pos_vars] in *.
  - constructor.
  - apply ok_var. apply Hv. now left.
  - apply ok_tuple; [exact Hp|]. now apply ok_array.
  - assert (Hl : incl l vs) by (intros i Hi; apply Hv, in_or_app; now left). assert (H1 : In v vs) by (apply Hv, in_or_app; right; now left).
    assert (Ka : In args_name (args_name :: vs)) by now left. assert (Kp : In (u "py") (args_name :: vs)) by now right. assert (Kv : In v (args_name :: vs)) by now right.
    unfold ok. cbn [leaves]. change (Forall leaf_ok (leaves vs ?e)) with (ok vs e). apply Forall_app. split; [|apply Forall_app; split; [|apply Forall_app; split]].
    + change (ok vs (app_of "Vec::with_capacity" [EAdd (ENum (dec (N.of_nat (length l)) ++ u "usize")) (app_of "::pyo3::types::PyTupleMethods::len" [var v] false)] false)).
      apply ok_call; [apply ok_vec|]. all_ok. apply ok_plus; [constructor|]. apply ok_app; [global_path|]. all_ok. now apply ok_var.
    + change (ok (args_name :: vs) (EMethod (var args_name) (u "extend") [array l] false)). apply ok_method; [now apply ok_var|]. all_ok. apply ok_array; [exact Kp|]. intros i Hi. right. auto.
    + change (ok (args_name :: vs) (EMethod (var args_name) (u "extend") [EMethod (app_of "::pyo3::types::PyTupleMethods::iter" [var v] false) (u "map") [EClosure arg_name (object_ast arg_name)] false] false)).
      apply ok_method; [now apply ok_var|]. all_ok. apply ok_method; [apply ok_app; [global_path|]; all_ok; now apply ok_var|]. all_ok. apply ok_closure, ok_object; [now right|now left].
    + apply ok_tuple; [exact Kp|now apply ok_var].
Qed.
Lemma ok_items : forall vs l, In (u "py") vs -> In kwargs_name vs -> incl (map snd l) vs -> ok vs (items_ast l).
Proof.
  intros vs l Hp Hk. induction l as [|e l IH]; intros Hl; [now apply ok_var|]. cbn [items_ast fold_right]. apply ok_seq.
  - apply ok_app; [global_path|]. all_ok; [change (ok vs (var kwargs_name)); now apply ok_var|apply ok_interned; now apply ok_var|apply ok_var, Hl; now left].
  - apply IH. intros i Hi. apply Hl. now right.
Qed.
Lemma ok_new_dict : forall vs, In (u "py") vs -> ok vs new_dict_ast.
Proof. intros vs Hp. apply ok_app; [global_path|]. all_ok. now apply ok_var. Qed.
Lemma ok_kw : forall vs k, In (u "py") vs -> incl (kw_vars k) vs -> ok vs (kw_ast k).
Proof.
  intros vs [v|v l| |l] Hp Hv; cbn [kw_ast kw_vars] in *.
  - apply ok_var, Hv. now left.
  - apply (ok_let vs false kwargs_name); [apply ok_var, Hv; now left|]. apply ok_items; [now right|now left|]. intros i Hi. right. apply Hv. now right.
  - now apply ok_new_dict.
  - apply (ok_let vs false kwargs_name); [now apply ok_new_dict|]. apply ok_items; [now right|now left|]. intros i Hi. right. now apply Hv.
Qed.
Lemma ok_some_kw : forall vs k, In (u "py") vs -> incl (kw_vars k) vs -> ok vs (some_kw k).
Proof. intros vs k Hp Hk. apply ok_call; [apply ok_some|]. all_ok. now apply (ok_kw vs k). Qed.
Lemma ok_disp : forall vs d, (d = DSelf -> In (u "self") vs) -> (d <> DSelf -> In (u "py") vs) -> ok vs (disp_ast d).
Proof.
  intros vs [|[i attrs]] Hs Hp; [apply ok_var; now apply Hs|]. assert (Hy : In (u "py") vs) by (apply Hp; discriminate). clear Hs Hp. cbn [disp_ast]. unfold lookup_ast. cbn [lk_attrs lk_import].
  assert (E : ok vs (ETry (EMethod py (u "import_bound") [interned py i] false))).
  { apply ok_try, ok_method; [now apply ok_var|]. all_ok. apply ok_interned. now apply ok_var. }
  revert E. generalize (ETry (EMethod py (u "import_bound") [interned py i] false)). induction attrs as [|a attrs IH]; intros e He; [exact He|]. cbn [fold_left]. apply IH.
  apply ok_try, ok_app; [global_path|]. all_ok; [|apply ok_interned; now apply ok_var]. apply ok_method; [exact He|constructor].
Qed.
Lemma ok_call_ast : forall vs d a, In (u "py") vs -> ok vs d -> incl (args_vars a) vs -> ok vs (call_ast d a).
Proof.
  intros vs d [p k|p|] Hp Hd Hv; cbn [call_ast args_vars] in *; (apply ok_app; [global_path|]); all_ok; try (apply ok_method; [exact Hd|constructor]).
  - apply ok_pos; [exact Hp|]. intros i Hi. apply Hv, in_or_app. now left.
  - apply ok_some_kw; [exact Hp|]. intros i Hi. apply Hv, in_or_app. now right.
  - now apply ok_pos.
Qed.
Lemma ok_call_method : forall vs d m a, In (u "py") vs -> ok vs d -> incl (args_vars a) vs -> ok vs (call_method_ast d m a).
Proof.
  intros vs d m [p k|p|] Hp Hd Hv; cbn [call_method_ast args_vars] in *; (apply ok_app; [global_path|]); all_ok; try (apply ok_method; [exact Hd|constructor]); try (apply ok_interned; now apply ok_var).
  - apply ok_pos; [exact Hp|]. intros i Hi. apply Hv, in_or_app. now left.
  - apply ok_some_kw; [exact Hp|]. intros i Hi. apply Hv, in_or_app. now right.
  - now apply ok_pos.
Qed.
Lemma ok_extract : forall vs e, ok vs e -> ok vs (extract e).
Proof. intros vs e H. apply ok_app; [global_path|]. all_ok. now apply ok_ref, ok_try. Qed.
Lemma ok_body : forall vs d b, (d = DSelf -> In (u "self") vs) -> (match b, d with BGet _, DSelf => True | _, _ => In (u "py") vs end) -> incl (body_vars b) vs -> ok vs (body_ast d b).
Proof.
  intros vs d b Hs Hp Hv. assert (Hd : ok vs (disp_ast d)) by (apply ok_disp; [exact Hs|]; intros K; destruct b, d; auto; now destruct K).
  destruct b as [a|m a|n|n v]; cbn [body_ast body_vars] in *.
  - apply ok_extract. apply ok_call_ast; [now destruct d|exact Hd|exact Hv].
  - apply ok_extract. apply ok_call_method; [now destruct d|exact Hd|exact Hv].
  - apply ok_extract. apply ok_app; [global_path|]. all_ok; [apply ok_method; [exact Hd|constructor]|]. apply ok_interned. destruct d as [|L]; [|now apply ok_var]. apply ok_method; [apply ok_var; now apply Hs|constructor].
  - apply ok_app; [global_path|]. all_ok; [apply ok_method; [exact Hd|constructor]|apply ok_interned, ok_var; now destruct d|apply ok_var, Hv; now left].
Qed.
Lemma ok_preps : forall l vs rest, (forall e, In e l -> snd e <> PrepNone -> In (u "py") vs) -> incl (map fst l) vs -> (forall vs', incl vs vs' -> ok vs' rest) -> ok vs (fold_right prep_ast rest l).
Proof.
  induction l as [|[x p] l IH]; intros vs rest Hp Hv Hr; [apply Hr, incl_refl|]. cbn [fold_right].
  assert (Hx : In x vs) by (apply Hv; now left). assert (Hy : p <> PrepNone -> In (u "py") vs) by exact (Hp (x, p) (or_introl eq_refl)).
  assert (R : forall vs', incl vs vs' -> ok vs' (fold_right prep_ast rest l)).
  { intros vs' Hi. apply IH; [intros e He Hn; apply Hi; apply (Hp e); [now right|exact Hn]|intros i H; apply Hi, Hv; now right|intros vs2 H2; apply Hr; now apply (incl_tran Hi)]. }
  destruct p; unfold prep_ast; cbn [fst snd].
  - apply R, incl_refl.
  - apply ok_let; [|apply R; now apply incl_tl, incl_refl]. apply ok_app; [global_path|]. all_ok; apply ok_var; [exact Hx|apply Hy; discriminate].
  - apply ok_let; [apply ok_app; [global_path|]; all_ok; apply ok_var; [exact Hx|apply Hy; discriminate]|]. apply ok_let; [|apply R; now apply incl_tl, incl_tl, incl_refl].
    apply ok_method; [apply ok_var; now left|]. all_ok. apply ok_var. right. apply Hy. discriminate.
  - apply ok_let; [apply ok_app; [global_path|]; all_ok; apply ok_var; [exact Hx|apply Hy; discriminate]|]. apply ok_let; [|apply R; now apply incl_tl, incl_tl, incl_refl].
    apply ok_method; [apply ok_var; now left|]. all_ok. apply ok_var. right. apply Hy. discriminate.
  - apply ok_let; [|apply R; now apply incl_tl, incl_refl]. assert (Py : In (u "py") vs) by (apply Hy; discriminate). unfold ok. cbn [leaves]. constructor; [right; now left|].
    apply Forall_app. split; [exact (ok_var _ _ Hx)|]. apply Forall_app. split.
    + change (ok (x :: vs) (app_of "::pyo3::types::IntoPyDict::into_py_dict_bound" [var x; py] false)). apply ok_app; [global_path|]. all_ok; apply ok_var; [now left|now right].
    + now apply ok_new_dict.
Qed.
Lemma ok_fn : forall pl d, ready pl d -> Forall leaf_ok (fn_leaves (fn_syntax d)).
Proof.
  intros pl d (R1 & R2 & R3 & R4 & R5 & R6 & R7 & R8 & R9). unfold fn_leaves, fn_syntax. cbn [r_params r_body].
  set (vs := map fst (shown_params (f_contract d))). assert (Ev : vs = (if k_self (f_contract d) then u "self" else u "py") :: map fst (k_params (f_contract d))).
  { unfold vs, shown_params, receiver. cbn [map]. rewrite map_map. cbn [fst]. now destruct (k_self (f_contract d)). }
  assert (Hs : f_disp d = DSelf -> In (u "self") vs) by (intros K; rewrite Ev, (R2 K); now left).
  assert (Hp : incl (map fst (k_params (f_contract d))) vs) by (rewrite Ev; apply incl_tl, incl_refl).
  change (ok vs (fn_ast d)). unfold fn_ast.
  assert (B : forall vs', incl vs vs' -> (needs_py d = true -> In (u "py") vs') -> ok vs' (fold_right prep_ast (body_ast (f_disp d) (f_body d)) (f_prep d))).
  { intros vs' Hi Hn. apply ok_preps.
    - intros e He K. apply Hn. unfold needs_py. destruct (f_body d), (f_disp d); try reflexivity. apply existsb_exists. exists e. split; [exact He|]. now destruct (snd e).
    - rewrite R5. now apply (incl_tran Hp).
    - intros v2 H2. apply ok_body.
      + intros K. apply H2, Hi. now apply Hs.
      + assert (K : match f_body d, f_disp d with BGet _, DSelf => True | _, _ => needs_py d = true end) by (unfold needs_py; now destruct (f_body d), (f_disp d)).
        destruct (f_body d), (f_disp d); auto.
      + intros i Hx. apply H2, Hi, Hp. now apply R8. }
  destruct (f_let_py d) eqn:El.
  - apply ok_let; [|apply B; [apply incl_tl, incl_refl|intros _; now left]]. unfold self_py. apply ok_method; [|constructor]. apply ok_var. rewrite Ev, (R3 eq_refl). now left.
  - apply B; [apply incl_refl|]. intros K. specialize (R4 K). unfold has_py in R4. rewrite El, orb_false_r in R4. apply negb_true_iff in R4. rewrite Ev, R4. now left.
Qed.
Lemma embed_leaves : forall m file src p, In p (fn_leaves (embed_syntax m file src)) -> exists h r, p = TWord h :: r /\ In h (map u ["pyo3"; "str"]%string).
Proof.
  intros m file src p H. change (fn_leaves (embed_syntax m file src)) with (fn_leaves (embed_syntax [] [] [])) in H. revert p H. apply Forall_forall.
  assert (K : forallb (fun p => match p with TWord h :: _ => mem_str h (map u ["pyo3"; "str"]%string) | _ => false end) (fn_leaves (embed_syntax [] [] [])) = true) by (vm_compute; reflexivity).
  rewrite forallb_forall in K. apply Forall_forall. intros p Hp. specialize (K p Hp). revert K. clear Hp. destruct p as [|[h| | | | |] r]; intros K; try discriminate. exists h, r. split; [reflexivity|]. now apply mem_str_In.
Qed.

(** ** Variables *)
Definition own_var (v : str) : Prop := In v (map u ["self"; "py"; "__internal__args"; "__internal__arg"; "__internal__kwargs"]%string) \/ exists t, v = u "p_" ++ t.
Definition own (e : expr) : Prop := Forall own_var (binds e).
Lemma own_list : forall l, Forall own l -> Forall own_var (flat_map binds l).
Proof. intros l. induction 1; [constructor|]. cbn [flat_map]. apply Forall_app. now split. Qed.
Lemma own_path : forall p, own (EPath p).
Proof. intros p. constructor. Qed.
Lemma own_call : forall a l c, own a -> Forall own l -> own (ECall a l c).
Proof. intros a l c Ha Hl. unfold own. cbn [binds]. apply Forall_app. split; [exact Ha|now apply own_list]. Qed.
Lemma own_method : forall a m l c, own a -> Forall own l -> own (EMethod a m l c).
Proof. intros a m l c Ha Hl. unfold own. cbn [binds]. apply Forall_app. split; [exact Ha|now apply own_list]. Qed.
Lemma own_app : forall s l c, Forall own l -> own (app_of s l c).
Proof. intros s l c Hl. apply own_call; [constructor|exact Hl]. Qed.
Lemma own_macro : forall p l c, Forall own l -> own (EMacro p l c).
Proof. intros p l c Hl. unfold own. cbn [binds]. now apply own_list. Qed.
Lemma own_let : forall m x e r, own_var x -> own e -> own r -> own (ELet m x e r).
Proof. intros m x e r Hx He Hr. unfold own. cbn [binds]. constructor; [exact Hx|]. apply Forall_app. now split. Qed.
Lemma own_try : forall e, own e -> own (ETry e).
Proof. auto. Qed.
Lemma own_ref : forall e, own e -> own (ERef e).
Proof. auto. Qed.
Lemma own_array : forall l, own (array l).
Proof. intros l. unfold own, array. cbn [binds]. apply own_list. apply Forall_forall. intros e He. apply in_map_iff in He as (i & <- & Hi). apply own_app. all_ok; constructor. Qed.
Lemma own_interned : forall e a, own e -> own (interned e a).
Proof. intros e a H. apply own_macro. all_ok; [exact H|constructor]. Qed.
Lemma own_internal : own_var args_name /\ own_var arg_name /\ own_var kwargs_name /\ own_var (u "py").
Proof. repeat split; left; cbn; tauto. Qed.
Lemma own_pos : forall p, own (pos_ast p).
Proof.
  destruct own_internal as (A1 & A2 & A3 & A4). intros [|v|l|l v]; cbn [pos_ast]; [constructor|constructor|apply own_app; all_ok; [constructor|apply own_array]|].
  unfold own. cbn [binds]. constructor; [exact A1|]. apply Forall_app. split; [|apply Forall_app; split; [|apply Forall_app; split]].
  - change (own (app_of "Vec::with_capacity" [EAdd (ENum (dec (N.of_nat (length l)) ++ u "usize")) (app_of "::pyo3::types::PyTupleMethods::len" [var v] false)] false)).
    apply own_app. all_ok. unfold own. cbn [binds app]. apply own_app. all_ok. constructor.
  - change (own (EMethod (var args_name) (u "extend") [array l] false)). apply own_method; [constructor|]. all_ok. apply own_array.
  - change (own (EMethod (var args_name) (u "extend") [EMethod (app_of "::pyo3::types::PyTupleMethods::iter" [var v] false) (u "map") [EClosure arg_name (object_ast arg_name)] false] false)).
    apply own_method; [constructor|]. all_ok. apply own_method; [apply own_app; all_ok; constructor|]. all_ok. unfold own. cbn [binds]. constructor; [exact A2|]. apply own_app. all_ok; constructor.
  - apply own_app. all_ok; constructor.
Qed.
Lemma own_items : forall l, own (items_ast l).
Proof.
  induction l as [|e l IH]; [constructor|]. cbn [items_ast fold_right]. unfold own. cbn [binds]. apply Forall_app. split; [|exact IH].
  apply own_app. all_ok; [constructor|apply own_interned; constructor|constructor].
Qed.
Lemma own_kw : forall k, own (kw_ast k).
Proof.
  destruct own_internal as (A1 & A2 & A3 & A4). intros [v|v l| |l]; cbn [kw_ast]; [constructor| |apply own_app; all_ok; constructor|].
  - apply (own_let false kwargs_name); [exact A3|constructor|apply own_items].
  - apply (own_let false kwargs_name); [exact A3|apply own_app; all_ok; constructor|apply own_items].
Qed.
Lemma own_disp : forall d, own (disp_ast d).
Proof.
  intros [|[i attrs]]; [constructor|]. cbn [disp_ast]. unfold lookup_ast. cbn [lk_attrs lk_import].
  assert (E : own (ETry (EMethod py (u "import_bound") [interned py i] false))).
  { apply own_try, own_method; [constructor|]. all_ok. apply own_interned. constructor. }
  revert E. generalize (ETry (EMethod py (u "import_bound") [interned py i] false)). induction attrs as [|a attrs IH]; intros e He; [exact He|]. cbn [fold_left]. apply IH.
  apply own_try, own_app. all_ok; [|apply own_interned; constructor]. apply own_method; [exact He|constructor].
Qed.
Lemma own_body : forall d b, own (body_ast d b).
Proof.
  intros d b. pose proof (own_disp d) as Hd. assert (Hb : own (EMethod (disp_ast d) (u "as_any") [] false)) by (apply own_method; [exact Hd|constructor]).
  assert (Kw : forall k, own (some_kw k)) by (intros k; apply own_call; [constructor|]; all_ok; exact (own_kw k)).
  assert (Ex : forall e, own e -> own (extract e)) by (intros e He; apply own_app; all_ok; now apply own_ref, own_try).
  assert (Ip : forall a, own (interned py a)) by (intros a; apply own_interned; constructor).
  destruct b as [[p k|p|]|m [p k|p|]|n|n v]; cbn [body_ast call_ast call_method_ast]; match goal with |- own (extract _) => apply Ex | _ => idtac end; apply own_app; all_ok;
    match goal with |- own (any_of _) => exact Hb | |- own (pos_ast _) => apply own_pos | |- own (some_kw _) => apply Kw | |- own (interned py _) => apply Ip | |- own (var _) => constructor | _ => idtac end.
  apply own_interned. destruct d; [|constructor]. apply own_method; constructor.
Qed.
Lemma own_preps : forall l rest, (forall x, In x (map fst l) -> own_var x) -> own rest -> own (fold_right prep_ast rest l).
Proof.
  induction l as [|[x p] l IH]; intros rest Hx Hr; [exact Hr|]. cbn [fold_right]. assert (Kx : own_var x) by (apply Hx; now left).
  assert (R : own (fold_right prep_ast rest l)) by (apply IH; [intros y Hy; apply Hx; now right|exact Hr]). generalize dependent (fold_right prep_ast rest l). intros e He.
  destruct p; unfold prep_ast; cbn [fst snd]; [exact He|..].
  - apply own_let; [exact Kx| |exact He]. apply own_app. all_ok; constructor.
  - apply own_let; [exact Kx|apply own_app; all_ok; constructor|]. apply own_let; [exact Kx| |exact He]. apply own_method; [constructor|]. all_ok. constructor.
  - apply own_let; [exact Kx|apply own_app; all_ok; constructor|]. apply own_let; [exact Kx| |exact He]. apply own_method; [constructor|]. all_ok. constructor.
  - apply own_let; [exact Kx| |exact He]. unfold own. cbn [binds]. constructor; [exact Kx|]. constructor.
Qed.
Lemma own_fn : forall pl d, ready pl d -> Forall own_var (fn_binds (fn_syntax d)).
Proof.
  intros pl d (R1 & R2 & R3 & R4 & R5 & R6 & R7 & R8 & R9). unfold fn_binds, fn_syntax. cbn [r_params r_body]. apply Forall_app. split.
  - unfold shown_params, receiver. cbn [map]. rewrite map_map. cbn [fst]. constructor; [destruct (k_self (f_contract d)); left; cbn; tauto|]. apply Forall_forall. intros v Hv. right. now apply R9.
  - change (own (fn_ast d)). unfold fn_ast. assert (B : own (fold_right prep_ast (body_ast (f_disp d) (f_body d)) (f_prep d))).
    { apply own_preps; [|apply own_body]. rewrite R5. intros v Hv. right. now apply R9. }
    destruct (f_let_py d); [|exact B]. apply own_let; [left; cbn; tauto| |exact B]. apply own_method; constructor.
Qed.
Lemma embed_binds : forall m file src, fn_binds (embed_syntax m file src) = [u "py"].
Proof. intros m file src. vm_compute. reflexivity. Qed.
Lemma own_not_struct : forall U v t, own_var v -> ident_from_py U (u "s_" ++ t) <> v.
Proof.
  intros U v t H E. unfold ident_from_py, py_to_rs in E. destruct (syn_ident_ok U _); (destruct H as [H|(t' & ->)]; [repeat (destruct H as [<-|H]; [discriminate|]); destruct H|discriminate]).
Qed.

(** ** Scopes *)
Lemma import_uses : forall k i, has_import (states_all plain k) i -> exists v, In (GUse v) k /\ Spec_Names.bound_name v = Some i.
Proof.
  intros k i (p & v & al & H & E). apply states_In in H as (q & y & Hy & H). apply fronted_from in Hy as [Hy _]. rewrite states_frag in H.
  destruct y as [|?|?|?|?|v0|?|?|n0|? ?|? ?|n1 l1|t0 n2 l2|? ?|? ? ?]; try (now destruct H); try (apply in_one in H; try discriminate H); [|destruct H as [H|[H|[]]]; discriminate H].
  injection H as _ -> ->. exists v0. split; [exact Hy|]. unfold Spec_Names.bound_name. destruct E as [-> |(-> & q0 & ->)]; [reflexivity|]. apply last_opt_app.
Qed.
Lemma struct_from : forall k i, has_struct (states_all plain k) i -> In (GStruct i) k.
Proof.
  intros k i (p & v & H). apply states_In in H as (q & y & Hy & H). apply fronted_from in Hy as [Hy _]. rewrite states_frag in H.
  destruct y as [|?|?|?|?|v0|?|?|n0|? ?|? ?|n1 l1|t0 n2 l2|? ?|? ? ?]; try (now destruct H); try (apply in_one in H; try discriminate H); [|destruct H as [H|[H|[]]]; discriminate H].
  injection H as _ -> _. exact Hy.
Qed.
Lemma named_from : forall k i, i <> u "pyo3_embed_python_source_code" -> named (states_all plain k) i -> hides k i \/ hides_value k i.
Proof.
  intros k i Hi [[(p & h & H & E)|[H|[(p & t & H)|(p & b & H)]]]|[(p & b & H)|H]].
  - right. left. apply states_In in H as (q & y & Hy & H). apply fronted_from in Hy as [Hy _]. rewrite states_frag in H.
    destruct y as [|?|?|d|?|v0|?|?|n0|? ?|? ?|n1 l1|t0 n2 l2|? ?|? ? ?]; try (now destruct H); try (apply in_one in H; try discriminate H); [|destruct H as [H|[H|[]]]; discriminate H|].
    + injection H as _ ->. now exists d.
    + injection H as _ ->. now destruct Hi.
  - left. left. now apply struct_from.
  - left. right. left. apply states_In in H as (q & y & Hy & H). apply fronted_from in Hy as [Hy _]. rewrite states_frag in H.
    destruct y as [|?|?|d|?|v0|?|?|n0|? ?|? ?|n1 l1|t0 n2 l2|? ?|? ? ?]; try (now destruct H); try (apply in_one in H; try discriminate H); [|destruct H as [H|[H|[]]]; discriminate H]. injection H as _ -> _. exact Hy.
  - left. right. right. left. apply states_mod in H as (b' & Hb & _). now exists b'.
  - left. do 3 right. left. apply states_In in H as (q & y & Hy & H). apply fronted_from in Hy as [Hy _]. rewrite states_frag in H.
    destruct y as [|?|?|d|?|v0|?|?|n0|? ?|? ?|n1 l1|t0 n2 l2|? ?|? ? ?]; try (now destruct H); try (apply in_one in H; try discriminate H); [destruct H as [H|[H|[]]]; discriminate H|]. injection H as _ -> _. now exists l1.
  - left. do 4 right. now apply import_uses.
Qed.

(** ** Names of the Python modules *)
Definition attr_item (x : penv) (it : item) : Prop := forall p, item_path it = Some p ->
  exists o i a, is_module (pe_world x) o /\ p = path_snoc (path_from_py (pe_uni x) (w_name (pe_world x) o)) i /\ attribute_of (pe_uni x) (pe_world x) o i a /\
    ~ hidden (pe_cfg x) (as_py i) (components (from_module (pe_uni x) (pe_world x) a)).
Lemma parsed_attr : forall x fuel o m, honest (pe_uni x) (pe_world x) -> is_module (pe_world x) o -> mod_parse x fuel o = Ok m ->
  forall k it, within k m -> has k it -> attr_item x it.
Proof.
  intros x fuel o m Hw Hmo Hm. apply (parsed_items x (fun n o E => proj1 (hn_import _ _ Hw n o E)) (attr_item x)) with (fuel := fuel) (o := o); [discriminate|..]; auto.
  - intros o' name a it Hmo' Hn (s & Hs & Hr & Hal) Hit p E. exists o', (at_name a), (at_obj a). split; [exact Hmo'|].
    apply read_attr_inv in Hr as (Ea & Eg & Em). unfold module_path in Hn. apply chk_path in Hn. subst name.
    split; [|split; [exists s; auto|]].
    + destruct it as [i|i|c|q|f|q]; cbn [reads item_path] in *; [discriminate|injection E as <-..].
      * destruct Hit as [_ H]. now apply read_import_target in H.
      * destruct Hit as [_ H]. now apply class_parse_typed in H as [-> _].
      * now destruct Hit.
      * destruct Hit as [[_ H]|[_ H]]; now apply fn_parse_typed in H as [-> _].
      * destruct Hit as [_ H]. now apply prop_parse_typed in H as (-> & _).
    + apply shown_iff in Hal. now rewrite Em in Hal.
  - intros o' name c i it it' _ _ Hi _ _ Hmv p E. apply moved_path in Hmv. rewrite Hmv in E. injection E as <-. now apply Hi.
Qed.
Lemma within_chain : forall m m0, within m m0 -> forall l, In m0 l -> exists d, reach l (d ++ [m_name m]) m /\ forall s, In s (m_subs m) -> reach l (d ++ [m_name m; m_name s]) s.
Proof.
  intros m m0 H. induction H as [|m1 s Hs H IH]; intros l Hl.
  - exists []. split; [now apply reach_here|]. intros s Hs. cbn. apply reach_down; [exact Hl|now apply reach_here].
  - destruct (IH _ Hs) as (d & H1 & H2). exists (m_name m1 :: d). split; [now apply reach_down|]. intros t Ht. cbn [app]. apply reach_down; [exact Hl|now apply H2].
Qed.
Lemma linked_last : forall d a b, linked (d ++ [a; b]) -> extends a b.
Proof.
  induction d as [|e d IH]; intros a b H; [exact (proj1 H)|]. apply IH. cbn [app linked] in H. destruct (d ++ [a; b]) as [|f r] eqn:E; [exact I|]. exact (proj2 H).
Qed.

(** ** The output *)
Section output.
  Variable x : penv.
  Let U := pe_uni x.
  Hypothesis HU : uni_ok U.
  Hypothesis Ho : order_ok (pe_ord x).
  Hypothesis Hw : honest U (pe_world x).
  Variables (numpy : bool) (fuel : nat) (l : list request) (c : codegen) (ms : list module) (out : list frag).
  Hypothesis Hl : asked_modules (pe_world x) l.
  Hypothesis Hc : asks x fuel l cg_new = Ok c.
  Hypothesis Hf : final_modules x fuel c = Ok ms.
  Hypothesis Hv : forall ms m k, final_modules x fuel c = Ok ms -> In m ms -> within k m -> variables_named U k.
  Hypothesis Hout : cg_generate x numpy fuel c = Ok out.
  Variable odd : N -> bool.
  Hypothesis Hs : forall a, odd a = true -> scalar a = true.
  Lemma item_attribute : forall m m0 it i p, In m0 ms -> within m m0 -> has m it -> item_path it = Some p -> ends p i -> has_attribute x (segs (m_name m)) i.
  Proof.
    intros m m0 it i p Hm0 Hm Hit Hp (q & He). destruct (final_located x Ho Hw fuel l c ms Hl Hc Hf m0 m it Hm0 Hm Hit p Hp) as (t & Et).
    assert (A : attr_item x it).
    { refine (final_module_items x Ho (honest_named _ _ Hw) fuel l c ms Hl Hc Hf (attr_item x) _ m0 m it Hm0 Hm Hit). intros o m1 k it0 Hmo Hp0. now apply (parsed_attr x fuel o m1 Hw Hmo Hp0). }
    destruct (A p Hp) as (o & j & a & H1 & H2 & H3 & H4). exists o, a. split; [exact H1|]. rewrite Et in He, H2. cbn [segs path_snoc] in He. apply app_inj_tail in He as [_ ->].
    injection H2 as _ H2. apply app_inj_tail in H2 as [H2 ->]. split; [now symmetry|]. now split.
  Qed.
  Lemma used_python : forall m m0 i, In m0 ms -> within m m0 -> in_use m i -> has_attribute x (segs (m_name m)) i \/ has_submodule x (segs (m_name m)) i.
  Proof.
    intros m m0 i Hm0 Hm [[(s & Hsub & (q & He))|(it & p & Hit & Hp & He & _)]|(j & Hj & He)].
    - right. destruct (within_chain m m0 Hm ms Hm0) as (d & _ & K). specialize (K s Hsub). destruct (final_linked x Ho Hw fuel l c ms Hl Hc Hf _ (ex_intro _ s K)) as [L _].
      apply linked_last in L as (j & Ej). assert (Ws : within s m0). { clear - Hm Hsub. induction Hm as [|m1 t Ht H IH]; [apply (within_sub s _ s Hsub); constructor|now apply (within_sub s m1 t)]. }
      destruct (final_sound_module x fuel l c ms Ho Hw Hl Hc Hf m0 s Hm0 Ws) as (o & H1 & H2 & _). exists o. split; [exact H1|]. fold U. fold U in H2. rewrite <- H2.
      rewrite Ej in He |- *. apply app_inj_tail in He as [_ ->]. reflexivity.
    - left. exact (item_attribute m m0 it i p Hm0 Hm Hit Hp He).
    - left. exact (item_attribute m m0 (AnImport j) i (im_target j) Hm0 Hm Hj eq_refl He).
  Qed.
  Lemma output_fn : forall its ns r w f, read_file U (text odd out) = Some its -> inside_mod its ns r -> is_fn_of r w f ->
    ns <> [] /\ ((exists pl d, ready pl d /\ f = fn_syntax d) \/ w = OfModule /\ (exists m file src, f = embed_syntax m file src)).
  Proof.
    intros its ns r w f Hi Hr Hin. pose proof (output_read x Ho Hw numpy fuel l c out Hl Hc Hout HU Hv odd Hs) as E0. fold U in E0. rewrite E0 in Hi. injection Hi as <-. destruct (inside_shown _ _ _ Hr out eq_refl) as (k & Hk & ->).
    pose proof (wf_embeds U k (wf_at U out ns k Hk (output_wf x numpy fuel l c out HU Ho Hc Hv Hout))) as Hn.
    assert (Top : ns = [] -> forall y, In y k -> match y with GFn _ | GEmbed _ _ _ | GImpl _ _ | GImplFor _ _ _ => False | _ => True end).
    { intros ->. destruct (scope_module x Ho Hw numpy fuel l c ms out Hl Hc Hf Hout [] k Hk) as [[_ K]|[(ex & ->)|(m & m0 & P & Hm0 & Hm & En & HP & ->)]].
      - intros y Hy. destruct (K y Hy) as [E|(n & b & ->)]; [|exact I]. now destruct y.
      - intros y [<-|[<-|[]]]; exact I.
      - exfalso. destruct (rt_name _ (final_rooted x Ho (honest_named _ _ Hw) fuel l c ms Hl Hc Hf m0 m Hm0 Hm)) as [K _]. now apply K. }
    split.
    { intros E. specialize (Top E). destruct (shown_of k w f Hn Hin) as [(d & Hdf & ->)|(-> & m & file & src & He & ->)]; [|exact (Top _ He)].
      destruct w as [|n|n]; cbn [has_fn] in Hdf; [exact (Top _ Hdf)|destruct Hdf as (b & H & _)|destruct Hdf as (t & b & H & _)]; exact (Top _ H). }
    destruct (shown_of k w f Hn Hin) as [(d & Hdf & ->)|(-> & m & file & src & He & ->)]; [left|right; split; [reflexivity|]; now exists m, file, src].
    pose proof (fun pl => output_ready x Ho Hw numpy fuel l c ms out Hl Hc Hf Hout ns k pl d Hk) as R.
    destruct w as [|n|n]; cbn [has_fn] in Hdf.
    - exists AtModule, d. split; [exact (R AtModule Hdf)|reflexivity].
    - exists InImpl, d. split; [|reflexivity]. apply (R InImpl). now exists n.
    - exists InTrait, d. split; [|reflexivity]. apply (R InTrait). destruct Hdf as (t & b & H1 & H2). now exists t, n, b.
  Qed.
  Theorem output_paths : forall its ns r w f p, read_file U (text odd out) = Some its -> inside_mod its ns r -> is_fn_of r w f -> In p (fn_leaves f) ->
    global p = true \/ p = [TWord (u "Some")] \/ p = rs "Vec::with_capacity" \/
    (w = OfModule /\ r_name f = u "pyo3_embed_python_source_code" /\ exists h q, p = TWord h :: q /\ In h (map u ["pyo3"; "str"]%string)).
  Proof.
    intros its ns r w f p Hi Hr Hin Hp. destruct (output_fn its ns r w f Hi Hr Hin) as (_ & [(pl & d & R & ->)|(-> & m & file & src & ->)]).
    - pose proof (proj1 (Forall_forall _ _) (ok_fn pl d R) p Hp) as K. destruct K as [K|[K|K]]; auto.
    - do 3 right. split; [reflexivity|]. split; [reflexivity|]. exact (embed_leaves m file src p Hp).
  Qed.
  Lemma named_used : forall ns k i, ns <> [] -> inside_decls (states_all plain out) ns k -> In i given_names -> named k i -> exists m m0, In m0 ms /\ within m m0 /\ ns = segs (m_name m) /\ in_use m i.
  Proof.
    intros ns r i Ns Hr Hi Hn. destruct (inside_states _ _ _ Hr out eq_refl) as (k & Hk & ->).
    assert (Ne : i <> u "pyo3_embed_python_source_code") by (intros ->; cbn in Hi; repeat (destruct Hi as [Hi|Hi]; [discriminate|]); destruct Hi).
    apply (named_from k i Ne) in Hn.
    destruct (scope_module x Ho Hw numpy fuel l c ms out Hl Hc Hf Hout ns k Hk) as [[-> K]|[(ex & ->)|(m & m0 & P & Hm0 & Hm & En & HP & ->)]].
    - now destruct Ns.
    - exfalso. destruct Hn as [[H|[H|[(b & H)|[(b & H)|(v & H & _)]]]]|[(d & H & _)|[H|(v & H & _)]]]; repeat (destruct H as [H|H]; [discriminate|]); destruct H.
    - exists m, m0. repeat (split; [assumption|]). destruct Hn as [Hn|Hn].
      + exact (hidden_in x HU Ho Hw numpy fuel l c ms out Hl Hc Hf Hout ns m m0 P i Hk Hm0 Hm En HP Hi Hn).
      + exact (hidden_value_in x Ho Hw numpy fuel l c ms out Hl Hc Hf Hout HU ns m m0 P i Hk Hm0 Hm En HP Hi Hn).
  Qed.
  Theorem output_bindable : forall ns k v, inside_decls (states_all plain out) ns k -> own_var v -> unbindable k v -> has_attribute x ns v.
  Proof.
    intros ns r v Hr Hi [_ Hn]. destruct (inside_states _ _ _ Hr out eq_refl) as (k & Hk & ->).
    assert (Hn' : In (GStruct v) k \/ exists v0, In (GUse v0) k /\ Spec_Names.bound_name v0 = Some v) by (destruct Hn as [Hn|Hn]; [left; now apply struct_from|right; now apply import_uses]).
    destruct (scope_module x Ho Hw numpy fuel l c ms out Hl Hc Hf Hout ns k Hk) as [[-> K]|[(ex & ->)|(m & m0 & P & Hm0 & Hm & En & HP & ->)]].
    - exfalso. destruct Hn' as [H|(v0 & H & _)]; destruct (K _ H) as [E|(n' & b' & E)]; discriminate.
    - exfalso. destruct Hn' as [H|(v0 & H & _)]; repeat (destruct H as [H|H]; [discriminate|]); destruct H.
    - rewrite En. destruct Hn' as [H|(v0 & H & E)].
      + destruct (struct_class x Ho numpy fuel l c ms Hc Hf m m0 P v Hm0 Hm HP) as (d & Hd & He); [intros t; now apply own_not_struct|exact H|].
        exact (item_attribute m m0 (AClass d) v (cl_name d) Hm0 Hm Hd eq_refl He).
      + destruct (use_import x HU Ho Hw numpy fuel l c ms out Hl Hc Hf Hout ns m m0 P v0 v Hk Hm0 Hm En HP H E) as (j & Hj & He).
        exact (item_attribute m m0 (AnImport j) v (im_target j) Hm0 Hm Hj eq_refl He).
  Qed.
  Theorem output_meaning : forall its ds ns r w f p h q k, read_file U (text odd out) = Some its -> read_decls U (text odd out) = Some ds ->
    inside_mod its ns r -> is_fn_of r w f -> In p (fn_leaves f) -> p = TWord h :: q -> inside_decls ds ns k -> named k h ->
    has_attribute x ns h \/ has_submodule x ns h.
  Proof.
    intros its ds ns r w f p h q k Hi Hd Hr Hin Hp -> Hk Hn. pose proof (output_decls x HU Ho Hw numpy fuel l c out Hl Hc Hv Hout odd Hs) as E0. fold U in E0. rewrite E0 in Hd. injection Hd as <-.
    destruct (output_fn its ns r w f Hi Hr Hin) as [Ns _]. 
    assert (Hg : In h given_names); [|destruct (named_used ns k h Ns Hk Hg Hn) as (m & m0 & Hm0 & Hm & -> & Hu); exact (used_python m m0 h Hm0 Hm Hu)].
    destruct (output_paths its ns r w f _ Hi Hr Hin Hp) as [K|[K|[K|(_ & _ & h' & q' & K & Kh)]]]; [discriminate K|injection K as -> _; cbn; tauto|injection K as -> _; cbn; tauto|].
    injection K as -> _. destruct Kh as [<-|[<-|[]]]; cbn; tauto.
  Qed.
  Theorem output_vars : forall its ns r w f v, read_file U (text odd out) = Some its -> inside_mod its ns r -> is_fn_of r w f -> In v (fn_binds f) -> own_var v.
  Proof.
    intros its ns r w f v Hi Hr Hin Hp. destruct (output_fn its ns r w f Hi Hr Hin) as (_ & [(pl & d & R & ->)|(-> & m & file & src & ->)]).
    - exact (proj1 (Forall_forall _ _) (own_fn pl d R) v Hp).
    - rewrite embed_binds in Hp. destruct Hp as [<-|[]]. left. cbn. tauto.
  Qed.
  Theorem output_binds : forall its ds ns r w f v k, read_file U (text odd out) = Some its -> read_decls U (text odd out) = Some ds ->
    inside_mod its ns r -> is_fn_of r w f -> In v (fn_binds f) -> inside_decls ds ns k -> unbindable k v ->
    has_attribute x ns v /\ ((exists t, v = u "p_" ++ t) \/ include_private (pe_cfg x) = true).
  Proof.
    intros its ds ns r w f v k Hi Hd Hr Hin Hp Hk Hn. pose proof (output_decls x HU Ho Hw numpy fuel l c out Hl Hc Hv Hout odd Hs) as E0. fold U in E0. rewrite E0 in Hd. injection Hd as <-.
    pose proof (output_vars its ns r w f v Hi Hr Hin Hp) as Ov. pose proof (output_bindable ns k v Hk Ov Hn) as A. split; [exact A|].
    destruct Ov as [Ov|Ov]; [|now left]. destruct A as (o & a & _ & _ & _ & Hh). destruct Hn as [Hne _]. destruct (include_private (pe_cfg x)) eqn:Ei; [now right|]. exfalso.
    destruct Ov as [<-|[<-|Ov]]; [now apply Hne|apply Hh; left; cbn; tauto|]. apply Hh. right. left. split; [exact Ei|]. left.
    destruct Ov as [<-|[<-|[<-|[]]]]; eexists; reflexivity.
  Qed.
End output.
