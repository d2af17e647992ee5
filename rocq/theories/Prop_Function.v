(** * Property theorems: functions and methods (C24-C30, C62) *)
From Verif Require Import Base Model_Ident Model_Path Model_Import Model_Text Model_Config Model_Type Model_IntoRs Model_World Model_Out Model_Function
  Spec_Path Spec_Names Spec_Call Proof_Base Proof_Ident Proof_Path Proof_IntoRs Proof_Call Proof_Function Proof_Fresh Proof_Method Proof_Kind.

(** ** A small world for the examples: object 1 is the callable, 0 everything else. *)
Definition no_facts : type_facts := mk_type_facts [] None false false false false false (fun _ => false) [].
Definition ex_world (sg : option signature) (st : option storage) : world :=
  mk_world (fun m => if str_eqb m (u "m") then Some 0%N else None) (fun _ _ => Some 0%N) (fun _ => u "None") (fun _ => false)
    (fun _ => []) (fun _ => no_facts) (fun o => if (o =? 1)%N then sg else None) (fun _ _ => st) (fun _ => []) (fun _ => None) (fun _ => []).
Definition ex_env (sg : option signature) (st : option storage) : env := mk_env (ex_world sg st) false uni_ascii.
Definition ex_gctx : gctx := mk_gctx default_config (fun m => str_eqb m (u "m")) (mk_ctx false false uni_ascii []).
Definition pp (n : String.string) (k : pkind) : pyparam := mk_pyparam (u n) k false.
Definition sig_for (s : list pyparam) : signature :=
  mk_signature (map (fun p => mk_sig_param (pp_name p) (kind_number (pp_kind p)) None (pp_default p)) s) None.
Definition ex_fn : path := mk_path false [u "m"; u "f"].
Definition ex_cls : path := mk_path false [u "m"; u "C"].
Definition ex_meth : path := mk_path false [u "m"; u "C"; u "f"].
(** Parse and generate in one go. *)
Definition binding (s : list pyparam) (st : option storage) (name : path) (t : ftype) : outcome fn_impl :=
  let! f := fn_parse (ex_env (Some (sig_for s)) st) 1 name t in fn_generate ex_gctx [] f.
Definition the_fn (i : outcome fn_impl) : option fn_def :=
  match i with
  | Ok i => match filter (fun x => match x with GFn _ => true | _ => false end) (frags_of i) with GFn d :: _ => Some d | _ => None end
  | _ => None
  end.
Definition params_of (i : outcome fn_impl) : option (list ident) := option_map (fun d => map fst (k_params (f_contract d))) (the_fn i).

Ltac ordered := cbn [map kinds_ordered pp_kind pp]; repeat split; first [exact I | left; cbn; lia | right; repeat split; discriminate].

(** ** C24
    The full claim has no restriction on parameter names. Parameters called [_] are dropped by the
    parser ([C24_underscore_refuted]); a parameter called [self] that is neither the receiver nor an
    ordinary first parameter turns the whole list into [*args], [**kwargs]. *)
Theorem C24_function_arguments_partial : forall V e o name typ sg s f g scope impl def (l : list (rarg V)), uni_ok (e_uni e) ->
  w_signature (e_world e) o = Some sg -> describes sg s -> sig_ok s -> names_ok (e_uni e) s ->
  no_name "_" s -> no_name "__unknown_self__" s ->
  no_name "self" (tl s) -> (forall p, In p s -> pp_name p = u "self" -> positional (pp_kind p) = true) ->
  fn_parse e o name typ = Ok f -> has_receiver (fn_typ f) = false ->
  fn_generate g scope f = Ok impl -> In (GFn def) (frags_of impl) ->
  Forall2 (suits s) s l ->
  exists pos kw, python_call def l = Some (pos, kw) /\ bind_args s pos kw = Some (combine (map pp_name s) (map meant l)).
Proof. exact @function_binds. Qed.
Print Assumptions C24_function_arguments_partial.

Theorem C24_method_arguments_partial : forall V e o name typ sg r s f g scope impl def (v : V) (l : list (rarg V)), uni_ok (e_uni e) ->
  w_signature (e_world e) o = Some sg -> describes sg (r :: s) -> sig_ok (r :: s) -> names_ok (e_uni e) (r :: s) ->
  no_name "_" (r :: s) -> no_name "__unknown_self__" s -> no_name "self" s -> positional (pp_kind r) = true ->
  fn_parse e o name typ = Ok f -> has_receiver (fn_typ f) = true ->
  fn_generate g scope f = Ok impl -> In (GFn def) (frags_of impl) ->
  Forall2 (suits (r :: s)) s l ->
  exists pos kw, python_call def l = Some (pos, kw) /\
    bind_args (r :: s) (v :: pos) kw = Some ((pp_name r, BOne v) :: combine (map pp_name s) (map meant l)).
Proof. exact @method_binds. Qed.
Print Assumptions C24_method_arguments_partial.

Definition ex_sig : list pyparam :=
  [pp "a" PositionalOnly; pp "type" PositionalOrKeyword; pp "rest" VarPositional; pp "key" KeywordOnly; pp "kw" VarKeyword].
Definition ex_args : list (rarg nat) := [AOne 1; AOne 2; ATuple [3; 4]; AOne 5; AOptDict (Some [(u "z", 6)])].
Lemma ascii_identifier : forall s, lex_ident_plain uni_ascii s = true -> py_identifier uni_ascii s.
Proof. intros s H. now apply lex_ident_plain_iff. Qed.
Example C24_ex_function : exists def,
  the_fn (binding ex_sig None ex_fn FFunction) = Some def /\
  python_call def ex_args = Some ([1; 2; 3; 4], [(u "z", 6); (u "key", 5)]) /\
  bind_args ex_sig [1; 2; 3; 4] [(u "z", 6); (u "key", 5)] =
    Some [(u "a", BOne 1); (u "type", BOne 2); (u "rest", BTuple [3; 4]); (u "key", BOne 5); (u "kw", BDict [(u "z", 6)])].
Proof. eexists. split; [vm_compute; reflexivity|]. split; vm_compute; reflexivity. Qed.
Example C24_ex_hypotheses : describes (sig_for ex_sig) ex_sig /\ sig_ok ex_sig /\ names_ok uni_ascii ex_sig /\
  no_name "_" ex_sig /\ no_name "self" ex_sig /\ Forall2 (suits ex_sig) ex_sig ex_args.
Proof.
  split; [repeat constructor|]. split; [split; [ordered|repeat (constructor; [cbn; intuition congruence|]); constructor]|].
  split; [intros p Hp; apply ascii_identifier; cbn in Hp; intuition (subst; reflexivity)|].
  split; [intros p Hp; cbn in Hp; intuition (subst; discriminate)|]. split; [intros p Hp; cbn in Hp; intuition (subst; discriminate)|].
  repeat constructor; cbn; intuition (subst; reflexivity || easy).
Qed.
Example C24_ex_method : exists def,
  the_fn (binding (pp "this" PositionalOrKeyword :: ex_sig) (Some StoredOther) ex_meth (FMethod ex_cls MUnknown)) = Some def /\
  f_disp def = DSelf /\ python_call def ex_args = Some ([1; 2; 3; 4], [(u "z", 6); (u "key", 5)]).
Proof. eexists. split; [vm_compute; reflexivity|]. split; vm_compute; reflexivity. Qed.

(** [def f(_, x)]: the Rust function has one parameter, and its value becomes [_]. *)
Theorem C24_underscore_refuted : exists s def pos kw,
  sig_ok s /\ names_ok uni_ascii s /\ s = [pp "_" PositionalOrKeyword; pp "x" PositionalOrKeyword] /\
  the_fn (binding s None ex_fn FFunction) = Some def /\
  map fst (k_params (f_contract def)) = [u "p_x"] /\
  python_call def [AOne 7] = Some (pos, kw) /\ bind_args s pos kw = None.
Proof.
  exists [pp "_" PositionalOrKeyword; pp "x" PositionalOrKeyword]. eexists. exists [7], []. split; [|split].
  - split; [ordered|]. repeat (constructor; [cbn; intuition congruence|]). constructor.
  - intros p Hp. apply ascii_identifier. cbn in Hp. intuition (subst; reflexivity).
  - split; [reflexivity|]. split; [vm_compute; reflexivity|]. repeat split; vm_compute; reflexivity.
Qed.
Print Assumptions C24_underscore_refuted.

(** ** C25 *)
Theorem C25_only_receiver_dropped_partial : forall e o name typ sg s f g scope impl def, uni_ok (e_uni e) ->
  w_signature (e_world e) o = Some sg -> describes sg s -> names_ok (e_uni e) s -> no_name "_" s -> no_name "self" (tl s) ->
  fn_parse e o name typ = Ok f -> has_receiver (fn_typ f) = true ->
  fn_generate g scope f = Ok impl -> In (GFn def) (frags_of impl) ->
  exists r s', s = r :: s' /\ map fst (k_params (f_contract def)) = map (fun p => u "p_" ++ pp_name p) s'.
Proof. exact receiver_dropped. Qed.
Print Assumptions C25_only_receiver_dropped_partial.

Theorem C25_nothing_dropped_partial : forall e o name typ sg s f g scope impl def, uni_ok (e_uni e) ->
  w_signature (e_world e) o = Some sg -> describes sg s -> names_ok (e_uni e) s -> no_name "_" s -> no_name "self" s ->
  fn_parse e o name typ = Ok f -> has_receiver (fn_typ f) = false ->
  fn_generate g scope f = Ok impl -> In (GFn def) (frags_of impl) ->
  map fst (k_params (f_contract def)) = map (fun p => u "p_" ++ pp_name p) s.
Proof. exact nothing_dropped. Qed.
Print Assumptions C25_nothing_dropped_partial.

Example C25_ex :
  params_of (binding (pp "this" PositionalOrKeyword :: ex_sig) (Some StoredOther) ex_meth (FMethod ex_cls MUnknown)) =
    Some (map u ["p_a"; "p_type"; "p_rest"; "p_key"; "p_kw"]%string) /\
  params_of (binding ex_sig (Some StoredStaticMethod) ex_meth (FMethod ex_cls MUnknown)) =
    Some (map u ["p_a"; "p_type"; "p_rest"; "p_key"; "p_kw"]%string).
Proof. split; vm_compute; reflexivity. Qed.

(** [def f( *args, **kw)] as an instance method: [*args] is taken for the receiver. *)
Theorem C25_variadic_receiver_refuted : exists s, s = [pp "args" VarPositional; pp "kw" VarKeyword] /\
  params_of (binding s (Some StoredOther) ex_meth (FMethod ex_cls MUnknown)) = Some [u "p_kw"].
Proof. eexists. split; [reflexivity|]. vm_compute. reflexivity. Qed.
Print Assumptions C25_variadic_receiver_refuted.

(** [def __init__(_, x)]: both are dropped. *)
Theorem C25_underscore_receiver_refuted : exists s, s = [pp "_" PositionalOrKeyword; pp "x" PositionalOrKeyword] /\
  params_of (binding s None ex_meth (FMethod ex_cls MConstructor)) = Some [].
Proof. eexists. split; [reflexivity|]. vm_compute. reflexivity. Qed.
Print Assumptions C25_underscore_receiver_refuted.

(** ** C26 *)
Theorem C26_kind_from_storage_partial : forall e o name cp sg s f st r l n, uni_ok (e_uni e) ->
  w_signature (e_world e) o = Some sg -> describes sg s -> names_ok (e_uni e) s ->
  segs cp = r :: l -> leading_colon cp = false -> as_py r <> u "super" -> last_opt (segs name) = Some n ->
  stores (e_world e) (as_py r) (map as_py l) (as_py n) st ->
  (exists p, In p s /\ pp_name p <> u "_") ->
  (st <> StoredOther -> no_name "self" s) ->
  fn_parse e o name (FMethod cp MUnknown) = Ok f ->
  fn_typ f = FMethod cp match st with StoredClassMethod => MClass | StoredStaticMethod => MStatic | StoredOther => MInstance end.
Proof. exact kind_from_storage. Qed.
Print Assumptions C26_kind_from_storage_partial.

Theorem C26_parse_succeeds_partial : forall e o name typ sg doc ps0 rt,
  w_signature (e_world e) o = Some sg -> read_docstring (e_world e) o = Ok doc ->
  mapM (read_param e) (sig_params sg) = Ok ps0 -> read_ann (e_dbg e) (sig_return sg) = Ok rt ->
  (forall cp m, typ = FMethod cp m -> segs cp <> []) -> segs name <> [] ->
  (forall cp, typ = FMethod cp MConstructor \/ typ = FMethod cp MCallable ->
     exists p, In p ps0 /\ as_rs (p_name p) <> u "r#_") ->
  exists f, fn_parse e o name typ = Ok f.
Proof. exact parse_succeeds. Qed.
Print Assumptions C26_parse_succeeds_partial.

Definition kind_found (s : list pyparam) (st : option storage) (t : ftype) : outcome ftype :=
  omap fn_typ (fn_parse (ex_env (Some (sig_for s)) st) 1 ex_meth t).
Example C26_ex :
  kind_found ex_sig (Some StoredClassMethod) (FMethod ex_cls MUnknown) = Ok (FMethod ex_cls MClass) /\
  kind_found ex_sig (Some StoredStaticMethod) (FMethod ex_cls MUnknown) = Ok (FMethod ex_cls MStatic) /\
  kind_found ex_sig (Some StoredOther) (FMethod ex_cls MUnknown) = Ok (FMethod ex_cls MInstance) /\
  stores (ex_world (Some (sig_for ex_sig)) (Some StoredClassMethod)) (u "m") [u "C"] (u "f") StoredClassMethod.
Proof.
  repeat split; try (vm_compute; reflexivity). exists 0%N, 0%N. repeat split. econstructor; [reflexivity|constructor].
Qed.

(** A constructor without parameters makes the engine panic. *)
Theorem C26_empty_constructor_panics_refuted : kind_found [] None (FMethod ex_cls MConstructor) = Panic PIndex.
Proof. vm_compute. reflexivity. Qed.
Print Assumptions C26_empty_constructor_panics_refuted.
(** A static method whose first parameter is called [self] is taken for an instance method. *)
Theorem C26_static_self_refuted :
  kind_found [pp "self" PositionalOrKeyword] (Some StoredStaticMethod) (FMethod ex_cls MUnknown) = Ok (FMethod ex_cls MInstance).
Proof. vm_compute. reflexivity. Qed.
Print Assumptions C26_static_self_refuted.
(** A method that is inherited (not in the class's own dictionary) and does not call its receiver [self]. *)
Theorem C26_inherited_refuted :
  kind_found [pp "this" PositionalOrKeyword; pp "x" PositionalOrKeyword] None (FMethod ex_cls MUnknown) = Ok (FMethod ex_cls MStatic).
Proof. vm_compute. reflexivity. Qed.
Print Assumptions C26_inherited_refuted.

(** ** C27 *)
Theorem C27_class_dispatch : forall g scope f impl def cp m, fn_typ f = FMethod cp m -> (m = MClass \/ m = MStatic \/ m = MConstructor) ->
  fn_generate g scope f = Ok impl -> In (GFn def) (frags_of impl) ->
  (forall s, In s (segs cp) -> as_py s <> u "super") ->
  exists lk n a, f_disp def = DImport lk /\
    join (u ".") (lk_import lk :: lk_attrs lk) = join (u ".") (map as_py (segs cp)) /\
    last_opt (segs (fn_name f)) = Some n /\
    f_body def = if match m with MConstructor => true | _ => false end then BCall a else BCallMethod (as_py n) a.
Proof.
  intros g scope f impl def cp m Ht Hm Hg Hin Hs.
  destruct (class_dispatch g scope f impl def cp m Ht Hm Hg Hin) as (lk & n & Hd & Hq & Hn & a & Hb).
  exists lk, n, a. repeat split; try easy. now apply (import_quote_denotes (g_imp g)).
Qed.
Print Assumptions C27_class_dispatch.

Theorem C27_class_path_is_the_class_partial : forall e o name cp sg s f st r l n, uni_ok (e_uni e) ->
  w_signature (e_world e) o = Some sg -> describes sg s -> names_ok (e_uni e) s ->
  segs cp = r :: l -> leading_colon cp = false -> as_py r <> u "super" -> last_opt (segs name) = Some n ->
  stores (e_world e) (as_py r) (map as_py l) (as_py n) st ->
  (exists p, In p s /\ pp_name p <> u "_") ->
  (st <> StoredOther -> no_name "self" s) ->
  fn_parse e o name (FMethod cp MUnknown) = Ok f -> exists m, fn_typ f = FMethod cp m.
Proof.
  intros e o name cp sg s f st r l n HU Hs Hd Hn Hcp Hlc Hr Hnm Hst Hne Hself H.
  rewrite (kind_from_storage e o name cp sg s f st r l n); try easy. eexists. reflexivity.
Qed.
Print Assumptions C27_class_path_is_the_class_partial.

Theorem C27_function_dispatch : forall g scope f impl def, (fn_typ f = FFunction \/ fn_typ f = FClosure) ->
  fn_generate g scope f = Ok impl -> In (GFn def) (frags_of impl) ->
  exists p lk n a, path_parent (fn_name f) = Some p /\ f_disp def = DImport lk /\ import_quote (g_imp g) p = Ok lk /\
    last_opt (segs (fn_name f)) = Some n /\ f_body def = BCallMethod (as_py n) a.
Proof. exact function_dispatch. Qed.
Print Assumptions C27_function_dispatch.

Theorem C27_instance_dispatch : forall g scope f impl def cp m, fn_typ f = FMethod cp m -> (m = MInstance \/ m = MCallable) ->
  fn_generate g scope f = Ok impl -> In (GFn def) (frags_of impl) ->
  f_disp def = DSelf /\ k_self (f_contract def) = true /\ f_let_py def = true.
Proof. exact self_dispatch. Qed.
Print Assumptions C27_instance_dispatch.

(** The constructor yields the object; everything else what its return annotation says. *)
Theorem C27_result : forall g scope f impl def, fn_generate g scope f = Ok impl -> In (GFn def) (frags_of impl) ->
  exists rt, into_rs_owned (g_cx g) (fn_ret f) = Ok rt /\
    k_ret (f_contract def) = if match fn_typ f with FMethod _ MConstructor => true | _ => false end then RetSelf else RetType rt.
Proof. exact result_type. Qed.
Print Assumptions C27_result.

Example C27_ex : exists def, the_fn (binding ex_sig (Some StoredClassMethod) ex_meth (FMethod ex_cls MUnknown)) = Some def /\
  f_disp def = DImport (mk_lookup (u "m") [u "C"]) /\ exists a, f_body def = BCallMethod (u "f") a.
Proof. eexists. split; [vm_compute; reflexivity|]. split; [reflexivity|]. eexists. reflexivity. Qed.

(** A method without any parameter is made static, with its own path as the class. *)
Theorem C27_empty_method_refuted : exists def a, the_fn (binding [] (Some StoredOther) ex_meth (FMethod ex_cls MUnknown)) = Some def /\
  f_disp def = DImport (mk_lookup (u "m") [u "C"; u "f"]) /\ f_body def = BCallMethod (u "f") a.
Proof. eexists. eexists. split; [vm_compute; reflexivity|]. split; reflexivity. Qed.
Print Assumptions C27_empty_method_refuted.

(** ** C28 *)
Theorem C28_binding_exists_partial : forall e o name typ f g scope n id, uni_ok (g_uni g) ->
  w_signature (e_world e) o = None -> fn_parse e o name typ = Ok f ->
  last_opt (segs name) = Some n -> fn_ident (g_uni g) n = Some id ->
  match typ with
  | FFunction | FClosure => 2 <= length (segs name)
  | FMethod cp (MClass | MStatic | MConstructor) => segs cp <> []
  | FMethod _ (MInstance | MCallable) => True
  | FMethod _ MUnknown => False
  end ->
  exists impl def, fn_generate g scope f = Ok impl /\ In (GFn def) (frags_of impl).
Proof.
  intros e o name typ f g scope n id HU Hs Hp Hn Hid Hd.
  destruct (parse_unsigned e o name typ f Hs Hp) as (E1 & E2 & E3 & E4).
  apply (generic_generates g scope f n id); try easy; [now rewrite E1|]. unfold dispatchable. now rewrite E1, E2.
Qed.
Print Assumptions C28_binding_exists_partial.

Theorem C28_passes_everything : forall V e o name typ f g scope impl def (l : list V) d,
  w_signature (e_world e) o = None -> fn_parse e o name typ = Ok f ->
  fn_generate g scope f = Ok impl -> In (GFn def) (frags_of impl) ->
  k_params (f_contract def) = [(u "p_args", into_py_of "PyTuple"); (u "p_kwargs", r_option (bound_of "PyDict"))] /\
  python_call def [ATuple l; AOptDict (Some d)] = Some (l, d) /\ python_call def [ATuple l; AOptDict None] = Some (l, []).
Proof.
  intros V e o name typ f g scope impl def l d Hs Hp. destruct (parse_unsigned e o name typ f Hs Hp) as (_ & _ & E3 & _). now apply generic_passes.
Qed.
Print Assumptions C28_passes_everything.

Definition unsigned (name : path) (t : ftype) : outcome fn_impl :=
  let! f := fn_parse (ex_env None None) 1 name t in fn_generate ex_gctx [] f.
Example C28_ex : params_of (unsigned ex_fn FFunction) = Some [u "p_args"; u "p_kwargs"] /\
  params_of (unsigned ex_meth (FMethod ex_cls MConstructor)) = Some [u "p_args"; u "p_kwargs"].
Proof. split; vm_compute; reflexivity. Qed.
(** Other methods without a signature get no binding at all. *)
Theorem C28_method_refuted : unsigned ex_meth (FMethod ex_cls MUnknown) = Ok (IMethod [] []).
Proof. vm_compute. reflexivity. Qed.
Print Assumptions C28_method_refuted.

(** ** C29 *)
Theorem C29_valid : forall g scope f impl def x, fn_generate g scope f = Ok impl -> In (GFn def) (frags_of impl) ->
  In x (map fst (k_params (f_contract def))) ->
  syn_ident_ok (g_uni g) x = true /\ starts_with (u "p_") x = true /\
  ~ In x (map u ["self"; "py"; "__internal__args"; "__internal__kwargs"; "__internal__arg"]%string).
Proof.
  intros g scope f impl def x Hg Hin Hx. destruct (declared_params _ _ _ _ _ Hg Hin) as [E _]. rewrite E in Hx.
  apply in_map_iff in Hx as (p & <- & Hp).
  destruct (fn_generate_inv _ _ _ _ _ Hg Hin) as (name & id & preps & tys & rt & public & d & pos & kw & _ & _ & _ & _ & _ & Hok & _).
  split; [now apply Hok|]. split; [reflexivity|]. cbn. intuition discriminate.
Qed.
Print Assumptions C29_valid.

Theorem C29_distinct_partial : forall e o name typ sg s f g scope impl def, uni_ok (e_uni e) ->
  w_signature (e_world e) o = Some sg -> describes sg s -> sig_ok s -> names_ok (e_uni e) s ->
  no_name "_" s -> no_name "__unknown_self__" s -> no_name "self" (tl s) ->
  (forall p, In p s -> pp_name p = u "self" -> positional (pp_kind p) = true) ->
  fn_parse e o name typ = Ok f -> fn_generate g scope f = Ok impl -> In (GFn def) (frags_of impl) ->
  NoDup (map fst (k_params (f_contract def))) /\ map fst (f_prep def) = map fst (k_params (f_contract def)) /\
  (forall x, In x (body_vars (f_body def)) <-> In x (map fst (k_params (f_contract def)))).
Proof.
  intros e o name typ sg s f g scope impl def HU Hs Hd [Hord Hnd] Hn Hu Hus Ht Hself Hp Hg Hin.
  assert (Hk : exists s', Forall2 (kept_as (e_uni e)) s' (fn_params f) /\ NoDup (map pp_name s') /\ kinds_ordered (map pp_kind s') /\ no_name "__unknown_self__" s').
  { destruct (has_receiver (fn_typ f)) eqn:Er.
    - destruct (parse_receiver e o name typ sg s f HU Hs Hd Hn Hu Ht Hp Er) as (r & s' & -> & Hk). exists s'. split; [easy|].
      cbn [map] in Hnd, Hord. inversion Hnd; subst. split; [easy|]. split; [now apply ordered_tail in Hord|]. intros p Hp'. apply Hus. now right.
    - exists s. split; [|easy]. now apply (parse_no_receiver e o name typ sg s f). }
  destruct Hk as (s' & Hk & Hnd' & Hord' & Hus'). destruct (declared_params _ _ _ _ _ Hg Hin) as [E1 E2].
  split; [rewrite E1; now apply (pids_distinct (e_uni e) s')|]. split; [congruence|].
  intros x. apply (body_uses_declared g scope f impl def x); [|easy|easy]. now rewrite (kept_kinds _ _ _ Hk).
Qed.
Print Assumptions C29_distinct_partial.

(** A parameter named [self] after the first one: the binding takes any arguments instead. *)
Theorem C29_self_elsewhere : forall V e o name typ sg s f g scope impl def (l : list V) d, uni_ok (e_uni e) ->
  w_signature (e_world e) o = Some sg -> describes sg s -> sig_ok s -> names_ok (e_uni e) s -> no_name "_" s ->
  (exists p, In p (tl s) /\ pp_name p = u "self") ->
  fn_parse e o name typ = Ok f -> fn_generate g scope f = Ok impl -> In (GFn def) (frags_of impl) ->
  map fst (k_params (f_contract def)) = map u ["p_args"; "p_kwargs"]%string /\
  python_call def [ATuple l; AOptDict (Some d)] = Some (l, d).
Proof.
  intros V e o name typ sg s f g scope impl def l d HU Hs Hd [_ Hnd] Hn Hu Hx Hp Hg Hin.
  destruct (generic_passes g scope f impl def l d (parse_self_elsewhere e o name typ sg s f HU Hs Hd Hnd Hn Hu Hx Hp) Hg Hin) as (E1 & E2 & _).
  now rewrite E1.
Qed.
Print Assumptions C29_self_elsewhere.
Example C29_self_elsewhere_ex : params_of (binding [pp "a" PositionalOrKeyword; pp "self" PositionalOrKeyword] None ex_fn FFunction) =
  Some (map u ["p_args"; "p_kwargs"]%string).
Proof. vm_compute. reflexivity. Qed.

(** Every Python name but the forbidden ones gives a function name: its Rust spelling, or a
    replacement when Rust has none. *)
Theorem C29_function_name : forall U n, uni_ok U -> py_identifier U n ->
  (In n (map u ["get_type"; "obj"; "py"; "repr"; "str"]%string) -> fn_ident U (ident_from_py U n) = None) /\
  (~ In n (map u ["get_type"; "obj"; "py"; "repr"; "str"]%string) -> ~ rust_unspellable n -> fn_ident U (ident_from_py U n) = Some (ident_from_py U n)) /\
  (rust_unspellable n -> exists id, fn_ident U (ident_from_py U n) = Some id /\ starts_with (u "f_") id = true /\ syn_ident_ok U id = true).
Proof. exact function_name. Qed.
Print Assumptions C29_function_name.
Example C29_function_name_ex : fn_ident uni_ascii (ident_from_py uni_ascii (u "Self")) = Some (u "f_Self") /\
  fn_ident uni_ascii (ident_from_py uni_ascii (u "type")) = Some (u "r#type") /\ fn_ident uni_ascii (u "str") = None.
Proof. repeat split; vm_compute; reflexivity. Qed.

Example C29_ex : exists def, the_fn (binding ex_sig None ex_fn FFunction) = Some def /\
  map fst (k_params (f_contract def)) = map u ["p_a"; "p_type"; "p_rest"; "p_key"; "p_kw"]%string /\
  body_vars (f_body def) = map u ["p_a"; "p_type"; "p_rest"; "p_kw"; "p_key"]%string.
Proof. eexists. split; [vm_compute; reflexivity|]. split; vm_compute; reflexivity. Qed.
(** The replacement name for [self] may already be taken. *)
Theorem C29_renamed_self_refuted :
  params_of (binding [pp "self" PositionalOrKeyword; pp "__unknown_self__" PositionalOrKeyword] None ex_fn FFunction) =
  Some [u "p___unknown_self__"; u "p___unknown_self__"].
Proof. vm_compute. reflexivity. Qed.
Print Assumptions C29_renamed_self_refuted.

(** ** C30 *)
Theorem C30_search_terminates : forall U base scope, In base ["call"; "new"]%string -> exists c, fresh U base scope = Ok c.
Proof.
  intros U base scope Hb. apply fresh_ok. intros s. now destruct Hb as [<-|[<-|[]]].
Qed.
Print Assumptions C30_search_terminates.

Theorem C30_first_free : forall U base scope c, uni_ok U -> In base ["call"; "new"]%string -> fresh U base scope = Ok c ->
  exists j, c = u base ++ match j with O => [] | _ => dec (N.of_nat j) end /\ syn_ident_ok U c = true /\ ~ In c scope /\
    forall k, k < j -> In (u base ++ match k with O => [] | _ => dec (N.of_nat k) end) scope.
Proof.
  intros U base scope c HU Hb H. destruct (fresh_spec U base scope c H) as (j & -> & Hn & Hk). exists j.
  assert (Hid : py_identifier U (u base)).
  { destruct HU as (Hs & Hcn & _). destruct Hb as [<-|[<-|[]]]; eexists; eexists; (split; [reflexivity|]); (split; [right; now rewrite Hs|]);
      cbn [In]; intuition subst; rewrite Hcn; easy. }
  assert (Hc : forall i, candidate U base i = u base ++ suffix_of i /\ syn_ident_ok U (candidate U base i) = true).
  { intros i. apply candidate_plain; [easy|easy| |]; destruct Hb as [<-|[<-|[]]]; reflexivity. }
  destruct (Hc j) as [E1 E2]. split; [exact E1|]. split; [exact E2|]. split; [exact Hn|].
  intros k Hkj. assert (E := proj1 (Hc k)). unfold suffix_of in E. rewrite <- E. now apply Hk.
Qed.
Print Assumptions C30_first_free.

Theorem C30_constructor_and_call_names : forall g scope f impl def cp m, uni_ok (g_uni g) -> fn_typ f = FMethod cp m ->
  (m = MConstructor \/ m = MCallable) -> fn_generate g scope f = Ok impl -> In (GFn def) (frags_of impl) ->
  ~ In (k_name (f_contract def)) scope /\ syn_ident_ok (g_uni g) (k_name (f_contract def)) = true.
Proof.
  intros g scope f impl def cp m HU Ht Hm Hg Hin.
  destruct (fn_generate_inv _ _ _ _ _ Hg Hin) as (name & id & preps & tys & rt & public & d & pos & kw & _ & _ & _ & _ & _ & _ & Hk & _).
  rewrite Ht in Hk. destruct Hm as [->| ->]; cbn [gen_contract] in Hk; apply bind_Ok in Hk as (c & Hc & Hk); apply bind_Ok in Hk as (n & Hn & Hk);
    injection Hk as _ <-; cbn [k_name]; unfold ident_to_syn, as_rs in Hn; destruct (syn_ident_ok (g_uni g) c) eqn:E; try easy; injection Hn as <-;
    (split; [|easy]); apply fresh_spec in Hc as (j & _ & H & _); exact H.
Qed.
Print Assumptions C30_constructor_and_call_names.

Example C30_ex : fresh uni_ascii "new" (map u ["new"; "x"; "new2"; "new1"]%string) = Ok (u "new3").
Proof. vm_compute. reflexivity. Qed.

(** ** C62 *)
Theorem C62_caller_dict_untouched_iff : forall g scope f impl def, fn_generate g scope f = Ok impl -> In (GFn def) (frags_of impl) ->
  (mutated (f_body def) = [] <->
   ~ ((exists p, In p (fn_params f) /\ p_kind p = KeywordOnly) /\ (exists p, In p (fn_params f) /\ p_kind p = VarKeyword))).
Proof. exact mutated_spec. Qed.
Print Assumptions C62_caller_dict_untouched_iff.

Theorem C62_keyword_only_refuted : exists def, the_fn (binding ex_sig None ex_fn FFunction) = Some def /\ mutated (f_body def) = [u "p_kw"].
Proof. eexists. split; vm_compute; reflexivity. Qed.
Print Assumptions C62_keyword_only_refuted.
Example C62_ex : exists def, the_fn (binding [pp "a" PositionalOnly; pp "kw" VarKeyword] None ex_fn FFunction) = Some def /\ mutated (f_body def) = [].
Proof. eexists. split; vm_compute; reflexivity. Qed.
