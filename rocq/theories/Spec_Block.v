(** * Two runs, the second of which excludes more names (C79) *)
From Verif Require Import Base Model_Ident Model_Path Model_Import Model_Config Model_Type Model_IntoRs Model_World Model_Out Model_Function Model_Property Model_Class Model_Module
  Model_Parse Spec_Tree Spec_Api Spec_Privacy.

(** The same run with the names [b] excluded too; sets may come in another order. *)
Definition also_blocking (b : list str) (cfg : config) : config :=
  mk_config (traverse_submodules cfg) (generate_preludes cfg) (generate_imports cfg) (generate_classes cfg) (generate_type_vars cfg) (generate_functions cfg)
    (generate_properties cfg) (generate_docs cfg) (b ++ blocklist_names cfg) (include_private cfg) (generate_dependencies cfg)
    (suppress_python_stdout cfg) (suppress_python_stderr cfg).
Definition blocked_run (b : list str) (h : hash_order) (x : penv) : penv := mk_penv (pe_env x) (also_blocking b (pe_cfg x)) h.

(** ** What is left of a module *)
Definition unblocked (b : list str) (i : ident) : bool := negb (existsb (str_eqb (as_py i)) b).
Definition called_unblocked (b : list str) (p : path) : bool := match rev (segs p) with i :: _ => unblocked b i | [] => true end.
(** Constructors and calls cannot be excluded. *)
Definition member_unblocked (b : list str) (p : path) : bool :=
  called_unblocked b p || match rev (segs p) with i :: _ => str_eqb (as_py i) (u "__init__") || str_eqb (as_py i) (u "__call__") | [] => false end.
Definition without_class (b : list str) (c : class) : class :=
  mk_class (cl_name c) (filter (fun f => member_unblocked b (fn_name f)) (cl_methods c)) (filter (fun p => member_unblocked b (pr_name p)) (cl_props c)) (cl_doc c).
(** An import is excluded by any name in the path of what it imports. *)
Definition import_unblocked (b : list str) (i : import) : bool := called_unblocked b (im_target i) && forallb (unblocked b) (segs (im_origin i)).
(** What is left of an item *)
Definition without (b : list str) (it : item) : option item :=
  match it with
  | AnExport i => if unblocked b i then Some it else None
  | AnImport i => if import_unblocked b i then Some it else None
  | AClass c => if called_unblocked b (cl_name c) then Some (AClass (without_class b c)) else None
  | ATypeVar p => if called_unblocked b p then Some it else None
  | AFunction f => if called_unblocked b (fn_name f) then Some it else None
  | AProperty p => if called_unblocked b (pr_name p) then Some it else None
  end.
(** [less b m m']: [m] is [m'] without the names [b]; the order of submodules is open. *)
Inductive less (b : list str) : module -> module -> Prop :=
| less_intro m m' : m_name m = m_name m' -> m_doc m = m_doc m' -> m_is_package m = m_is_package m' -> m_source m = m_source m' ->
    m_prelude m = filter (unblocked b) (m_prelude m') ->
    m_imports m = filter (import_unblocked b) (m_imports m') ->
    m_classes m = map (without_class b) (filter (fun c => called_unblocked b (cl_name c)) (m_classes m')) ->
    m_typevars m = filter (called_unblocked b) (m_typevars m') ->
    m_functions m = filter (fun f => called_unblocked b (fn_name f)) (m_functions m') ->
    m_properties m = filter (fun p => called_unblocked b (pr_name p)) (m_properties m') ->
    (forall s, In s (m_subs m) -> exists s', In s' (m_subs m') /\ called_unblocked b (m_name s') = true /\ less b s s') ->
    (forall s', In s' (m_subs m') -> called_unblocked b (m_name s') = true -> exists s, In s (m_subs m) /\ less b s s') ->
    less b m m'.

(** Under the name of a submodule, a package has this submodule, or something of its own. *)
Definition own_submodules (w : world) : Prop := forall o s a, is_module w o -> In s (w_iter_modules w o) -> w_getattr w o s = Some a ->
  (module_text w a = [] /\ attr_text w a "__name__" = Some (dot (w_name w o) s)) \/
  module_text w a = w_name w o \/
  (tf_is_module (w_type w a) = false /\ tf_is_class (w_type w a) = false /\ tf_is_function (w_type w a) = false /\ tf_is_method (w_type w a) = false).
