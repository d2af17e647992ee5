(** * Two runs, the second of which includes private names (C81) or submodules (C82) *)
From Verif Require Import Base Model_Ident Model_Path Model_Import Model_Config Model_Type Model_World Model_Function Model_Property Model_Class Model_Module Model_Parse Spec_Tree Spec_Api.

(** The same run with private names; sets may come in another order. *)
Definition with_private (cfg : config) : config :=
  mk_config (traverse_submodules cfg) (generate_preludes cfg) (generate_imports cfg) (generate_classes cfg) (generate_type_vars cfg) (generate_functions cfg)
    (generate_properties cfg) (generate_docs cfg) (blocklist_names cfg) true (generate_dependencies cfg) (suppress_python_stdout cfg) (suppress_python_stderr cfg).
Definition open_run (h : hash_order) (x : penv) : penv := mk_penv (pe_env x) (with_private (pe_cfg x)) h.

(** The same run with submodules *)
Definition with_submodules (cfg : config) : config :=
  mk_config true (generate_preludes cfg) (generate_imports cfg) (generate_classes cfg) (generate_type_vars cfg) (generate_functions cfg)
    (generate_properties cfg) (generate_docs cfg) (blocklist_names cfg) (include_private cfg) (generate_dependencies cfg) (suppress_python_stdout cfg) (suppress_python_stderr cfg).
Definition deep_run (h : hash_order) (x : penv) : penv := mk_penv (pe_env x) (with_submodules (pe_cfg x)) h.

(** The same class, but [c'] may have more members. Constructors and calls are in both. *)
Definition open_class (c c' : class) : Prop :=
  cl_name c = cl_name c' /\ cl_doc c = cl_doc c' /\ incl (cl_methods c) (cl_methods c') /\ incl (cl_props c) (cl_props c') /\
  forall f q i, In f (cl_methods c') -> segs (fn_name f) = q ++ [i] -> as_py i = u "__init__" \/ as_py i = u "__call__" -> In f (cl_methods c).
Definition open_item (it it' : item) : Prop := match it, it' with AClass c, AClass c' => open_class c c' | _, _ => it = it' end.
(** [opens m m']: the same module, but [m'] may have more of everything, at any depth. *)
Inductive opens : module -> module -> Prop :=
| opens_intro m m' : m_name m = m_name m' -> m_doc m = m_doc m' -> m_is_package m = m_is_package m' -> m_source m = m_source m' ->
    incl (m_prelude m) (m_prelude m') -> incl (m_imports m) (m_imports m') -> (forall c, In c (m_classes m) -> exists c', In c' (m_classes m') /\ open_class c c') ->
    incl (m_typevars m) (m_typevars m') -> incl (m_functions m) (m_functions m') -> incl (m_properties m) (m_properties m') ->
    (forall s, In s (m_subs m) -> exists s', In s' (m_subs m') /\ opens s s') -> opens m m'.

(** The name is not of the kind that the engine gives to accessors, constructors and calls. *)
Definition ordinary_end (p : path) : Prop := forall q i s, segs p = q ++ [i] -> In s (map u ["get_"; "set_"; "new"; "call"]%string) -> starts_with s (as_py i) = false.
(** The functions and methods that only the second forest has do not have such names. *)
Definition ordinary_additions (ms ms' : list module) : Prop :=
  (forall ch f, present ms ch -> holds ms' ch (AFunction f) -> holds ms ch (AFunction f) \/ ordinary_end (fn_name f)) /\
  (forall ch c c' f, holds ms ch (AClass c) -> holds ms' ch (AClass c') -> cl_name c = cl_name c' -> In f (cl_methods c') -> In f (cl_methods c) \/ ordinary_end (fn_name f)).
