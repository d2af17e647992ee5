(** * Two runs, the second of which generates dependencies (C80) *)
From Verif Require Import Base Model_Ident Model_Path Model_Import Model_Config Model_Type Model_World Model_Function Model_Property Model_Class Model_Module Model_Parse.

(** The same run with dependencies *)
Definition with_dependencies (cfg : config) : config :=
  mk_config (traverse_submodules cfg) (generate_preludes cfg) (generate_imports cfg) (generate_classes cfg) (generate_type_vars cfg) (generate_functions cfg)
    (generate_properties cfg) (generate_docs cfg) (blocklist_names cfg) (include_private cfg) true (suppress_python_stdout cfg) (suppress_python_stderr cfg).
Definition wide_run (x : penv) : penv := mk_penv (pe_env x) (with_dependencies (pe_cfg x)) (pe_ord x).

(** [wider m m']: the same module, but [m'] may list more names in its preludes. *)
Inductive wider : module -> module -> Prop :=
| wider_intro m m' : m_name m = m_name m' -> m_doc m = m_doc m' -> m_is_package m = m_is_package m' -> m_source m = m_source m' ->
    m_imports m = m_imports m' -> m_classes m = m_classes m' -> m_typevars m = m_typevars m' -> m_functions m = m_functions m' -> m_properties m = m_properties m' ->
    incl (m_prelude m) (m_prelude m') -> Forall2 wider (m_subs m) (m_subs m') -> wider m m'.
