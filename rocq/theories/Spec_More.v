(** * Two runs, the second of which is asked for more (C78) *)
From Verif Require Import Base Model_Ident Model_Path Model_Import Model_Type Model_IntoRs Model_Out Model_Function Model_Property Model_Class Model_Module
  Spec_Rust Spec_Hash.

(** ** Bindings that stay *)

(** The second type is the first one, or says more: the class of an object, or the types of the keys and values of a dictionary. *)
Inductive sharper : rty -> rty -> Prop :=
| sh_same t : sharper t t
| sh_class p : sharper (RBound (RAbs [u "pyo3"; u "types"; u "PyAny"] [])) (RBound (RLocal p))
| sh_class_arg p : sharper (RImpl [u "pyo3"; u "IntoPy"] [RAbs [u "pyo3"; u "Py"] [RAbs [u "pyo3"; u "types"; u "PyAny"] []]]) (RRef (RBound (RLocal p)))
| sh_dict k v : sharper (RBound (RAbs [u "pyo3"; u "types"; u "PyDict"] [])) (RAbs [u "std"; u "collections"; u "HashMap"] [k; v])
| sh_dict_arg k v : sharper (RImpl [u "pyo3"; u "types"; u "IntoPyDict"] []) (RRef (RAbs [u "std"; u "collections"; u "HashMap"] [k; v]))
| sh_vec t t' : sharper t t' -> sharper (RVec t) (RVec t')
| sh_slice t t' : sharper t t' -> sharper (RSlice t) (RSlice t')
| sh_ref t t' : sharper t t' -> sharper (RRef t) (RRef t')
| sh_option t t' : sharper t t' -> sharper (RAbs [u "std"; u "option"; u "Option"] [t]) (RAbs [u "std"; u "option"; u "Option"] [t'])
| sh_map k v v' : sharper v v' -> sharper (RAbs [u "std"; u "collections"; u "HashMap"] [k; v]) (RAbs [u "std"; u "collections"; u "HashMap"] [k; v'])
| sh_tuple l l' : Forall2 sharper l l' -> sharper (RTup l) (RTup l').
Definition sharper_ret (r r' : ret) : Prop :=
  match r, r' with RetType t, RetType t' => sharper t t' | RetSelf, RetSelf | RetUnit, RetUnit => True | _, _ => False end.
(** The same name and parameters *)
Definition same_head (k k' : contract) : Prop :=
  k_name k = k_name k' /\ k_self k = k_self k' /\ Forall2 (fun a b => fst a = fst b /\ sharper (snd a) (snd b)) (k_params k) (k_params k') /\ sharper_ret (k_ret k) (k_ret k').
(** The same lookup and the same call; an argument whose type is known now needs no conversion. *)
Definition same_call (d d' : fn_def) : Prop :=
  same_head (f_contract d) (f_contract d') /\ f_let_py d = f_let_py d' /\
  Forall2 (fun a b => fst a = fst b /\ (snd b = snd a \/ snd b = PrepNone)) (f_prep d) (f_prep d') /\ f_disp d = f_disp d' /\ f_body d = f_body d'.
(** An item and what becomes of it; for what is in a module see there. *)
Inductive kept : frag -> frag -> Prop :=
| kp_same y : kept y y
| kp_fn d d' : same_call d d' -> kept (GFn d) (GFn d')
| kp_decl k k' : same_head k k' -> kept (GDecl k) (GDecl k')
| kp_impl n l l' : Forall2 kept l l' -> kept (GImpl n l) (GImpl n l')
| kp_trait n l l' : Forall2 kept l l' -> kept (GTrait n l) (GTrait n l')
| kp_impl_for t n l l' : Forall2 kept l l' -> kept (GImplFor t n l) (GImplFor t n l')
| kp_mod n a b : kept (GMod n a) (GMod n b).

(** ** Names with one meaning *)
Definition fn_types (f : func) : list ptype := map p_ann (fn_params f) ++ [fn_ret f].
Definition class_types (c : class) : list ptype := flat_map fn_types (cl_methods c) ++ map pr_ann (cl_props c).
Definition module_types (m : module) : list ptype := flat_map class_types (m_classes m) ++ flat_map fn_types (m_functions m) ++ map pr_ann (m_properties m).
(** Among the classes [ts], the path [q] can stand for [p] in the module: as it is, or through an import. *)
Definition stands_for (U : uni) (ts : list path) (m : module) (q p : path) : Prop :=
  In p ts /\ (q = p \/ exists im, In im (m_imports m) /\ seen_as U im p q).
(** Every name in the annotations of the module can stand for one class at most; keys are as in C19. *)
Definition one_meaning (U : uni) (ts : list path) (m : module) : Prop :=
  forall t, In t (module_types m) -> good_keys t = true /\
    forall s q p p', In s (texts t) -> (q = path_from_py U s \/ q = path_from_py U (before_bracket s)) -> stands_for U ts m q p -> stands_for U ts m q p' -> p = p'.
