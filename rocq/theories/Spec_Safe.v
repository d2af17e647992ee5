(** * When generation can be carried out *)
From Verif Require Import Base Model_Ident Model_Path Model_Import Model_Function Model_Property Model_Class Model_Module Spec_Path Spec_Items Spec_Tree.

(** An item has an owner: its path has a component before the last. *)
Definition placed (p : path) : Prop := 2 <= length (segs p).

(** What parsing guarantees about the shape of a module, if the module has a name at all *)
Record rooted (m : module) : Prop := mk_rooted {
  rt_name : segs (m_name m) <> [] /\ leading_colon (m_name m) = false;
  rt_class : forall c, In c (m_classes m) -> placed (cl_name c) /\
    (forall f, In f (cl_methods c) -> segs (fn_name f) <> [] /\ exists cp k, fn_typ f = FMethod cp k /\ segs cp <> []) /\
    (forall p, In p (cl_props c) -> segs (pr_name p) <> [] /\ pr_owner p = OwnerClass);
  rt_var : forall p, In p (m_typevars m) -> placed p;
  rt_fn : forall f, In f (m_functions m) -> placed (fn_name f) /\ (fn_typ f = FFunction \/ fn_typ f = FClosure);
  rt_prop : forall p, In p (m_properties m) -> placed (pr_name p) /\ pr_owner p = OwnerModule;
  rt_import : forall i, In i (m_imports m) -> segs (im_target i) <> [] /\ (im_type i = SubmoduleReexport -> segs (im_origin i) <> [])
}.

(** The last component of a path *)
Definition last_is (P : ident -> Prop) (p : path) : Prop := forall q i, segs p = q ++ [i] -> P i.
(** Characters that may occur inside an identifier *)
Definition word (U : uni) (n : str) : Prop := forall c, In c n -> xid_continue U c = true.
Definition words (U : uni) (f : func) : Prop := forall p, In p (fn_params f) -> word U (as_py (p_name p)).

(** The names that must have a spelling in Rust: those of the module, its type variables, its imports,
    its variables, and of all parameters; not those of classes, functions and methods. *)
Record spelled (U : uni) (m : module) : Prop := mk_spelled {
  sl_name : last_is (rust_ident U) (m_name m);
  sl_var : forall p, In p (m_typevars m) -> last_is (rust_ident U) p;
  sl_import : forall i, In i (m_imports m) -> im_type i = SubmoduleReexport -> last_is (rust_ident U) (im_target i);
  sl_prop : forall p, In p (m_properties m) -> last_is (fun n => word U (as_py n)) (pr_name p);
  sl_fn : forall f, In f (m_functions m) -> words U f;
  sl_class : forall c, In c (m_classes m) -> (forall f, In f (cl_methods c) -> words U f) /\
    forall p, In p (cl_props c) -> last_is (fun n => word U (as_py n)) (pr_name p)
}.

(** The known classes: written with names Rust can say; and the class is not called [super]. *)
Definition sayable (U : uni) (p : path) : Prop := leading_colon p = false /\ forall s, In s (segs p) -> path_segment U s.
Definition has_text (p : path) : Prop := last_is (fun i => as_py i <> [] /\ as_py i <> u "super") p.
