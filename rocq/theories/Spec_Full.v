(** * What each parsed item should become (C47, C49) *)
From Verif Require Import Base Model_Ident Model_Path Model_Import Model_Config Model_IntoRs Model_Out Model_Function Model_Property Model_Class Model_Module
  Spec_Path Spec_Items Spec_Tree.

(** The Rust spelling of a Python name: raw if it is a keyword, with a prefix if Rust cannot spell it at all *)
Definition spelled (U : uni) (pre n : str) (i : ident) : Prop :=
  (~ rust_unspellable n /\ i = ident_from_py U n) \/ (rust_unspellable n /\ i = pre ++ n).

(** A function of [l] that calls [n] *)
Definition calls (U : uni) (l : list frag) (n : str) : Prop :=
  exists d a, In (GFn d) l /\ f_body d = BCallMethod n a /\ spelled U (u "f_") n (k_name (f_contract d)).
(** A function of [l] that calls the class or the object itself; its name is [pre] and perhaps a number. *)
Definition calls_itself (l : list frag) (pre : str) : Prop :=
  exists d a s, In (GFn d) l /\ f_body d = BCall a /\ k_name (f_contract d) = pre ++ s.
Definition gets (U : uni) (l : list frag) (n : str) : Prop :=
  exists d, In (GFn d) l /\ f_body d = BGet n /\ (k_name (f_contract d) = ident_from_py U n \/ k_name (f_contract d) = ident_from_py U (u "get_" ++ n)).
Definition sets (U : uni) (l : list frag) (n : str) : Prop :=
  exists d v, In (GFn d) l /\ f_body d = BSet n v /\ k_name (f_contract d) = ident_from_py U (u "set_" ++ n).

(** A method is found among the functions of the struct [own] or among the ones of its trait [bound]. *)
Definition method_yields (U : uni) (own bound : list frag) (f : func) (n : str) : Prop :=
  match fn_typ f with
  | FMethod _ MInstance => calls U bound n
  | FMethod _ MCallable => calls_itself bound (u "call")
  | FMethod _ MConstructor => calls_itself own (u "new")
  | _ => calls U own n
  end.
Definition no_kind (f : func) : Prop := exists cp, fn_typ f = FMethod cp MUnknown.
(** The names of functions *)
Definition names_of (U : uni) (fs : list func) (F : list str) : Prop := Forall2 (fun f n => called U (fn_name f) n) fs F.
(** The functions and accessors of a class *)
Definition members_yield (U : uni) (c : class) (own bound : list frag) : Prop :=
  (forall f n, In f (cl_methods c) -> called U (fn_name f) n -> py_identifier U n -> ~ no_kind f -> method_yields U own bound f n) /\
  (forall F p n, names_of U (cl_methods c) F -> In p (cl_props c) -> called U (pr_name p) n -> accessors_named U (F ++ [u "new"; u "call"]) n ->
     gets U bound n /\ (pr_mutable p = true -> sets U bound n)).

(** [yields U m k it]: the scope [k] has all that belongs to the item [it] of module [m]. *)
Definition yields (U : uni) (m : module) (k : list frag) (it : item) : Prop :=
  match it with
  | AFunction f => forall n, called U (fn_name f) n -> py_identifier U n -> calls U k n
  | AProperty p => forall F n, names_of U (m_functions m) F -> called U (pr_name p) n -> accessors_named U F n ->
      gets U k n /\ (pr_mutable p = true -> sets U k n)
  | AClass c => forall n, called U (cl_name c) n -> py_identifier U n ->
      exists id tid own defs bound, spelled U (u "s_") n id /\ In (GStruct id) k /\ In (GMacros id (to_py (cl_name c))) k /\ In (GImpl id own) k /\
        tid = ident_from_py U (id ++ u "Methods") /\ In (GTrait tid defs) k /\ In (GImplFor tid id bound) k /\ members_yield U c own bound
  | ATypeVar p => forall n, called U p n -> In (GType (ident_from_py U n)) k
  | AnExport _ | AnImport _ => True
  end.

(** The switch for the items of this kind *)
Definition is_on (cfg : config) (it : item) : Prop :=
  match it with
  | AFunction _ => generate_functions cfg = true
  | AProperty _ => generate_properties cfg = true
  | AClass _ => generate_classes cfg = true
  | ATypeVar _ => generate_type_vars cfg = true
  | AnImport _ => generate_imports cfg = true
  | AnExport _ => generate_preludes cfg = true
  end.
