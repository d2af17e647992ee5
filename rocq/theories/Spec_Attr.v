(** * Attributes of a Python module or class (properties C09, C50, C60) *)
From Verif Require Import Base Model_Ident Model_Path Model_Import Model_Config Model_Type Model_World Model_Out Model_Function Model_Property Model_Class Model_Module Model_Parse Spec_Path
  Spec_Tree Spec_Api Spec_Privacy.

(** ** Kinds
    [first_test l k]: [k] belongs to the first test of [l] that holds. *)
Inductive first_test {A} : list (Prop * A) -> A -> Prop :=
| test_holds (P : Prop) a r : P -> first_test ((P, a) :: r) a
| test_fails (P : Prop) a r b : ~ P -> first_test r b -> first_test ((P, a) :: r) b.

(** An object made inside of a function *)
Definition local_object (w : world) (o : oid) : Prop := exists a b, w_str w o = a ++ u "<locals>" ++ b.
(** The tests of attribute_variant.rs, in their order: [from] is the module the object says it comes from,
    [owner] the module or class it is an attribute of. *)
Definition documented_tests (w : world) (o : oid) (from owner : path) (imports : Prop) : list (Prop * variant) :=
  let t := w_type w o in
  [(imports /\ ~ local_object w o /\ from <> owner /\
      (tf_is_module t = true \/ tf_is_class t = true \/ tf_is_function t = true \/ tf_is_method t = true), VImport);
   (tf_is_module t = true, VModule);
   (tf_is_class t = true, VClass);
   (tf_is_builtin_fn t = true \/ tf_is_function t = true, VFunction);
   (tf_is_method t = true, VMethod);
   (tf_module t = Some (u "functools") /\ tf_name t = u "partial", VClosure);
   (tf_module t = Some (u "typing") \/ tf_module t = Some (u "types"), VTypeVar);
   (True, VProperty)].
(** The type of the object has a name and a module as Python writes them. *)
Definition type_named (w : world) (o : oid) : Prop :=
  starts_with (u "r#") (tf_name (w_type w o)) = false /\
  forall s, tf_module (w_type w o) = Some s -> exists l, (forall t, In t l -> py_name t) /\ s = join [c_dot] l.

(** ** Attributes
    [attribute_of U w o i a]: the attribute [i] of [o] is listed and can be read; it is [a]. *)
Definition attribute_of (U : uni) (w : world) (o : oid) (i : ident) (a : oid) : Prop :=
  exists s, In s (w_dir w o) /\ i = ident_from_py U s /\ w_getattr w o (as_py i) = Some a.
(** The module an object says it comes from *)
Definition from_module (U : uni) (w : world) (o : oid) : path := path_from_py U (module_text w o).
(** The place of an imported object: its module and its own name, else the name it is imported as *)
Definition place_of (U : uni) (w : world) (i : ident) (o : oid) : path :=
  let p := from_module U w o in
  mk_path (leading_colon p) (segs p ++ segs (path_from_py U (match attr_text w o "__name__" with Some s => s | None => as_py i end))).

(** ** Items of a parsed module *)
Definition item_path (it : item) : option path :=
  match it with
  | AnExport _ => None
  | AnImport i => Some (im_target i)
  | AClass c => Some (cl_name c)
  | ATypeVar p => Some p
  | AFunction f => Some (fn_name f)
  | AProperty p => Some (pr_name p)
  end.
(** The paths of all items of a module, except for its submodules *)
Definition item_paths (m : module) : list path :=
  map im_target (m_imports m) ++ map cl_name (m_classes m) ++ m_typevars m ++ map fn_name (m_functions m) ++ map pr_name (m_properties m).
Definition member_paths (c : class) : list path := map fn_name (cl_methods c) ++ map pr_name (cl_props c).

(** A path leads through something hidden. *)
Definition through_hidden (cfg : config) (p : path) : Prop :=
  exists b i r, segs p = b ++ i :: r /\ hidden cfg (as_py i) (map as_py b).
(** What has become of the attribute [i] of module [o], the object [a], in the parsed module [m];
    [parsed t k]: the module object [t] is parsed as [k]. *)
Definition accounted (U : uni) (w : world) (cfg : config) (parsed : oid -> module -> Prop) (o : oid) (i : ident) (a : oid) (m : module) (k : variant) : Prop :=
  let full := path_snoc (m_name m) i in
  match k with
  | VImport =>
      place_of U w i a = full \/                          (* the thing itself, not imported *)
      through_hidden cfg (place_of U w i a) \/
      (exists im, In im (m_imports m) /\ im_origin im = place_of U w i a /\ im_target im = full) \/
      (exists s, In s (w_iter_modules w o) /\ i = ident_from_py U s) /\   (* in the place of a submodule that has it *)
      (traverse_submodules cfg = true -> forall t k it, w_import w (to_py full) = Some t -> parsed t k -> has k it ->
         item_path it = Some (place_of U w i a) -> exists it', has m it' /\ item_path it' = Some full)
  | VModule => traverse_submodules cfg = true -> exists s t, In s (m_subs m) /\ parsed t s /\ (t = a \/ w_import w (to_py full) = Some t)
  | VClass => exists c, In c (m_classes m) /\ cl_name c = full
  | VFunction | VClosure => exists f, In f (m_functions m) /\ fn_name f = full
  | VTypeVar => In full (m_typevars m)
  | VProperty => exists p, In p (m_properties m) /\ pr_name p = full
  | VMethod => True                                       (* not supported *)
  end.
(** The same for the attribute [i] of a class; other kinds are not supported. *)
Definition accounted_in_class (i : ident) (c : class) (k : variant) : Prop :=
  let full := path_snoc (cl_name c) i in
  match k with
  | VFunction | VMethod => exists f, In f (cl_methods c) /\ fn_name f = full
  | VProperty => exists p, In p (cl_props c) /\ pr_name p = full
  | _ => True
  end.

(** ** Things that are shown (C09) *)
Definition name_shown (cfg : config) (i : ident) : Prop := ~ hidden cfg (as_py i) [].
(** The object [a], found as attribute [i] *)
Definition object_shown (x : penv) (i : ident) (a : oid) : Prop :=
  ~ hidden (pe_cfg x) (as_py i) (components (from_module (pe_uni x) (pe_world x) a)).
Definition special (n : str) : Prop := n = u "__init__" \/ n = u "__call__".
(** The item is what parsing makes of the object [a], possibly under another name. *)
Definition made_of (x : penv) (it : item) (a : oid) : Prop :=
  let e := pe_env x in
  match it with
  | AnExport _ | ATypeVar _ => True
  | AnImport i => exists n, im_origin i = place_of (pe_uni x) (pe_world x) n a
  | AClass c => exists p d, class_parse e (pe_cfg x) a p = Ok d /\ c = mk_class (cl_name c) (cl_methods d) (cl_props d) (cl_doc d)
  | AFunction f => exists p t g, fn_parse e a p t = Ok g /\ f = mk_func (fn_name f) (fn_typ g) (fn_params g) (fn_ret g) (fn_doc g)
  | AProperty p => exists n q, prop_parse e a n OwnerModule = Ok q /\
      p = mk_property (pr_name p) (pr_owner q) (pr_mutable q) (pr_ann q) (pr_setter_ann q) (pr_doc q) (pr_setter_doc q)
  end.
(** The item has the name of a shown attribute, and is made of a shown object. *)
Definition shown_item (x : penv) (it : item) : Prop :=
  exists n i j a, item_path it = Some (path_snoc n i) /\ name_shown (pe_cfg x) i /\ made_of x it a /\ object_shown x j a.
(** The members of a class, and the origin of an import *)
Definition shown_inside (x : penv) (it : item) : Prop :=
  match it with
  | AnImport i => ~ through_hidden (pe_cfg x) (im_origin i)
  | AClass c =>
      (forall f, In f (cl_methods c) -> exists n i b t, fn_name f = path_snoc n i /\ fn_parse (pe_env x) b (fn_name f) t = Ok f /\ (object_shown x i b \/ special (as_py i))) /\
      (forall p, In p (cl_props c) -> exists n i b, pr_name p = path_snoc n i /\ prop_parse (pe_env x) b (pr_name p) OwnerClass = Ok p /\ (object_shown x i b \/ special (as_py i)))
  | _ => True
  end.
(** The name of the attribute that a generated function uses *)
Definition uses_attr (d : fn_def) (n : str) : Prop := match f_body d with BCall _ => False | BCallMethod m _ => n = m | BGet m => n = m | BSet m _ => n = m end.
(** Nothing in the text uses a hidden attribute: functions and properties of modules, methods and properties of classes,
    the classes themselves, type variables and re-exports. *)
Definition frag_shown (x : penv) (f : frag) : Prop :=
  match f with
  | GFn d => forall n, uses_attr d n -> ~ hidden (pe_cfg x) n []
  | GImpl _ b | GImplFor _ _ b => forall d n, In (GFn d) b -> uses_attr d n -> ~ hidden (pe_cfg x) n [] \/ special n
  | GMacros _ s => exists p i, s = to_py (path_snoc p i) /\ name_shown (pe_cfg x) i
  | GType n => name_shown (pe_cfg x) n
  | GUse v => exists i p j, import_generate (pe_uni x) i = Ok (Some v) /\ im_target i = path_snoc p j /\ name_shown (pe_cfg x) j /\ ~ through_hidden (pe_cfg x) (im_origin i)
  | _ => True
  end.
