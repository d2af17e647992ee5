(** * Model of syntax/common/attribute_variant.rs, syntax/class.rs and syntax/type_var.rs *)
From Verif Require Import Base Model_Ident Model_Path Model_Text Model_Config Model_Type Model_IntoRs
  Model_World Model_Out Model_Function Model_Property.

(** ** Attributes of a module or a class *)

(** attribute_variant.rs:7-16 *)
Inductive variant := VImport | VModule | VClass | VFunction | VMethod | VClosure | VTypeVar | VProperty.

(** attribute_variant.rs:19-82; importing [inspect] and calling its two predicates are taken to succeed. *)
Definition determine (e : env) (o : oid) (attr_module owner : path) (consider_import : bool) : outcome variant :=
  let tf := w_type (e_world e) o in
  let! type_name := ident_from_py_chk (e_dbg e) (e_uni e) (tf_name tf) in
  let! type_module := path_from_py_chk (e_dbg e) (e_uni e) (match tf_module tf with Some s => s | None => [] end) in
  let is_closure := str_eqb (to_py type_module) (u "functools") && str_eqb (as_py type_name) (u "partial") in
  let is_type := mem_str (to_py type_module) (map u ["typing"; "types"]%string) in
  let is_in_locals := contains_str (u "<locals>") (w_str (e_world e) o) in
  let is_external := negb is_in_locals && negb (path_eqb attr_module owner) in
  let is_imported := is_external && (tf_is_module tf || tf_is_class tf || tf_is_function tf || tf_is_method tf) in
  Ok (if consider_import && is_imported then VImport
      else if tf_is_module tf then VModule
      else if tf_is_class tf then VClass
      else if tf_is_builtin_fn tf || tf_is_function tf then VFunction
      else if tf_is_method tf then VMethod
      else if is_closure then VClosure
      else if is_type then VTypeVar
      else VProperty).

(** [map(Ident::from_py).unique()] (class.rs:37-38, module.rs:90-92): the first name of each spelling. *)
Fixpoint unique_names (U : uni) (seen : list ident) (l : list str) : list str :=
  match l with
  | [] => []
  | s :: r => let i := ident_from_py U s in
              if mem_str i seen then unique_names U seen r else s :: unique_names U (i :: seen) r
  end.

Record attr := mk_attr { at_obj : oid; at_name : ident; at_module : path }.

(** [attr.getattr("__module__").map(to_string).unwrap_or_default()] as a path *)
Definition module_of (e : env) (o : oid) : outcome path :=
  path_from_py_chk (e_dbg e) (e_uni e) (match attr_text (e_world e) o "__module__" with Some s => s | None => [] end).

(** class.rs:43-61, module.rs:97-115 *)
Definition read_attr (e : env) (o : oid) (s : str) : outcome (option attr) :=
  let! name := ident_from_py_chk (e_dbg e) (e_uni e) s in
  match w_getattr (e_world e) o (as_py name) with
  | Some a => let! m := module_of e a in Ok (Some (mk_attr a name m))
  | None => Ok None
  end.

(** The iterator chain is lazy: an attribute is read, filtered and handled before the next one. *)
Fixpoint each_attr {S} (e : env) (o : oid) (allowed : attr -> bool) (step : S -> attr -> outcome S)
    (names : list str) (st : S) : outcome S :=
  match names with
  | [] => Ok st
  | s :: r =>
      let! a := read_attr e o s in
      let! st' := match a with
                  | Some a => if allowed a then step st a else Ok st
                  | None => Ok st
                  end in
      each_attr e o allowed step r st'
  end.

(** ** Classes *)

(** class.rs:10-17 *)
Record class := mk_class { cl_name : path; cl_methods : list func; cl_props : list property; cl_doc : option str }.

(** class.rs:63-66 *)
Definition class_attr_allowed (cfg : config) (a : attr) : bool :=
  is_attr_allowed cfg (at_name a) (at_module a)
  || mem_str (as_py (at_name a)) (map u ["__init__"; "__call__"]%string).

(** class.rs:96-100 *)
Definition method_kind (name : ident) : mkind :=
  if str_eqb (as_py name) (u "__init__") then MConstructor
  else if str_eqb (as_py name) (u "__call__") then MCallable else MUnknown.

(** class.rs:68-124 *)
Definition class_step (e : env) (name : path) (st : list func * list property) (a : attr)
    : outcome (list func * list property) :=
  let full := path_snoc name (at_name a) in
  let! v := determine e (at_obj a) (at_module a) name false in
  match v with
  | VFunction | VMethod =>
      let! f := fn_parse e (at_obj a) full (FMethod name (method_kind (at_name a))) in Ok (fst st ++ [f], snd st)
  | VProperty =>
      let! p := prop_parse e (at_obj a) full OwnerClass in Ok (fst st, snd st ++ [p])
  | VImport | VModule | VClass | VClosure | VTypeVar => Ok st
  end.

(** class.rs:20-143 *)
Definition class_parse (e : env) (cfg : config) (o : oid) (name : path) : outcome class :=
  let! (ms, ps) := each_attr e o (class_attr_allowed cfg) (class_step e name)
                     (unique_names (e_uni e) [] (w_dir (e_world e) o)) ([], []) in
  let! doc := read_docstring (e_world e) o in
  Ok (mk_class name ms ps doc).

(** ** Generation of a class *)

(** class.rs:163-187; [None] is the early return of an empty stream. *)
Definition struct_ident (U : uni) (name : ident) : option ident :=
  if syn_ident_ok U (as_rs name) then Some name
  else let n := ident_from_py U (u "s_" ++ sanitize U (as_py name)) in
       if syn_ident_ok U (as_rs n) then Some n else None.

(** The three streams collected on lines 213-273. *)
Record members := mk_members { mb_struct : list frag; mb_defs : list frag; mb_impls : list frag }.
Definition add_member (m : members) (i : fn_impl) : members :=
  match i with
  | IFunction l => mk_members (mb_struct m ++ l) (mb_defs m) (mb_impls m)
  | IMethod t l => mk_members (mb_struct m) (mb_defs m ++ t) (mb_impls m ++ l)
  end.

Definition has_kind (k : mkind) (ms : list func) : bool :=
  existsb (fun f => match fn_typ f, k with
                    | FMethod _ MConstructor, MConstructor | FMethod _ MCallable, MCallable => true
                    | _, _ => false end) ms.
(** class.rs:234-257 *)
Definition extra_scope (U : uni) (ms : list func) : list ident :=
  (if has_kind MConstructor ms then [ident_from_py U (u "new")] else []) ++
  (if has_kind MCallable ms then [ident_from_py U (u "call")] else []).

(** class.rs:288-290 *)
Definition trait_docs : list frag :=
  [GDoc (u " These methods are defined for the `Bound<'py, T>` smart pointer, so to use");
   GDoc (u " method call syntax these methods are separated into a trait, because stable");
   GDoc (u " Rust does not yet support `arbitrary_self_types`.")].

(** class.rs:145-303 *)
Definition class_generate (g : gctx) (c : class) : outcome (list frag) :=
  let U := g_uni g in
  let! docs := gen_doc g (cl_doc c) in
  let! name := path_name (cl_name c) in
  match struct_ident U name with
  | None => Ok []
  | Some id =>
      let! scope := mapM (fun f => path_name (fn_name f)) (cl_methods c) in
      let! ms := mapM (fn_generate g scope) (cl_methods c) in
      let! ps := mapM (prop_generate g (scope ++ extra_scope U (cl_methods c))) (cl_props c) in
      let m := fold_left add_member (ms ++ ps) (mk_members [] [] []) in
      let! tid := ident_to_syn U (ident_from_py U (id ++ u "Methods")) in
      Ok (docs ++ [GAttr AttrRepr; GPub; GStruct id; GMacros id (to_py (cl_name c));
                   GAttr AttrDerived; GImpl id (mb_struct m)]
          ++ trait_docs ++ [GAttr (AttrAlias id); GAttr AttrDerived; GPub; GTrait tid (mb_defs m);
                            GAttr AttrDerived; GImplFor tid id (mb_impls m)])
  end.

(** ** Type variables: type_var.rs:4-19; a type variable is just its path. *)
Definition type_var_generate (U : uni) (p : path) : outcome (list frag) :=
  let! n := path_name p in
  let! id := ident_to_syn U n in
  Ok [GPub; GType id].
