(** * The tokens of the generated code: the templates in [quote!]

    The two fixed texts of documentation in templates (class.rs:288-290, module.rs:483-484) become raw string literals;
    they are ordinary ones here. *)
From Verif Require Import Base Spec_Lex Model_Ident Model_Path Model_Import Model_Type Model_IntoRs Model_Token Model_Out.

Definition word (s : str) : list tok := [TWord s].
Definition lit (s : str) : list tok := [TLit s].
(** [#(#x),*] and [#(#x,)*] *)
Fixpoint sep_by (s : list tok) (l : list (list tok)) : list tok :=
  match l with [] => [] | [x] => x | x :: r => x ++ s ++ sep_by s r end.
Definition comma : list tok := [TPunct c_comma false].
Definition each {A} (f : A -> list tok) (l : list A) : list tok := flat_map f l.

(** ** Types: into_rs.rs:99-305 *)
Definition abs_path (p : list str) : list tok := each (fun s => rs "::" ++ word s) p.
Definition local_path (p : list str) : list tok := sep_by (rs "::") (map word p).
(** The comma after the argument of [Bound]: into_rs.rs:350-365 *)
Definition trailing (t : rty) : list tok :=
  match t with RAbs _ [_; _] => comma | _ => [] end.
Fixpoint ty_tokens (t : rty) : list tok :=
  let args l := match l with [] => [] | _ => rs "<" ++ sep_by comma (map ty_tokens l) ++ rs ">" end in
  match t with
  | RName s => word s
  | RVec t => rs "Vec<" ++ ty_tokens t ++ rs ">"
  | RSlice t => rs "[" ++ ty_tokens t ++ rs "]"
  | RRef t => rs "&" ++ ty_tokens t
  | RTup l => rs "(" ++ sep_by comma (map ty_tokens l) ++ rs ")"
  | RAbs p l => abs_path p ++ args l
  | RBound t => rs "::pyo3::Bound<'py, " ++ ty_tokens t ++ trailing t ++ rs ">"
  | RLocal p => (if leading_colon p then rs "::" else []) ++ local_path (segs p)
  | RImpl p [RAbs q [t]] => rs "impl" ++ abs_path p ++ rs "<" ++ abs_path q ++ rs "<" ++ ty_tokens t ++ rs ">>"
  | RImpl p l => rs "impl" ++ abs_path p ++ args l
  end.

(** ** Preprocessing of arguments: into_rs.rs:19-97 *)
Definition prep_tokens (a : ident * prep) : list tok :=
  let n := word (fst a) in
  match snd a with
  | PrepNone => []
  | PrepIntoDict => rs "let" ++ n ++ rs "= ::pyo3::types::IntoPyDict::into_py_dict_bound(" ++ n ++ rs ", py);"
  | PrepIntoTuple => rs "let" ++ n ++ rs "= ::pyo3::IntoPy::<::pyo3::Py<::pyo3::types::PyTuple>>::into_py(" ++ n ++ rs ", py); let" ++ n ++ rs "=" ++ n ++ rs ".bind(py);"
  | PrepIntoAny => rs "let" ++ n ++ rs "= ::pyo3::IntoPy::<::pyo3::Py<::pyo3::types::PyAny>>::into_py(" ++ n ++ rs ", py); let" ++ n ++ rs "=" ++ n ++ rs ".bind(py);"
  | PrepOptDict => rs "let" ++ n ++ rs "= if let Some(" ++ n ++ rs ") =" ++ n ++ rs "{ ::pyo3::types::IntoPyDict::into_py_dict_bound(" ++ n
                   ++ rs ", py) } else { ::pyo3::types::PyDict::new_bound(py) };"
  end.

(** ** Signatures: function.rs:390-460, property.rs:255-257, 268-270, 273-275, 332-335, 343-346, 349-352 *)
Definition param_tokens (p : ident * rty) : list tok := word (fst p) ++ rs ":" ++ ty_tokens (snd p).
Definition ret_tokens (r : ret) : list tok :=
  match r with
  | RetType t => rs "-> ::pyo3::PyResult<" ++ ty_tokens t ++ rs ">"
  | RetSelf => rs "-> ::pyo3::PyResult<::pyo3::Bound<'py, Self>>"
  | RetUnit => rs "-> ::pyo3::PyResult<()>"
  end.
Definition contract_tokens (k : contract) : list tok :=
  rs "fn" ++ word (k_name k) ++ rs "<'py>(" ++ (if k_self k then rs "&'py self," else rs "py: ::pyo3::marker::Python<'py>,")
  ++ sep_by comma (map param_tokens (k_params k)) ++ (match k_ret k with RetUnit => comma | _ => [] end) ++ rs ")" ++ ret_tokens (k_ret k).

(** ** Bodies *)
(** path.rs:219-225 *)
Definition lookup_tokens (l : lookup) : list tok :=
  fold_left (fun acc a => rs "::pyo3::types::PyAnyMethods::getattr(" ++ acc ++ rs ".as_any(), ::pyo3::intern!(py, " ++ lit a ++ rs "))?")
            (lk_attrs l) (rs "py.import_bound(::pyo3::intern!(py, " ++ lit (lk_import l) ++ rs "))?").
Definition disp_tokens (d : disp) : list tok := match d with DSelf => rs "self" | DImport l => lookup_tokens l end.
(** function.rs:526-556 *)
Definition object_tokens (i : ident) : list tok := rs "::pyo3::ToPyObject::to_object(&" ++ word i ++ rs ", py),".
Definition pos_tokens (a : pos_args) : list tok :=
  match a with
  | PAUnit => rs "()"
  | PAVar v => word v
  | PAFixed l => rs "::pyo3::types::PyTuple::new_bound(py, [" ++ each object_tokens l ++ rs "],)"
  | PABoth l v =>
      rs "{ let mut __internal__args = Vec::with_capacity(" ++ [TNum (dec (N.of_nat (length l)) ++ u "usize")]
      ++ rs "+ ::pyo3::types::PyTupleMethods::len(" ++ word v ++ rs ")); __internal__args.extend([" ++ each object_tokens l
      ++ rs "]); __internal__args.extend(::pyo3::types::PyTupleMethods::iter(" ++ word v
      ++ rs ").map(|__internal__arg| ::pyo3::ToPyObject::to_object(&__internal__arg, py))); ::pyo3::types::PyTuple::new_bound(py, __internal__args,) }"
  end.
(** function.rs:577-607 *)
Definition item_tokens (e : str * ident) : list tok :=
  rs "::pyo3::types::PyDictMethods::set_item(&__internal__kwargs, ::pyo3::intern!(py, " ++ lit (fst e) ++ rs ")," ++ word (snd e) ++ rs ");".
Definition kw_tokens (k : kw_args) : list tok :=
  match k with
  | KAVar v => word v
  | KABoth v l => rs "{ let __internal__kwargs =" ++ word v ++ rs ";" ++ each item_tokens l ++ rs "__internal__kwargs }"
  | KANew => rs "::pyo3::types::PyDict::new_bound(py)"
  | KAFixed l => rs "{ let __internal__kwargs = ::pyo3::types::PyDict::new_bound(py);" ++ each item_tokens l ++ rs "__internal__kwargs }"
  end.
(** function.rs:609-642 *)
Definition call_tokens (d : list tok) (a : args) : list tok :=
  match a with
  | ArgsBoth p k => rs "::pyo3::types::PyAnyMethods::call(" ++ d ++ rs ".as_any()," ++ pos_tokens p ++ rs ", Some(&" ++ kw_tokens k ++ rs "))"
  | ArgsPos p => rs "::pyo3::types::PyAnyMethods::call1(" ++ d ++ rs ".as_any()," ++ pos_tokens p ++ rs ")"
  | ArgsNone => rs "::pyo3::types::PyAnyMethods::call0(" ++ d ++ rs ".as_any())"
  end.
Definition call_method_tokens (d : list tok) (m : str) (a : args) : list tok :=
  match a with
  | ArgsBoth p k => rs "::pyo3::types::PyAnyMethods::call_method(" ++ d ++ rs ".as_any(), ::pyo3::intern!(py, " ++ lit m ++ rs "),"
                    ++ pos_tokens p ++ rs ", Some(&" ++ kw_tokens k ++ rs "))"
  | ArgsPos p => rs "::pyo3::types::PyAnyMethods::call_method1(" ++ d ++ rs ".as_any(), ::pyo3::intern!(py, " ++ lit m ++ rs "),"
                 ++ pos_tokens p ++ rs ")"
  | ArgsNone => rs "::pyo3::types::PyAnyMethods::call_method0(" ++ d ++ rs ".as_any(), ::pyo3::intern!(py, " ++ lit m ++ rs "))"
  end.
(** function.rs:645-653, property.rs:258-260, 276-278, 336-337, 353-355 *)
Definition body_tokens (d : disp) (b : body) : list tok :=
  match b with
  | BCall a => rs "::pyo3::types::PyAnyMethods::extract(&" ++ call_tokens (disp_tokens d) a ++ rs "?)"
  | BCallMethod m a => rs "::pyo3::types::PyAnyMethods::extract(&" ++ call_method_tokens (disp_tokens d) m a ++ rs "?)"
  | BGet n => rs "::pyo3::types::PyAnyMethods::extract(&::pyo3::types::PyAnyMethods::getattr(" ++ disp_tokens d ++ rs ".as_any(), ::pyo3::intern!("
              ++ (match d with DSelf => rs "self.py()" | DImport _ => rs "py" end) ++ rs "," ++ lit n ++ rs "))?)"
  | BSet n v => rs "::pyo3::types::PyAnyMethods::setattr(" ++ disp_tokens d ++ rs ".as_any(), ::pyo3::intern!(py, " ++ lit n ++ rs "),"
                ++ word v ++ rs ")"
  end.
Definition fn_tokens (f : fn_def) : list tok :=
  contract_tokens (f_contract f) ++ rs "{" ++ (if f_let_py f then rs "let py = self.py();" else [])
  ++ each prep_tokens (f_prep f) ++ body_tokens (f_disp f) (f_body f) ++ rs "}".

(** ** Items: class.rs:188-203, 276-300, module.rs:329-339, 514-519, 640-642, 666-670, type_var.rs:16-18 *)
Definition attr_tokens (a : attr) : list tok :=
  match a with
  | AttrAllow => rs "#[allow(clippy::all, clippy::nursery, clippy::pedantic, non_camel_case_types, non_snake_case, non_upper_case_globals, unused)]"
  | AttrRepr => rs "#[repr(transparent)]"
  | AttrDerived => rs "#[automatically_derived]"
  | AttrAlias i => rs "#[doc(alias =" ++ lit i ++ rs ")]"
  end.
(** import.rs:54-62 *)
Definition use_tokens (i : use_item) : list tok :=
  rs "use" ++ local_path (use_path i) ++ (match use_alias i with Some a => rs "as" ++ word a | None => [] end) ++ rs ";".
(** module.rs:485-500 *)
Definition embed_tokens (m file src : str) : list tok :=
  rs "fn pyo3_embed_python_source_code<'py>(py: ::pyo3::marker::Python<'py>) -> ::pyo3::PyResult<()> { const SOURCE_CODE: &str =" ++ lit src
  ++ rs "; pyo3::types::PyAnyMethods::set_item(&pyo3::types::PyAnyMethods::getattr(py.import_bound(pyo3::intern!(py, " ++ lit (u "sys")
  ++ rs "))?.as_any(), pyo3::intern!(py, " ++ lit (u "modules") ++ rs "),)?," ++ lit m
  ++ rs ", pyo3::types::PyModule::from_code_bound(py, SOURCE_CODE," ++ lit file ++ rs "," ++ lit m ++ rs ",)?,) }".
Fixpoint frag_tokens (x : frag) : list tok :=
  match x with
  | GPub => rs "pub"
  | GDoc s => rs "#[doc =" ++ lit s ++ rs "]"
  | GAttr a => attr_tokens a
  | GFn f => fn_tokens f
  | GDecl k => contract_tokens k ++ rs ";"
  | GUse i => use_tokens i
  | GUseSuper l => rs "use super::{" ++ each (fun i => word i ++ comma) l ++ rs "};"
  | GType n => rs "type" ++ word n ++ rs "= ::pyo3::types::PyAny;"
  | GStruct n => rs "struct" ++ word n ++ rs "(::pyo3::PyAny);"
  | GMacros n s =>
      rs "::pyo3::pyobject_native_type_named!(" ++ word n ++ rs "); ::pyo3::pyobject_native_type_info!(" ++ word n
      ++ rs ", ::pyo3::pyobject_native_static_type_object!(::pyo3::ffi::PyBaseObject_Type), ::std::option::Option::Some(" ++ lit s ++ rs "));"
  | GImpl n l => rs "impl" ++ word n ++ rs "{" ++ each frag_tokens l ++ rs "}"
  | GTrait n l => rs "trait" ++ word n ++ rs "{" ++ each frag_tokens l ++ rs "}"
  | GImplFor t n l => rs "impl" ++ word t ++ rs "for ::pyo3::Bound<'_, " ++ word n ++ rs "> {" ++ each frag_tokens l ++ rs "}"
  | GMod n l => rs "mod" ++ word n ++ rs "{" ++ each frag_tokens l ++ rs "}"
  | GEmbed m file src => embed_tokens m file src
  end.
Definition tokens (l : list frag) : list tok := each frag_tokens l.

(** codegen.rs:168: [generate()?.to_string()] *)
Definition text (odd : char -> bool) (l : list frag) : str := text_of odd (tokens l).
