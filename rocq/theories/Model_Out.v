(** * The generated Rust code as data

    One constructor per [quote!] template; the holes of a template are its arguments. *)
From Verif Require Import Base Model_Ident Model_Path Model_Import Model_Type Model_IntoRs.

(** The object a body works on: [self], or an import followed by attribute lookups. *)
Inductive disp := DSelf | DImport (l : lookup).

(** function.rs:526-556 *)
Inductive pos_args :=
| PAUnit                                     (* () *)
| PAVar (v : ident)                          (* the tuple itself *)
| PAFixed (l : list ident)                   (* PyTuple::new_bound(py, [to_object(&p, py), ..]) *)
| PABoth (l : list ident) (v : ident).       (* the fixed ones, then the items of the tuple *)
(** function.rs:577-607; the pairs are (keyword, parameter) *)
Inductive kw_args :=
| KAVar (v : ident)                          (* the dict itself *)
| KABoth (v : ident) (l : list (str * ident))(* set_item on the dict itself, then the dict *)
| KANew                                      (* PyDict::new_bound(py) *)
| KAFixed (l : list (str * ident)).          (* a new dict with the items *)

(** call / call1 / call0 and call_method / call_method1 / call_method0 *)
Inductive args := ArgsBoth (p : pos_args) (k : kw_args) | ArgsPos (p : pos_args) | ArgsNone.

Inductive body :=
| BCall (a : args)                           (* call the dispatcher *)
| BCallMethod (m : str) (a : args)           (* call its method m *)
| BGet (attr : str)
| BSet (attr : str) (value : ident).

Inductive ret := RetType (t : rty)           (* PyResult<t> *)
               | RetSelf                     (* PyResult<Bound<'py, Self>> *)
               | RetUnit.                    (* PyResult<()> *)

(** The contract: name, receiver ([&'py self] or [py: Python<'py>]), parameters, result. *)
Record contract := mk_contract {
  k_name : ident; k_self : bool; k_params : list (ident * rty); k_ret : ret }.
(** The body: whether it starts with [let py = self.py();], the preprocessing statements, the rest. *)
Record fn_def := mk_fn { f_contract : contract; f_let_py : bool; f_prep : list (ident * prep);
                         f_disp : disp; f_body : body }.

(** The attributes other than [doc = ..] *)
Inductive attr :=
| AttrAllow                                  (* module.rs:330-338: allow(clippy::all, .., unused) *)
| AttrRepr                                   (* class.rs:189: repr(transparent) *)
| AttrDerived                                (* class.rs:277, 292, 296: automatically_derived *)
| AttrAlias (i : ident).                     (* class.rs:291: doc(alias = "i") *)

(** Fragments of a token stream. *)
Inductive frag :=
| GPub                                       (* pub *)
| GDoc (s : str)                             (* #[doc = s] *)
| GAttr (a : attr)                           (* any other outer attribute *)
| GFn (f : fn_def)                           (* fn name(..) -> .. { .. } *)
| GDecl (k : contract)                       (* fn name(..) -> ..; *)
| GUse (i : use_item)                        (* use path (as alias)?; *)
| GUseSuper (l : list ident)                 (* use super::{l}; *)
| GType (n : ident)                          (* type n = PyAny; *)
| GStruct (n : ident)                        (* struct n(PyAny); *)
| GMacros (n : ident) (py_name : str)        (* the two pyo3 macro invocations *)
| GImpl (n : ident) (l : list frag)          (* impl n { l } *)
| GTrait (n : ident) (l : list frag)         (* trait n { l } *)
| GImplFor (tr n : ident) (l : list frag)    (* impl tr for Bound<'_, n> { l } *)
| GMod (n : ident) (l : list frag)           (* mod n { l } *)
| GEmbed (m file src : str).                 (* fn pyo3_embed_python_source_code .. { .. } *)

(** function_definition.rs:1-28 *)
Inductive fn_impl := IFunction (impl_fn : list frag) | IMethod (trait_fn impl_fn : list frag).
