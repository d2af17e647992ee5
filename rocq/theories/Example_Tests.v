(** * The expected output of the project's own tests: pyo3_bindgen_engine/tests/bindgen.rs

    The source texts and the expected code are copied from lines 36-335, with [/// text] as [#[doc = " text"]].
    The tests compare code formatted by [prettyplease], which adds or drops commas before a closing bracket. *)
From Verif Require Import Base Spec_Lex Model_Ident Model_Path Model_Config Model_Type Model_World Model_Out Model_Function Model_Class Model_Parse Model_Codegen Model_Token Model_Print
  Spec_Type Example_World.

(** Tokens up to such commas, and up to spaces between punctuation *)
Definition ends_list (l : list tok) : bool := match l with TClose _ :: _ => true | TPunct c _ :: _ => (c =? ch ">")%N | _ => false end.
Fixpoint formatted (l : list tok) : list tok :=
  match l with
  | TPunct c _ :: r => if (c =? c_comma)%N && ends_list r then formatted r else TPunct c false :: formatted r
  | t :: r => t :: formatted r
  | [] => []
  end.
Definition expected (code : str) : option (list tok) := option_map formatted (lex uni_ascii code).

(** ** What Python says of the three modules *)
Definition arg (n : String.string) (a : option tobj) : sig_param := mk_sig_param (u n) 1 (option_map render a) false.
Definition fn_at (m : oid) (doc : oid) (sg : signature) : ob :=
  mk_ob [at_ "__doc__" doc; at_ "__module__" m] (u "<function>") (facts "function" false false false true false no_sub "<class 'function'>") (Some sg) [] [] None [].
Definition float_ob : ob :=
  mk_ob [] (u "0.42") (facts "float" false false false false false (fun b => match b with BFloat => true | _ => false end) "<class 'float'>") None [] [] None [].
(** [typing.Dict], [typing.Optional] *)
Definition typing_ob (m : oid) : ob :=
  mk_ob [at_ "__module__" m] (u "typing.Dict") (mk_type_facts (u "_SpecialGenericAlias") (Some (u "typing")) false false false false false no_sub (u "<class 'typing._SpecialGenericAlias'>"))
    None [] [] None [].
(** Objects: 0 is None, 1 the name of the module, 2 the module *)
Definition made (name : String.string) (attrs : list (str * oid)) (more : list ob) : penv :=
  mk_penv (mk_env (world_of [] (none_ob :: str_ob name :: module_ob name (at_ "__name__" 1%N :: at_ "__loader__" 0%N :: at_ "__spec__" 0%N :: attrs) None [] :: more)) true uni_ascii)
    default_config id_order.
Definition generated (x : penv) (src : str) (name : String.string) : outcome (list frag) :=
  let! c := cg_module_from_str x 2 src (u name) (Some 2%N) cg_new in cg_generate x false 2 c.
Definition shown (r : outcome (list frag)) : option (list tok) := match r with Ok l => Some (formatted (tokens l)) | _ => None end.

Definition property_env : penv := made "mod_bindgen_property" [at_ "my_property" 3%N] [float_ob].
Definition o_str : tobj := OBuiltin BString (u "<class 'str'>").
Definition o_int : tobj := OBuiltin BLong (u "<class 'int'>").
Definition function_env : penv :=
  made "mod_bindgen_function" [at_ "my_function" 4%N]
    [str_ob "My docstring for `my_function`"; fn_at 1 3 (mk_signature [arg "my_arg1" (Some o_str)] (Some (render o_int)))].
Definition o_my_class : tobj := OUser (u "mod_bindgen_class.MyClass").
Definition class_env : penv :=
  made "mod_bindgen_class"
    [at_ "Dict" 4%N; at_ "MyClass" 5%N; at_ "Optional" 4%N; at_ "my_function_with_class_param" 14%N; at_ "my_function_with_class_return" 15%N]
    [str_ob "typing"; typing_ob 3;                                                                                             (* 3, 4 *)
     mk_ob [at_ "__class__" 0%N; at_ "__doc__" 6%N; at_ "__init__" 8%N; at_ "__module__" 1%N; at_ "my_method" 10%N; at_ "my_property" 11%N] (u "<class 'mod_bindgen_class.MyClass'>")
       (facts "type" false true false false false no_sub "<class 'type'>") None
       [(u "__init__", StoredOther); (u "my_method", StoredOther); (u "my_property", StoredOther)] [] None [];                 (* 5 *)
     str_ob "My docstring for `MyClass`";                                                                                      (* 6 *)
     str_ob "My docstring for __init__";                                                                                       (* 7 *)
     fn_at 1 7 (mk_signature [arg "self" None; arg "my_arg1" (Some o_str); mk_sig_param (u "my_arg2") 1 (Some (render (OOptional o_int))) true] None);   (* 8 *)
     str_ob "My docstring for `my_method`";                                                                                    (* 9 *)
     fn_at 1 9 (mk_signature [arg "self" None; arg "my_arg1" (Some (ODict o_str o_int)); mk_sig_param (u "kwargs") 4 None false] None);                  (* 10 *)
     prop_ob [at_ "fget" 12%N; at_ "fset" 13%N];                                                                               (* 11 *)
     fn_at 1 0 (mk_signature [arg "self" None] (Some (render o_int)));                                                         (* 12 *)
     fn_at 1 0 (mk_signature [arg "self" None; arg "value" (Some o_int)] None);                                                (* 13 *)
     fn_at 1 0 (mk_signature [arg "my_arg1" (Some o_my_class)] None);                                                          (* 14 *)
     fn_at 1 0 (mk_signature [] (Some (render o_my_class)))].                                                                  (* 15 *)

(** ** The tests: lines 36-94, 96-154, 156-335 *)
Definition property_py : str := u "my_property: float = 0.42
".
Definition property_rs : str := u "#[allow(
    clippy::all,
    clippy::nursery,
    clippy::pedantic,
    non_camel_case_types,
    non_snake_case,
    non_upper_case_globals,
    unused
)]
pub mod mod_bindgen_property {
    #[doc = "" Embed the Python source code of the module into the Python interpreter""]
    #[doc = "" in order to enable the use of the generated Rust bindings.""]
    pub fn pyo3_embed_python_source_code<'py>(
        py: ::pyo3::marker::Python<'py>,
    ) -> ::pyo3::PyResult<()> {
        const SOURCE_CODE: &str = ""my_property: float = 0.42\n"";
        pyo3::types::PyAnyMethods::set_item(
            &pyo3::types::PyAnyMethods::getattr(
                py.import_bound(pyo3::intern!(py, ""sys""))?.as_any(),
                pyo3::intern!(py, ""modules""),
            )?,
            ""mod_bindgen_property"",
            pyo3::types::PyModule::from_code_bound(
                py,
                SOURCE_CODE,
                ""mod_bindgen_property/__init__.py"",
                ""mod_bindgen_property"",
            )?,
        )
    }
    pub fn my_property<'py>(py: ::pyo3::marker::Python<'py>) -> ::pyo3::PyResult<f64> {
        ::pyo3::types::PyAnyMethods::extract(
            &::pyo3::types::PyAnyMethods::getattr(
                py.import_bound(::pyo3::intern!(py, ""mod_bindgen_property""))?.as_any(),
                ::pyo3::intern!(py, ""my_property""),
            )?,
        )
    }
    pub fn set_my_property<'py>(
        py: ::pyo3::marker::Python<'py>,
        p_value: f64,
    ) -> ::pyo3::PyResult<()> {
        ::pyo3::types::PyAnyMethods::setattr(
            py.import_bound(::pyo3::intern!(py, ""mod_bindgen_property""))?.as_any(),
            ::pyo3::intern!(py, ""my_property""),
            p_value,
        )
    }
}".
Definition function_py : str := u "def my_function(my_arg1: str) -> int:
    """"""My docstring for `my_function`""""""
    ...
".
Definition function_rs : str := u "#[allow(
    clippy::all,
    clippy::nursery,
    clippy::pedantic,
    non_camel_case_types,
    non_snake_case,
    non_upper_case_globals,
    unused
)]
pub mod mod_bindgen_function {
    #[doc = "" Embed the Python source code of the module into the Python interpreter""]
    #[doc = "" in order to enable the use of the generated Rust bindings.""]
    pub fn pyo3_embed_python_source_code<'py>(
        py: ::pyo3::marker::Python<'py>,
    ) -> ::pyo3::PyResult<()> {
        const SOURCE_CODE: &str = ""def my_function(my_arg1: str) -> int:\n    \""\""\""My docstring for `my_function`\""\""\""\n    ...\n"";
        pyo3::types::PyAnyMethods::set_item(
            &pyo3::types::PyAnyMethods::getattr(
                py.import_bound(pyo3::intern!(py, ""sys""))?.as_any(),
                pyo3::intern!(py, ""modules""),
            )?,
            ""mod_bindgen_function"",
            pyo3::types::PyModule::from_code_bound(
                py,
                SOURCE_CODE,
                ""mod_bindgen_function/__init__.py"",
                ""mod_bindgen_function"",
            )?,
        )
    }
    #[doc = "" My docstring for `my_function`""]
    pub fn my_function<'py>(
        py: ::pyo3::marker::Python<'py>,
        p_my_arg1: &str,
    ) -> ::pyo3::PyResult<i64> {
        ::pyo3::types::PyAnyMethods::extract(
            &::pyo3::types::PyAnyMethods::call_method1(
                py.import_bound(::pyo3::intern!(py, ""mod_bindgen_function""))?.as_any(),
                ::pyo3::intern!(py, ""my_function""),
                ::pyo3::types::PyTuple::new_bound(
                    py,
                    [::pyo3::ToPyObject::to_object(&p_my_arg1, py)],
                ),
            )?,
        )
    }
}".
Definition class_py : str := u "from typing import Dict, Optional
class MyClass:
    """"""My docstring for `MyClass`""""""
    def __init__(self, my_arg1: str, my_arg2: Optional[int] = None):
        """"""My docstring for __init__""""""
        ...
    def my_method(self, my_arg1: Dict[str, int], **kwargs):
        """"""My docstring for `my_method`""""""
        ...
    @property
    def my_property(self) -> int:
        ...
    @my_property.setter
    def my_property(self, value: int):
        ...

def my_function_with_class_param(my_arg1: MyClass):
    ...

def my_function_with_class_return() -> MyClass:
    ...
".
Definition class_rs : str := u "#[allow(
    clippy::all,
    clippy::nursery,
    clippy::pedantic,
    non_camel_case_types,
    non_snake_case,
    non_upper_case_globals,
    unused
)]
pub mod mod_bindgen_class {
    #[doc = "" Embed the Python source code of the module into the Python interpreter""]
    #[doc = "" in order to enable the use of the generated Rust bindings.""]
    pub fn pyo3_embed_python_source_code<'py>(
        py: ::pyo3::marker::Python<'py>,
    ) -> ::pyo3::PyResult<()> {
        const SOURCE_CODE: &str = ""from typing import Dict, Optional\nclass MyClass:\n    \""\""\""My docstring for `MyClass`\""\""\""\n    def __init__(self, my_arg1: str, my_arg2: Optional[int] = None):\n        \""\""\""My docstring for __init__\""\""\""\n        ...\n    def my_method(self, my_arg1: Dict[str, int], **kwargs):\n        \""\""\""My docstring for `my_method`\""\""\""\n        ...\n    @property\n    def my_property(self) -> int:\n        ...\n    @my_property.setter\n    def my_property(self, value: int):\n        ...\n\ndef my_function_with_class_param(my_arg1: MyClass):\n    ...\n\ndef my_function_with_class_return() -> MyClass:\n    ...\n"";
        pyo3::types::PyAnyMethods::set_item(
            &pyo3::types::PyAnyMethods::getattr(
                py.import_bound(pyo3::intern!(py, ""sys""))?.as_any(),
                pyo3::intern!(py, ""modules""),
            )?,
            ""mod_bindgen_class"",
            pyo3::types::PyModule::from_code_bound(
                py,
                SOURCE_CODE,
                ""mod_bindgen_class/__init__.py"",
                ""mod_bindgen_class"",
            )?,
        )
    }
    #[doc = "" My docstring for `MyClass`""]
    #[repr(transparent)]
    pub struct MyClass(::pyo3::PyAny);
    ::pyo3::pyobject_native_type_named!(MyClass);
    ::pyo3::pyobject_native_type_info!(
        MyClass,
        ::pyo3::pyobject_native_static_type_object!(::pyo3::ffi::PyBaseObject_Type),
        ::std::option::Option::Some(""mod_bindgen_class.MyClass"")
    );
    #[automatically_derived]
    impl MyClass {
        #[doc = "" My docstring for __init__""]
        pub fn new<'py>(
            py: ::pyo3::marker::Python<'py>,
            p_my_arg1: &str,
            p_my_arg2: ::std::option::Option<i64>,
        ) -> ::pyo3::PyResult<::pyo3::Bound<'py, Self>> {
            ::pyo3::types::PyAnyMethods::extract(
                &::pyo3::types::PyAnyMethods::call1(
                    ::pyo3::types::PyAnyMethods::getattr(
                            py
                                .import_bound(::pyo3::intern!(py, ""mod_bindgen_class""))?
                                .as_any(),
                            ::pyo3::intern!(py, ""MyClass""),
                        )?
                        .as_any(),
                    ::pyo3::types::PyTuple::new_bound(
                        py,
                        [
                            ::pyo3::ToPyObject::to_object(&p_my_arg1, py),
                            ::pyo3::ToPyObject::to_object(&p_my_arg2, py),
                        ],
                    ),
                )?,
            )
        }
    }
    #[doc = "" These methods are defined for the `Bound<'py, T>` smart pointer, so to use""]
    #[doc = "" method call syntax these methods are separated into a trait, because stable""]
    #[doc = "" Rust does not yet support `arbitrary_self_types`.""]
    #[doc(alias = ""MyClass"")]
    #[automatically_derived]
    pub trait MyClassMethods {
        fn my_method<'py>(
            &'py self,
            p_my_arg1: &::std::collections::HashMap<::std::string::String, i64>,
            p_kwargs: ::std::option::Option<::pyo3::Bound<'py, ::pyo3::types::PyDict>>,
        ) -> ::pyo3::PyResult<::pyo3::Bound<'py, ::pyo3::types::PyAny>>;
        fn my_property<'py>(&'py self) -> ::pyo3::PyResult<i64>;
        fn set_my_property<'py>(&'py self, p_value: i64) -> ::pyo3::PyResult<()>;
    }
    #[automatically_derived]
    impl MyClassMethods for ::pyo3::Bound<'_, MyClass> {
        #[doc = "" My docstring for `my_method`""]
        fn my_method<'py>(
            &'py self,
            p_my_arg1: &::std::collections::HashMap<::std::string::String, i64>,
            p_kwargs: ::std::option::Option<::pyo3::Bound<'py, ::pyo3::types::PyDict>>,
        ) -> ::pyo3::PyResult<::pyo3::Bound<'py, ::pyo3::types::PyAny>> {
            let py = self.py();
            let p_kwargs = if let Some(p_kwargs) = p_kwargs {
                ::pyo3::types::IntoPyDict::into_py_dict_bound(p_kwargs, py)
            } else {
                ::pyo3::types::PyDict::new_bound(py)
            };
            ::pyo3::types::PyAnyMethods::extract(
                &::pyo3::types::PyAnyMethods::call_method(
                    self.as_any(),
                    ::pyo3::intern!(py, ""my_method""),
                    ::pyo3::types::PyTuple::new_bound(
                        py,
                        [::pyo3::ToPyObject::to_object(&p_my_arg1, py)],
                    ),
                    Some(&p_kwargs),
                )?,
            )
        }
        fn my_property<'py>(&'py self) -> ::pyo3::PyResult<i64> {
            ::pyo3::types::PyAnyMethods::extract(
                &::pyo3::types::PyAnyMethods::getattr(
                    self.as_any(),
                    ::pyo3::intern!(self.py(), ""my_property""),
                )?,
            )
        }
        fn set_my_property<'py>(&'py self, p_value: i64) -> ::pyo3::PyResult<()> {
            let py = self.py();
            ::pyo3::types::PyAnyMethods::setattr(
                self.as_any(),
                ::pyo3::intern!(py, ""my_property""),
                p_value,
            )
        }
    }
    pub fn my_function_with_class_param<'py>(
        py: ::pyo3::marker::Python<'py>,
        p_my_arg1: &::pyo3::Bound<'py, MyClass>,
    ) -> ::pyo3::PyResult<::pyo3::Bound<'py, ::pyo3::types::PyAny>> {
        ::pyo3::types::PyAnyMethods::extract(
            &::pyo3::types::PyAnyMethods::call_method1(
                py.import_bound(::pyo3::intern!(py, ""mod_bindgen_class""))?.as_any(),
                ::pyo3::intern!(py, ""my_function_with_class_param""),
                ::pyo3::types::PyTuple::new_bound(
                    py,
                    [::pyo3::ToPyObject::to_object(&p_my_arg1, py)],
                ),
            )?,
        )
    }
    pub fn my_function_with_class_return<'py>(
        py: ::pyo3::marker::Python<'py>,
    ) -> ::pyo3::PyResult<::pyo3::Bound<'py, MyClass>> {
        ::pyo3::types::PyAnyMethods::extract(
            &::pyo3::types::PyAnyMethods::call_method0(
                py.import_bound(::pyo3::intern!(py, ""mod_bindgen_class""))?.as_any(),
                ::pyo3::intern!(py, ""my_function_with_class_return""),
            )?,
        )
    }
}".

Example tests_property : shown (generated property_env property_py "mod_bindgen_property") = expected property_rs /\ expected property_rs <> None.
Proof. split; [now vm_compute|discriminate]. Qed.
Example tests_function : shown (generated function_env function_py "mod_bindgen_function") = expected function_rs /\ expected function_rs <> None.
Proof. split; [now vm_compute|discriminate]. Qed.
Example tests_class : shown (generated class_env class_py "mod_bindgen_class") = expected class_rs /\ expected class_rs <> None.
Proof. split; [now vm_compute|discriminate]. Qed.
