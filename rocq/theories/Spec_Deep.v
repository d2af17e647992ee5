(** * What a package takes from a submodule that it covers (C82) *)
From Verif Require Import Base Model_Ident Model_Path Model_Import Model_Config Model_Type Model_World Model_Function Model_Property Model_Class Model_Module Model_Parse Spec_Tree Spec_Api.

(** [moved it it' p]: the item under the path [p] *)
Definition moved (it it' : item) (p : path) : Prop :=
  match it, it' with
  | AnImport i, AnImport j => j = mk_import (im_origin i) p (im_type i)
  | AClass c, AClass d => d = mk_class p (cl_methods c) (cl_props c) (cl_doc c)
  | ATypeVar _, ATypeVar q => q = p
  | AFunction f, AFunction g => g = mk_func p (fn_typ f) (fn_params f) (fn_ret f) (fn_doc f)
  | AProperty a, AProperty b => b = mk_property p (pr_owner a) (pr_mutable a) (pr_ann a) (pr_setter_ann a) (pr_doc a) (pr_setter_doc a)
  | _, _ => False
  end.
