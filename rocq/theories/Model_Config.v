(** * Model of config.rs *)
From Verif Require Import Base Model_Ident Model_Path.

(** config.rs:4 *)
Definition forbidden_function_names : list str := map u ["get_type"; "obj"; "py"; "repr"; "str"]%string.
(** config.rs:6-14 *)
Definition forbidden_type_names : list str :=
  map u ["_collections._tuplegetter"; "AsyncState"; "getset_descriptor"; "member_descriptor";
         "method_descriptor"; "property"; "py"]%string.
(** config.rs:17 *)
Definition default_blocklist : list str := map u ["builtins"; "testing"; "tests"; "test"]%string.

(** config.rs:20-69 *)
Record config := mk_config {
  traverse_submodules : bool;
  generate_preludes : bool;
  generate_imports : bool;
  generate_classes : bool;
  generate_type_vars : bool;
  generate_functions : bool;
  generate_properties : bool;
  generate_docs : bool;
  blocklist_names : list str;
  include_private : bool;
  generate_dependencies : bool;
  suppress_python_stdout : bool;
  suppress_python_stderr : bool
}.

(** config.rs:71-75 *)
Definition default_config : config := {|
  traverse_submodules := true; generate_preludes := true; generate_imports := true;
  generate_classes := true; generate_type_vars := true; generate_functions := true;
  generate_properties := true; generate_docs := true; blocklist_names := default_blocklist;
  include_private := false; generate_dependencies := false;
  suppress_python_stdout := true; suppress_python_stderr := true |}.

(** config.rs:78-104 [is_attr_allowed]; the attribute's type is ignored by the code. *)
Definition is_attr_allowed (cfg : config) (attr_name : ident) (attr_module : path) : bool :=
  negb (mem_str (as_py attr_name) forbidden_function_names
        || (negb (include_private cfg)
            && (starts_with [c_us] (as_py attr_name)
                || existsb (fun segment => starts_with [c_us] (as_py segment)) (segs attr_module)))
        || existsb (str_eqb (as_py attr_name)) (blocklist_names cfg)
        || existsb (fun segment => str_eqb (as_py segment) (u "__future__")) (segs attr_module)
        || existsb (fun segment => str_eqb (as_py segment) (u "typing")) (segs attr_module)).
