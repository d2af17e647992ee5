(** * What the engine can observe of Python

    Python objects are opaque handles; every question the engine asks is a function of the handle.
    Introspection is assumed not to change the answers (the engine only imports modules and reads
    attributes). *)
From Verif Require Import Base Model_Type.

Notation oid := N.

(** [inspect.Parameter.kind] (0..4), read as [u8] and converted in function.rs:696-716. *)
Inductive pkind := PositionalOnly | PositionalOrKeyword | VarPositional | KeywordOnly | VarKeyword.
Definition pkind_eqb (a b : pkind) : bool :=
  match a, b with
  | PositionalOnly, PositionalOnly | PositionalOrKeyword, PositionalOrKeyword
  | VarPositional, VarPositional | KeywordOnly, KeywordOnly | VarKeyword, VarKeyword => true
  | _, _ => false
  end.
Definition pkind_of_u8 (k : N) : outcome pkind :=
  match k with
  | 0 => Ok PositionalOnly | 1 => Ok PositionalOrKeyword | 2 => Ok VarPositional
  | 3 => Ok KeywordOnly | 4 => Ok VarKeyword | _ => Panic PUnreachable
  end%N.

(** [inspect.Parameter]: name, kind, annotation ([None] is [empty]), whether there is a default. *)
Record sig_param := mk_sig_param { sp_name : str; sp_kind : N; sp_ann : option pyann; sp_default : bool }.
(** [inspect.Signature] *)
Record signature := mk_signature { sig_params : list sig_param; sig_return : option pyann }.

(** How a class stores an attribute in its [__dict__]: which of the two [isinstance] tests of
    function.rs:148-160 holds. *)
Inductive storage := StoredClassMethod | StoredStaticMethod | StoredOther.

(** What [get_type()] and [inspect] say about an object (attribute_variant.rs:29-59). *)
Record type_facts := mk_type_facts {
  tf_name : str;                  (* type(o).__name__ *)
  tf_module : option str;         (* str(type(o).__module__) *)
  tf_is_module : bool;            (* issubclass(type(o), ModuleType) *)
  tf_is_class : bool;             (* issubclass(type(o), type) *)
  tf_is_builtin_fn : bool;        (* issubclass(type(o), builtin_function_or_method) *)
  tf_is_function : bool;          (* inspect.isfunction(o) *)
  tf_is_method : bool;            (* inspect.ismethod(o) *)
  tf_sub : builtin -> bool;       (* issubclass(type(o), ...), as asked by Type::try_from *)
  tf_text : str                   (* str(type(o)) *)
}.

Record world := mk_world {
  w_import : str -> option oid;            (* importlib: dotted name -> module *)
  w_getattr : oid -> str -> option oid;
  w_str : oid -> str;                      (* str(o) *)
  w_is_none : oid -> bool;
  w_dir : oid -> list str;                 (* str() of the items of dir(o) *)
  w_type : oid -> type_facts;
  w_signature : oid -> option signature;   (* inspect.signature, None if it raises *)
  w_stored : oid -> str -> option storage; (* o.__dict__[name] *)
  w_name : oid -> str;                     (* module.__name__ *)
  w_all : oid -> option (list str);        (* module.__all__ *)
  w_iter_modules : oid -> list str         (* names from pkgutil.iter_modules(module.__path__) *)
}.

(** [getattr(o, name).map(|a| a.to_string())] *)
Definition attr_text (w : world) (o : oid) (name : String.string) : option str :=
  option_map (w_str w) (w_getattr w o (u name)).

(** The docstring blocks: function.rs:44-51, property.rs:73-81 and 111-119, class.rs:127-134,
    module.rs:30-37 and 294-301. *)
Definition read_docstring (w : world) (o : oid) : outcome (option str) :=
  match attr_text w o "__doc__" with
  | None => Err EPy
  | Some d => Ok (match d with [] => None | _ => if str_eqb d (u "None") then None else Some d end)
  end.
