(** * Names defined in a scope (C32) *)
From Verif Require Import Base Model_Ident Model_Path Model_Import Model_Type Model_IntoRs Model_Out Model_Function Model_Property Model_Class Model_Module
  Spec_Path Spec_Names Spec_Tree Spec_Attr Spec_Use.

(** The function in front of an embedded text, module.rs:485 *)
Definition embed_name : ident := u "pyo3_embed_python_source_code".
Definition used_name (v : use_item) : list ident := match bound_name v with Some n => [n] | None => [] end.
(** The names that a scope defines, as functions or as types and modules. The tuple struct of a class is both;
    an import is taken to be both. *)
Definition value_name (f : frag) : list ident :=
  match f with
  | GFn d => [k_name (f_contract d)]
  | GStruct n => [n]
  | GEmbed _ _ _ => [embed_name]
  | GUse v => used_name v
  | GUseSuper l => l
  | _ => []
  end.
Definition type_name (f : frag) : list ident :=
  match f with
  | GType n | GStruct n | GTrait n _ | GMod n _ => [n]
  | GUse v => used_name v
  | GUseSuper l => l
  | _ => []
  end.
(** The functions of an [impl] block or a trait *)
Definition block_name (f : frag) : list ident :=
  match f with GFn d => [k_name (f_contract d)] | GDecl k => [k_name k] | _ => [] end.
Definition value_names (k : list frag) : list ident := flat_map value_name k.
Definition type_names (k : list frag) : list ident := flat_map type_name k.
Definition block_names (b : list frag) : list ident := flat_map block_name b.
(** [r#f] and [f] are the same name. *)
Definition once (l : list ident) : Prop := NoDup (map as_py l).
Definition no_clash (k : list frag) : Prop :=
  once (value_names k) /\ once (type_names k) /\
  (forall n b, In (GImpl n b) k -> once (block_names b)) /\
  (forall n b, In (GTrait n b) k -> once (block_names b)) /\
  (forall t n b, In (GImplFor t n b) k -> once (block_names b)).

(** ** Python names that do not clash in Rust
    A class: the setter, and the getters that are renamed because of [new] and [call] *)
Record clear_class (U : uni) (c : class) : Prop := mk_clear_class {
  cc_methods : forall f n, In f (cl_methods c) -> called U (fn_name f) n -> spellable_name U n;
  cc_props : forall p n, In p (cl_props c) -> called U (pr_name p) n -> spellable_name U n;
  cc_set : forall p q n, In p (cl_props c) -> In q (cl_props c) -> pr_mutable p = true -> called U (pr_name p) n -> ~ called U (pr_name q) (u "set_" ++ n);
  cc_get : forall p q n, In p (cl_props c) -> In q (cl_props c) -> n = u "new" \/ n = u "call" -> called U (pr_name p) n -> ~ called U (pr_name q) (u "get_" ++ n);
  cc_call : forall f p j, In f (cl_methods c) -> called U (fn_name f) (u "__call__") -> In p (cl_props c) -> ~ called U (pr_name p) (numbered (u "call") (S j)) }.
(** A module *)
Definition function_or_variable (it : item) : Prop := match it with AFunction _ | AProperty _ => True | _ => False end.
Record clear (U : uni) (m : module) : Prop := mk_clear {
  cr_spelled : forall it p n, has m it -> item_path it = Some p -> called U p n -> spellable_name U n;
  cr_set : forall q n it p, In q (m_properties m) -> called U (pr_name q) n -> has m it -> item_path it = Some p -> called U p (u "set_" ++ n) ->
    match it with AFunction _ | ATypeVar _ => True | _ => False end;
  cr_trait : forall c n, In c (m_classes m) -> called U (cl_name c) n ->
    (forall it p, has m it -> item_path it = Some p -> called U p (n ++ u "Methods") -> function_or_variable it) /\
    (forall s, In s (m_subs m) -> ~ called U (m_name s) (n ++ u "Methods"));
  cr_sub : forall s n it p, In s (m_subs m) -> called U (m_name s) n -> has m it -> item_path it = Some p -> called U p n -> function_or_variable it;
  cr_embed : m_source m <> None -> forall it p, has m it -> item_path it = Some p -> called U p embed_name -> match it with ATypeVar _ => True | _ => False end;
  cr_classes : forall c, In c (m_classes m) -> clear_class U c }.
