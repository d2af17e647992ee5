(** * Model of syntax/module.rs: the module tree and its generation *)
From Verif Require Import Base Model_Ident Model_Path Model_Import Model_Text Model_Config Model_Type Model_IntoRs
  Model_World Model_Out Model_Function Model_Property Model_Class.

(** module.rs:10-23; a type variable is its path *)
Inductive module := mk_module {
  m_name : path; m_prelude : list ident; m_imports : list import; m_subs : list module;
  m_classes : list class; m_typevars : list path; m_functions : list func; m_properties : list property;
  m_doc : option str; m_is_package : bool; m_source : option str }.

(** ** Derived equality *)
Definition list_dec {A} (d : forall x y : A, {x = y} + {x <> y}) : forall l k : list A, {l = k} + {l <> k} := list_eq_dec d.
Definition option_dec {A} (d : forall x y : A, {x = y} + {x <> y}) (a b : option A) : {a = b} + {a <> b}.
Proof. decide equality. Defined.
Definition str_dec (a b : str) : {a = b} + {a <> b} := list_eq_dec N.eq_dec a b.
Fixpoint ptype_dec (a b : ptype) {struct a} : {a = b} + {a <> b}.
Proof. decide equality; solve [apply str_dec | apply (list_eq_dec ptype_dec)]. Defined.
Definition path_dec (a b : path) : {a = b} + {a <> b}.
Proof. decide equality; [apply (list_eq_dec str_dec)|apply Bool.bool_dec]. Defined.
Definition import_dec (a b : import) : {a = b} + {a <> b}.
Proof. decide equality; [decide equality|apply path_dec|apply path_dec]. Defined.
(** function.rs:676-683: [default] is compared by presence, which is all the model keeps. *)
Definition param_dec (a b : param) : {a = b} + {a <> b}.
Proof. decide equality; [apply Bool.bool_dec|apply ptype_dec|decide equality|apply str_dec]. Defined.
Definition ftype_dec (a b : ftype) : {a = b} + {a <> b}.
Proof. decide equality; [decide equality|apply path_dec]. Defined.
Definition func_dec (a b : func) : {a = b} + {a <> b}.
Proof. decide equality; [apply (option_dec str_dec)|apply ptype_dec|apply (list_eq_dec param_dec)|apply ftype_dec|apply path_dec]. Defined.
Definition property_dec (a b : property) : {a = b} + {a <> b}.
Proof.
  decide equality; [apply (option_dec str_dec)|apply (option_dec str_dec)|apply ptype_dec|apply ptype_dec|apply Bool.bool_dec
                   |decide equality|apply path_dec].
Defined.
Definition class_dec (a b : class) : {a = b} + {a <> b}.
Proof. decide equality; [apply (option_dec str_dec)|apply (list_eq_dec property_dec)|apply (list_eq_dec func_dec)|apply path_dec]. Defined.
Fixpoint module_dec (a b : module) {struct a} : {a = b} + {a <> b}.
Proof.
  decide equality; solve [apply (option_dec str_dec) | apply Bool.bool_dec | apply (list_eq_dec property_dec) | apply (list_eq_dec func_dec)
    | apply (list_eq_dec path_dec) | apply (list_eq_dec class_dec) | apply (list_eq_dec module_dec) | apply (list_eq_dec import_dec)
    | apply (list_eq_dec str_dec) | apply path_dec].
Defined.

(** ** Existence checks *)
Definition has_path {A} (name : A -> path) (p : path) (l : list A) : bool := existsb (fun x => path_eqb (name x) p) l.

(** module.rs:673-690 [check_path_exists_recursive(path, false)]; the engine never passes [true]. *)
Fixpoint path_exists (p : path) (m : module) : bool :=
  has_path m_name p (m_subs m) || has_path cl_name p (m_classes m) || has_path fn_name p (m_functions m)
  || has_path (fun x => x) p (m_typevars m) || has_path pr_name p (m_properties m)
  || existsb (path_exists p) (m_subs m).

(** [iter().any(|x| x.name.name() == ident)]: stops at the first match; [name()] of an empty path panics. *)
Fixpoint any_named {A} (name : A -> path) (i : ident) (l : list A) : outcome bool :=
  match l with
  | [] => Ok false
  | x :: r => let! n := path_name (name x) in if ident_eqb n i then Ok true else any_named name i r
  end.
Definition or_lazy (a b : outcome bool) : outcome bool := let! x := a in if x then Ok true else b.
(** module.rs:692-712 [check_ident_exists_immediate] *)
Definition ident_exists (m : module) (i : ident) (consider_imports : bool) : outcome bool :=
  or_lazy (if consider_imports then any_named im_target i (m_imports m) else Ok false)
  (or_lazy (any_named m_name i (m_subs m))
  (or_lazy (any_named cl_name i (m_classes m))
  (or_lazy (any_named fn_name i (m_functions m))
  (or_lazy (any_named (fun x => x) i (m_typevars m))
           (any_named pr_name i (m_properties m)))))).

(** ** The table of types known in a module, module.rs:360-390
    A later entry of the iterator replaces an earlier one with the same key, so the list is reversed
    and the first match counts. *)
Definition set_first (p : path) (i : ident) : outcome path :=
  match segs p with [] => Panic PIndex | _ :: r => Ok (mk_path (leading_colon p) (i :: r)) end.
Definition alias_key (dbg : bool) (U : uni) (im : import) (p : path) : outcome path :=
  match strip_prefix (to_py (im_origin im) ++ [c_dot]) (to_py p) with
  | Some stripped =>
      let! q := path_from_py_chk dbg U stripped in
      let! tn := path_name (im_target im) in set_first q tn
  | None => let! tn := path_name (im_target im) in Ok (path_of_ident tn)
  end.
Definition alias_entries (dbg : bool) (U : uni) (self : path) (all_types : list path) (im : import) : outcome table :=
  mapM (fun p => let! key := alias_key dbg U im p in
                 let! rel := relative_to self p false in Ok (key, rel))
       (filter (fun p => path_starts_with p (im_origin im)) all_types).
Definition local_types (dbg : bool) (U : uni) (m : module) (all_types : list path) : outcome table :=
  let! own := mapM (fun p => let! rel := relative_to (m_name m) p false in Ok (p, rel)) all_types in
  let! aliased := mapM (alias_entries dbg U (m_name m) all_types) (m_imports m) in
  Ok (rev (own ++ concat aliased)).

(** ** Generation *)

(** What generation needs besides the module: configuration, importability, build profile, features,
    Unicode tables, the final top-level modules and the list of all types. *)
Record mctx := mk_mctx { mx_cfg : config; mx_imp : str -> bool; mx_dbg : bool; mx_numpy : bool; mx_uni : uni;
                         mx_top : list module; mx_types : list path }.

Fixpoint filterM {A} (f : A -> outcome bool) (l : list A) : outcome (list A) :=
  match l with
  | [] => Ok []
  | x :: r => let! b := f x in let! k := filterM f r in Ok (if b then x :: k else k)
  end.

(** module.rs:626-671; note the base name on 656. The search looks at the names of the module's items,
    one more candidate than there are items is enough. *)
Definition item_count (m : module) : nat :=
  length (m_imports m) + length (m_subs m) + length (m_classes m) + length (m_functions m)
  + length (m_typevars m) + length (m_properties m).
Fixpoint first_unused (U : uni) (m : module) (fuel i : nat) : outcome ident :=
  match fuel with
  | O => OutOfFuel
  | S f => let c := candidate U "call" i in
           let! b := ident_exists m c true in if b then first_unused U m f (S i) else Ok c
  end.
Definition gen_prelude (U : uni) (m : module) : outcome (list frag) :=
  match m_prelude m with
  | [] => Ok []
  | _ =>
      let! kept := filterM (fun i => ident_exists m i false) (m_prelude m) in
      let! exports := mapM (ident_to_syn U) kept in
      match exports with
      | [] => Ok []
      | _ => let! c := first_unused U m (S (item_count m)) 0 in
             let! id := ident_to_syn U c in
             Ok [GPub; GMod id [GPub; GUseSuper exports]]
      end
  end.
(** module.rs:408-410: [extend] takes the [Result] as an iterator, an error is dropped. *)
Definition drop_err {A} (m : outcome (list A)) : outcome (list A) := match m with Err _ => Ok [] | _ => m end.

(** module.rs:425-462 *)
Definition only_function (i : fn_impl) : outcome (list frag) :=
  match i with IFunction l => Ok l | IMethod _ _ => Panic PUnreachable end.

Definition use_frags (u : option use_item) : list frag := match u with Some i => [GPub; GUse i] | None => [] end.
Definition when {A} (b : bool) (m : outcome (list A)) : outcome (list A) := if b then m else Ok [].
(** module.rs:478-504 *)
Definition gen_embed (m : module) : list frag :=
  match m_source m with
  | Some src =>
      let n := to_rs (m_name m) in
      [GDoc (u " Embed the Python source code of the module into the Python interpreter");
       GDoc (u " in order to enable the use of the generated Rust bindings.");
       GPub; GEmbed n (n ++ u "/__init__.py") src]
  | None => []
  end.
Definition concatM {A B} (f : A -> outcome (list B)) (l : list A) : outcome (list B) := omap (@concat B) (mapM f l).

(** module.rs:318-522 *)
Fixpoint mod_generate (x : mctx) (m : module) : outcome (list frag) :=
  let U := mx_uni x in
  let cfg := mx_cfg x in
  let top := if in_dec module_dec m (mx_top x) then [GAttr AttrAllow] else [] in
  let! scope := mapM (fun f => path_name (fn_name f)) (m_functions m) in
  let! lt := local_types (mx_dbg x) U m (mx_types x) in
  let g := mk_gctx cfg (mx_imp x) (mk_ctx (mx_dbg x) (mx_numpy x) U lt) in
  let! docs := gen_doc g (m_doc m) in
  let! imports := when (generate_imports cfg)
    (concatM (fun i => omap use_frags (import_generate U i))
       (filter (fun i => existsb (path_exists (im_origin i)) (mx_top x)) (m_imports m))) in
  let! prelude := when (generate_preludes cfg) (drop_err (gen_prelude U m)) in
  let! type_vars := when (generate_type_vars cfg) (concatM (type_var_generate U) (m_typevars m)) in
  let! classes := when (generate_classes cfg) (concatM (class_generate g) (m_classes m)) in
  let! functions := when (generate_functions cfg)
    (concatM (fun f => let! i := fn_generate g scope f in only_function i) (m_functions m)) in
  let! properties := when (generate_properties cfg)
    (concatM (fun p => let! i := prop_generate g scope p in only_function i) (m_properties m)) in
  let! subs := when (traverse_submodules cfg) (concatM (mod_generate x) (m_subs m)) in
  let! name := path_name (m_name m) in
  let! id := match ident_to_syn U name with Err _ => Err ECodegen | r => r end in
  Ok (top ++ docs ++
      [GPub; GMod id (gen_embed m ++ imports ++ prelude ++ type_vars ++ classes ++ functions ++ properties ++ subs)]).
