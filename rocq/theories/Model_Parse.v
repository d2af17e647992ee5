(** * Model of syntax/module.rs: reading a Python module *)
From Coq Require Import Permutation.
From Verif Require Import Base Model_Ident Model_Path Model_Import Model_Text Model_Config Model_Type Model_IntoRs
  Model_World Model_Out Model_Function Model_Property Model_Class Model_Module.

(** The iteration order of a [HashSet] holding the given (distinct) elements; some permutation. *)
Record hash_order := mk_order { ho : forall A : Type, list A -> list A }.
Definition order_ok (h : hash_order) : Prop := forall A (l : list A), Permutation (ho h A l) l.
Arguments ho h {A} l.

(** World, build profile, Unicode tables; configuration; set order *)
Record penv := mk_penv { pe_env : env; pe_cfg : config; pe_ord : hash_order }.
Definition pe_uni (x : penv) : uni := e_uni (pe_env x).
Definition pe_dbg (x : penv) : bool := e_dbg (pe_env x).
Definition pe_world (x : penv) : world := e_world (pe_env x).

(** [Path::from_py(&module.name().unwrap().to_string())]; every module is taken to have a [__name__]. *)
Definition module_path (x : penv) (o : oid) : outcome path := path_from_py_chk (pe_dbg x) (pe_uni x) (w_name (pe_world x) o).

(** module.rs:524-559; the calls to [pkgutil] are taken to succeed. A set is kept without repetitions. *)
Definition insert_name (l : list ident) (i : ident) : list ident := if mem_str i l then l else l ++ [i].
Definition extract_submodules (x : penv) (o : oid) : outcome (list ident) :=
  let! name := module_path x o in
  let! ids := mapM (ident_from_py_chk (pe_dbg x) (pe_uni x)) (w_iter_modules (pe_world x) o) in
  Ok (fold_left insert_name (filter (fun i => is_attr_allowed (pe_cfg x) i name) ids) []).

(** module.rs:561-624. [w_all] is [PyModule::index]. *)
Definition is_public (i : ident) : bool := negb (starts_with [c_us] (as_py i)).
Definition same_set (a b : list ident) : bool := forallb (fun i => mem_str i b) a && forallb (fun i => mem_str i a) b.
Definition is_reexported (x : penv) (o : oid) (name : path) (i : ident) : outcome bool :=
  match w_getattr (pe_world x) o (as_py i) with
  | Some a => match path_root name with
              | Some root => let! m := module_of (pe_env x) a in Ok (path_starts_with m root)
              | None => Ok false
              end
  | None => Ok false
  end.
Definition prelude_allowed (x : penv) (o : oid) (name : path) (i : ident) : bool :=
  match w_getattr (pe_world x) o (as_py i) with
  | Some _ => is_attr_allowed (pe_cfg x) i name
  | None => false
  end.
Definition extract_prelude (x : penv) (o : oid) (name : path) : outcome (list ident) :=
  let read := mapM (ident_from_py_chk (pe_dbg x) (pe_uni x)) in
  let! index := match w_all (pe_world x) o with Some l => let! k := read l in Ok (unique str_eqb k) | None => Ok [] end in
  let! names := read (w_dir (pe_world x) o) in
  if same_set index (filter is_public names) then Ok []
  else
    let! kept := if generate_dependencies (pe_cfg x) then Ok index else filterM (is_reexported x o name) index in
    Ok (filter (prelude_allowed x o name) kept).

(** The lists filled while the attributes are read (module.rs:68-84). *)
Record found := mk_found { fd_imports : list import; fd_conflicts : list import; fd_classes : list class; fd_typevars : list path;
                           fd_functions : list func; fd_properties : list property; fd_subs : list ident }.

(** module.rs:142-152 *)
Fixpoint segments_allowed (cfg : config) (before rest : list ident) : bool :=
  match rest with
  | [] => true
  | i :: r => is_attr_allowed cfg i (path_of_segs before) && segments_allowed cfg (before ++ [i]) r
  end.

(** module.rs:124-170: [None] if the import is skipped *)
Definition import_origin (x : penv) (a : attr) : outcome path :=
  let text := match attr_text (pe_world x) (at_obj a) "__name__" with Some s => s | None => as_py (at_name a) end in
  let! p := path_from_py_chk (pe_dbg x) (pe_uni x) text in path_join (at_module a) p.
Definition read_import (x : penv) (a : attr) (full : path) : outcome (option import) :=
  let! origin := import_origin x a in
  if path_eqb origin full then Ok None
  else if negb (segments_allowed (pe_cfg x) [] (segs origin)) then Ok None
  else omap Some (import_new origin full).

(** module.rs:118-209 *)
Definition module_step (x : penv) (name : path) (st : found) (a : attr) : outcome found :=
  let '(mk_found ims cfs cls tvs fns prs sbs) := st in
  let e := pe_env x in
  let full := path_snoc name (at_name a) in
  let! v := determine e (at_obj a) (at_module a) name true in
  match v with
  | VImport =>
      let! i := read_import x a full in
      Ok (match i with
          | None => st
          | Some i => if mem_str (at_name a) sbs then mk_found ims (cfs ++ [i]) cls tvs fns prs sbs
                      else mk_found (ims ++ [i]) cfs cls tvs fns prs sbs
          end)
  | VModule => Ok (mk_found ims cfs cls tvs fns prs (insert_name sbs (at_name a)))
  | VClass => let! c := class_parse e (pe_cfg x) (at_obj a) full in Ok (mk_found ims cfs (cls ++ [c]) tvs fns prs sbs)
  | VTypeVar => Ok (mk_found ims cfs cls (tvs ++ [full]) fns prs sbs)
  | VFunction => let! f := fn_parse e (at_obj a) full FFunction in Ok (mk_found ims cfs cls tvs (fns ++ [f]) prs sbs)
  | VMethod => Ok st
  | VClosure => let! f := fn_parse e (at_obj a) full FClosure in Ok (mk_found ims cfs cls tvs (fns ++ [f]) prs sbs)
  | VProperty => let! p := prop_parse e (at_obj a) full OwnerModule in Ok (mk_found ims cfs cls tvs fns (prs ++ [p]) sbs)
  end.

(** module.rs:235-274: an item of the overwritten submodule that has the name of the import's origin
    moves to the import's target. *)
Definition opt_list {A} (o : option A) : list A := match o with Some a => [a] | None => [] end.
Definition find_path {A} (name : A -> path) (p : path) (l : list A) : option A := find (fun y => path_eqb (name y) p) l.
Definition retarget (conflict : import) (sub : module) (st : found) : found :=
  let o := im_origin conflict in
  let t := im_target conflict in
  mk_found
    (fd_imports st ++ map (fun i => mk_import (im_origin i) t (im_type i)) (opt_list (find_path im_target o (m_imports sub))))
    (fd_conflicts st)
    (fd_classes st ++ map (fun c => mk_class t (cl_methods c) (cl_props c) (cl_doc c)) (opt_list (find_path cl_name o (m_classes sub))))
    (fd_typevars st ++ map (fun _ => t) (opt_list (find_path (fun y => y) o (m_typevars sub))))
    (fd_functions st ++ map (fun f => mk_func t (fn_typ f) (fn_params f) (fn_ret f) (fn_doc f)) (opt_list (find_path fn_name o (m_functions sub))))
    (fd_properties st ++
       map (fun p => mk_property t (pr_owner p) (pr_mutable p) (pr_ann p) (pr_setter_ann p) (pr_doc p) (pr_setter_doc p))
           (opt_list (find_path pr_name o (m_properties sub))))
    (fd_subs st).

(** module.rs:279-287: import by full name, else the attribute if it is a module *)
Definition find_submodule (x : penv) (o : oid) (full : path) (i : ident) : option oid :=
  match w_import (pe_world x) (to_py full) with
  | Some s => Some s
  | None => match w_getattr (pe_world x) o (as_py i) with
            | Some a => if tf_is_module (w_type (pe_world x) a) then Some a else None
            | None => None
            end
  end.

Section submodules.
  Variable x : penv.
  Variable rec : oid -> outcome module.   (* the recursive call Self::parse *)
  (** module.rs:214-291: the submodules in the order of the set *)
  Definition sub_step (o : oid) (name : path) (acc : found * list module) (i : ident) : outcome (found * list module) :=
    let '(st, subs) := acc in
    let full := path_snoc name i in
    match find_path im_target full (fd_conflicts st) with
    | Some c =>
        match w_import (pe_world x) (to_py full) with
        | None => Ok acc
        | Some s => match rec s with
                    | Ok m => Ok (retarget c m st, subs)
                    | Err _ => Ok acc
                    | Panic k => Panic k
                    | OutOfFuel => OutOfFuel
                    end
        end
    | None =>
        match find_submodule x o full i with
        | None => Ok acc
        | Some s => let! m := rec s in Ok (st, subs ++ [m])
        end
    end.
  Fixpoint sub_steps (o : oid) (name : path) (acc : found * list module) (l : list ident) : outcome (found * list module) :=
    match l with
    | [] => Ok acc
    | i :: r => let! acc' := sub_step o name acc i in sub_steps o name acc' r
    end.

  (** module.rs:54-316 *)
  Definition mod_parse_body (o : oid) : outcome module :=
    let w := pe_world x in
    let cfg := pe_cfg x in
    let! name := module_path x o in
    let! prelude := if generate_preludes cfg then extract_prelude x o name else Ok [] in
    let is_package := match w_getattr w o (u "__path__") with Some _ => true | None => false end in
    let! sbs := if is_package then extract_submodules x o else Ok [] in
    let! st := each_attr (pe_env x) o (fun a => is_attr_allowed cfg (at_name a) (at_module a)) (module_step x name)
                 (unique_names (pe_uni x) [] (w_dir w o)) (mk_found [] [] [] [] [] [] sbs) in
    let! (st', subs) := if traverse_submodules cfg then sub_steps o name (st, []) (ho (pe_ord x) (fd_subs st)) else Ok (st, []) in
    let! doc := read_docstring w o in
    Ok (mk_module name prelude (fd_imports st') subs (fd_classes st') (fd_typevars st') (fd_functions st') (fd_properties st')
          doc is_package None).
End submodules.

Fixpoint mod_parse (x : penv) (fuel : nat) (o : oid) : outcome module :=
  match fuel with
  | O => OutOfFuel
  | S f => mod_parse_body x (mod_parse x f) o
  end.
