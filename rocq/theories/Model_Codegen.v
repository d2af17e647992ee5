(** * Model of codegen.rs *)
From Verif Require Import Base Model_Ident Model_Path Model_Import Model_Text Model_Config Model_Type Model_IntoRs
  Model_World Model_Out Model_Function Model_Property Model_Class Model_Module Model_Parse.

(** codegen.rs:44-50 (the configuration is part of [penv]) *)
Record codegen := mk_codegen { cg_modules : list module; cg_sources : list (str * str) }.
(** codegen.rs:55-60 *)
Definition cg_new : codegen := mk_codegen [] [].

(** codegen.rs:63-74. The redirection of Python's output is modelled separately (Model_Io). *)
Definition cg_module (x : penv) (fuel : nat) (o : oid) (c : codegen) : outcome codegen :=
  let! m := mod_parse x fuel o in Ok (mk_codegen (cg_modules c ++ [m]) (cg_sources c)).
(** codegen.rs:77-84 *)
Definition cg_module_name (x : penv) (fuel : nat) (name : str) (c : codegen) : outcome codegen :=
  match w_import (pe_world x) name with
  | Some o => cg_module x fuel o c
  | None => Err EPy
  end.
(** [HashMap::insert] *)
Definition map_insert (l : list (str * str)) (k v : str) : list (str * str) :=
  (k, v) :: filter (fun e => negb (str_eqb (fst e) k)) l.
Definition map_get (l : list (str * str)) (k : str) : option str :=
  option_map snd (find (fun e => str_eqb (fst e) k) l).
(** codegen.rs:96-110; [o] is the module Python makes of the source, [None] if it raises. *)
Definition cg_module_from_str (x : penv) (fuel : nat) (src name : str) (o : option oid) (c : codegen) : outcome codegen :=
  let c' := mk_codegen (cg_modules c) (map_insert (cg_sources c) name src) in
  match o with Some o => cg_module x fuel o c' | None => Err EPy end.
(** codegen.rs:113-123 and 126-133 *)
Fixpoint cg_modules_all (x : penv) (fuel : nat) (l : list oid) (c : codegen) : outcome codegen :=
  match l with [] => Ok c | o :: r => let! c' := cg_module x fuel o c in cg_modules_all x fuel r c' end.
Fixpoint cg_module_names (x : penv) (fuel : nat) (l : list str) (c : codegen) : outcome codegen :=
  match l with [] => Ok c | s :: r => let! c' := cg_module_name x fuel s c in cg_module_names x fuel r c' end.

(** ** Dependencies, codegen.rs:171-251 *)
Fixpoint imports_of (m : module) : list import := filter import_is_external (m_imports m) ++ flat_map imports_of (m_subs m).
(** 195-215: the last module on the way *)
Fixpoint last_module (w : world) (o : oid) (l : list ident) : oid :=
  match l with
  | [] => o
  | i :: r => match w_getattr w o (as_py i) with
              | Some a => if tf_is_module (w_type w a) then last_module w a r else o
              | None => o
              end
  end.
Definition dependency_module (w : world) (p : path) : outcome oid :=
  let! root := unwrap PUnreachable (path_root p) in
  let! o := unwrap PUnwrap (w_import w (to_py root)) in
  Ok (last_module w o (tl (segs p))).
(** 219-230; the whole dotted name is taken as one identifier. *)
Definition dependency_allowed (x : penv) (o : oid) : outcome bool :=
  let! n := ident_from_py_chk (pe_dbg x) (pe_uni x) (w_name (pe_world x) o) in
  let! m := module_of (pe_env x) o in
  Ok (is_attr_allowed (pe_cfg x) n m).
Fixpoint add_dependencies (x : penv) (fuel : nat) (seen : list str) (l : list path) (ms : list module) : outcome (list module) :=
  match l with
  | [] => Ok ms
  | p :: r =>
      let! o := dependency_module (pe_world x) p in
      let n := w_name (pe_world x) o in
      if mem_str n seen then add_dependencies x fuel seen r ms
      else
        let! b := dependency_allowed x o in
        if b then let! m := mod_parse x fuel o in add_dependencies x fuel (n :: seen) r (ms ++ [m])
        else add_dependencies x fuel (n :: seen) r ms
  end.
Definition parse_dependencies (x : penv) (fuel : nat) (ms : list module) : outcome (list module) :=
  add_dependencies x fuel [] (unique path_eqb (map im_origin (flat_map imports_of ms))) ms.

(** ** The canonical forest, codegen.rs:253-376 *)

(** module.rs:26-52 *)
Definition mod_empty (x : penv) (name : path) : outcome module :=
  match w_import (pe_world x) (to_py name) with
  | None => Err EPy
  | Some o => let! doc := read_docstring (pe_world x) o in Ok (mk_module name [] [] [] [] [] [] [] doc true None)
  end.
(** [unwrap_or_else(|_| unreachable!())] *)
Definition or_unreachable {A} (m : outcome A) : outcome A := match m with Err _ => Panic PUnreachable | _ => m end.
(** 258-270: wrap the module into its parents, from the innermost out *)
Definition with_subs (m : module) (l : list module) : module :=
  mk_module (m_name m) (m_prelude m) (m_imports m) l (m_classes m) (m_typevars m) (m_functions m) (m_properties m)
    (m_doc m) (m_is_package m) (m_source m).
Fixpoint embed_in (x : penv) (full : list ident) (i : nat) (m : module) : outcome module :=
  match i with
  | O => Ok m
  | S j => let! parent := or_unreachable (mod_empty x (path_of_segs (firstn i full))) in
           embed_in x full j (with_subs parent (m_subs parent ++ [m]))
  end.
Definition canonical (x : penv) (m : module) : outcome module :=
  embed_in x (segs (m_name m)) (length (segs (m_name m)) - 1) m.

(** [sort_by(|a, b| a.name.cmp(&b.name))]: stable *)
Fixpoint insert_sorted (m : module) (l : list module) : list module :=
  match l with
  | [] => [m]
  | y :: r => match path_cmp (m_name m) (m_name y) with Gt => y :: insert_sorted m r | _ => m :: l end
  end.
Definition sort_modules (l : list module) : list module := fold_right insert_sorted [] l.
(** 281-294: runs of equal names, in order *)
Fixpoint spans (l : list module) : list (list module) :=
  match l with
  | [] => []
  | m :: r => match spans r with
              | (y :: s) :: t => if path_eqb (m_name m) (m_name y) then (m :: y :: s) :: t else [m] :: (y :: s) :: t
              | t => [m] :: t
              end
  end.

(** 302-361: a [HashSet] of everything, in its order *)
Definition as_set {A} (x : penv) (d : forall a b : A, {a = b} + {a <> b}) (l : list A) : list A := ho (pe_ord x) (nodup d l).
(** [for_each] over the ranges: a run of one module stays as it is. *)
Definition merge_run (merge : list module -> outcome module) (run : list module) : outcome module :=
  match run with [m] => Ok m | _ => merge run end.
Definition merge_siblings (merge : list module -> outcome module) (l : list module) : outcome (list module) :=
  mapM (merge_run merge) (spans (sort_modules l)).
Fixpoint merge_modules (x : penv) (fuel : nat) (input : list module) : outcome module :=
  match fuel with
  | O => OutOfFuel
  | S f =>
      match input with
      | [] => Panic PIndex
      | first :: _ =>
          let! subs := merge_siblings (merge_modules x f) (flat_map m_subs input) in
          Ok (mk_module (m_name first)
                (as_set x str_dec (flat_map m_prelude input))
                (as_set x import_dec (flat_map m_imports input))
                subs
                (as_set x class_dec (flat_map m_classes input))
                (as_set x path_dec (flat_map m_typevars input))
                (as_set x func_dec (flat_map m_functions input))
                (as_set x property_dec (flat_map m_properties input))
                (m_doc first) (m_is_package first) (m_source first))
      end
  end.
Fixpoint depth (m : module) : nat := S (list_max (map depth (m_subs m))).
Definition forest_depth (l : list module) : nat := list_max (map depth l).
Definition merge_duplicates (x : penv) (l : list module) : outcome (list module) :=
  merge_siblings (merge_modules x (forest_depth l)) l.
Definition canonicalize (x : penv) (l : list module) : outcome (list module) :=
  let! k := mapM (canonical x) l in merge_duplicates x k.

(** 378-398 *)
Fixpoint types_of (m : module) : list path := map cl_name (m_classes m) ++ m_typevars m ++ flat_map types_of (m_subs m).
Definition all_types (l : list module) : list path := unique path_eqb (flat_map types_of l).

(** 151-155 *)
Definition with_source (sources : list (str * str)) (m : module) : module :=
  match map_get sources (to_rs (m_name m)) with
  | Some src => mk_module (m_name m) (m_prelude m) (m_imports m) (m_subs m) (m_classes m) (m_typevars m) (m_functions m) (m_properties m)
                  (m_doc m) (m_is_package m) (Some src)
  | None => m
  end.

(** The modules that are finally generated, 137-155 *)
Definition final_modules (x : penv) (fuel : nat) (c : codegen) : outcome (list module) :=
  match cg_modules c with
  | [] => Err ECodegen
  | ms =>
      let! ms1 := if generate_dependencies (pe_cfg x) then parse_dependencies x fuel ms else Ok ms in
      let! ms2 := canonicalize x ms1 in
      Ok (map (with_source (cg_sources c)) ms2)
  end.
(** [imp] and [numpy]: as in [mctx] *)
Definition gen_ctx (x : penv) (numpy : bool) (ms : list module) : mctx :=
  mk_mctx (pe_cfg x) (fun s => match w_import (pe_world x) s with Some _ => true | None => false end)
    (pe_dbg x) numpy (pe_uni x) ms (all_types ms).
(** 136-163 *)
Definition cg_generate (x : penv) (numpy : bool) (fuel : nat) (c : codegen) : outcome (list frag) :=
  let! ms := final_modules x fuel c in concatM (mod_generate (gen_ctx x numpy ms)) ms.
