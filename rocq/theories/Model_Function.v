(** * Model of syntax/function.rs *)
From Verif Require Import Base Model_Ident Model_Path Model_Text Model_Config Model_Type Model_IntoRs
  Model_World Model_Out.

(** function.rs:17-32 *)
Inductive mkind := MInstance | MClass | MStatic | MConstructor | MCallable | MUnknown.
Inductive ftype := FFunction | FMethod (class_path : path) (m : mkind) | FClosure.

(** function.rs:668-674; only whether there is a default is ever looked at. *)
Record param := mk_param { p_name : ident; p_kind : pkind; p_ann : ptype; p_default : bool }.
(** function.rs:8-15 *)
Record func := mk_func { fn_name : path; fn_typ : ftype; fn_params : list param;
                         fn_ret : ptype; fn_doc : option str }.

(** The annotations of [*args] and [**kwargs] (72-76). *)
Definition ann_args : ptype := TTuple [TUnknown].
Definition ann_kwargs : ptype := TOptional (TDict TUnknown TUnknown).
(** 209-225, 267-283, 297-313 *)
Definition generic_params : list param :=
  [mk_param (u "args") VarPositional ann_args false; mk_param (u "kwargs") VarKeyword ann_kwargs false].

Definition r_underscore : ident := u "r#_".
Definition r_self : ident := u "r#self".
Definition first_is_self (ps : list param) : bool :=
  match ps with p :: _ => str_eqb (as_rs (p_name p)) r_self | [] => false end.

(** The world, the build profile and the Unicode tables. *)
Record env := mk_env { e_world : world; e_dbg : bool; e_uni : uni }.

Definition read_ann (dbg : bool) (a : option pyann) : outcome ptype :=
  match a with None => Ok TUnknown | Some x => from_ann dbg x end.

(** 63-102 *)
Definition read_param (e : env) (sp : sig_param) : outcome param :=
  let! name := ident_from_py_chk (e_dbg e) (e_uni e) (sp_name sp) in
  let! kind := pkind_of_u8 (sp_kind sp) in
  let! ann := match kind with
              | VarPositional => Ok ann_args
              | VarKeyword => Ok ann_kwargs
              | _ => read_ann (e_dbg e) (sp_ann sp)
              end in
  Ok (mk_param name kind ann (sp_default sp)).

(** 125-145: the class object, then its [__dict__]. [None] stands for any failure on the way. *)
Fixpoint getattr_chain (w : world) (o : oid) (l : list ident) : option oid :=
  match l with
  | [] => Some o
  | i :: r => match w_getattr w o (as_py i) with Some o' => getattr_chain w o' r | None => None end
  end.
Definition find_storage (w : world) (class_path : path) (root : path) (name : ident) : option storage :=
  match w_import w (to_py root) with
  | None => None
  | Some m => match getattr_chain w m (tl (segs class_path)) with
              | None => None
              | Some c => w_stored w c (as_py name)
              end
  end.
Definition kind_of_storage (s : option storage) : mkind :=
  match s with
  | Some StoredClassMethod => MClass
  | Some StoredStaticMethod => MStatic
  | Some StoredOther => MInstance
  | None => MStatic
  end.

(** 120-174 *)
Definition infer_storage (w : world) (name : path) (t : ftype) : outcome ftype :=
  match t with
  | FMethod cp MUnknown =>
      let! root := unwrap PUnreachable (path_root cp) in
      match w_import w (to_py root) with
      | None => Ok (FMethod cp MStatic)
      | Some _ => let! n := path_name name in Ok (FMethod cp (kind_of_storage (find_storage w cp root n)))
      end
  | _ => Ok t
  end.

(** 179-229 *)
Definition infer_self (t : ftype) (ps : list param) : ftype * list param :=
  match t with
  | FMethod _ (MInstance | MConstructor | MCallable) => (t, ps)
  | FMethod cp _ => if first_is_self ps then (FMethod cp MInstance, ps) else (t, ps)
  | FFunction | FClosure =>
      match ps with
      | p :: r =>
          if first_is_self ps then
            match p_kind p with
            | PositionalOnly | PositionalOrKeyword =>
                (t, mk_param (u "__unknown_self__") (p_kind p) TUnknown (p_default p) :: r)
            | _ => (t, generic_params)
            end
          else (t, ps)
      | [] => (t, ps)
      end
  end.

(** 233-247 *)
Definition fix_empty (name : path) (t : ftype) (ps : list param) : ftype :=
  match t, ps with FMethod _ MInstance, [] => FMethod name MStatic | _, _ => t end.

(** 250-256 *)
Definition drop_receiver (t : ftype) (ps : list param) : outcome (list param) :=
  match t with
  | FMethod _ (MInstance | MConstructor | MCallable) =>
      match ps with [] => Panic PIndex | _ :: r => Ok r end
  | _ => Ok ps
  end.

(** 259-284 *)
Definition guard_self (ps : list param) : list param :=
  if existsb (fun p => str_eqb (as_rs (p_name p)) r_self) ps then generic_params else ps.

(** 35-318 *)
Definition fn_parse (e : env) (o : oid) (name : path) (typ : ftype) : outcome func :=
  let! doc := read_docstring (e_world e) o in
  match w_signature (e_world e) o with
  | None => Ok (mk_func name typ generic_params TUnknown doc)
  | Some sg =>
      let! ps0 := mapM (read_param e) (sig_params sg) in
      let ps1 := filter (fun p => negb (str_eqb (as_rs (p_name p)) r_underscore)) ps0 in
      let! ret := read_ann (e_dbg e) (sig_return sg) in
      let! t1 := infer_storage (e_world e) name typ in
      let '(t2, ps2) := infer_self t1 ps1 in
      let t3 := fix_empty name t2 ps2 in
      let! ps3 := drop_receiver t3 ps2 in
      Ok (mk_func name t3 (guard_self ps3) ret doc)
  end.

(** ** Generation *)

(** What generation depends on: configuration, importability at generation time, and the context of
    type conversion (which has the build profile and the Unicode tables). *)
Record gctx := mk_gctx { g_cfg : config; g_imp : str -> bool; g_cx : ctx }.
Definition g_uni (g : gctx) : uni := cx_uni (g_cx g).

(** 329-336 and the same block elsewhere *)
Definition gen_doc (g : gctx) (d : option str) : outcome (list frag) :=
  if generate_docs (g_cfg g) then
    match d with
    | Some s => let! s' := format_docstring s in Ok [GDoc s']
    | None => Ok []
    end
  else Ok [].

(** [replace(|c| !c.is_alphanumeric(), "_")] *)
Definition sanitize (U : uni) (s : str) : str := map (fun c => if alphanumeric U c then c else c_us) s.

(** 339-367; [None] is the early return of an empty function. *)
Definition fn_ident (U : uni) (name : ident) : option ident :=
  if syn_ident_ok U (as_rs name) then
    if mem_str (as_py name) forbidden_function_names then None else Some name
  else
    let n := ident_from_py U (u "f_" ++ sanitize U (as_py name)) in
    if syn_ident_ok U (as_rs n) then Some n else None.

(** 371, 517, 523, 569, 575 *)
Definition param_ident (U : uni) (p : param) : outcome ident :=
  ident_to_syn U (ident_from_py U (u "p_" ++ as_py (p_name p))).
Definition param_ident_opt (U : uni) (p : param) : option ident :=
  match param_ident U p with Ok i => Some i | _ => None end.

(** 406-418, 431-443, module.rs:652-664: the loop over [base], [base1], [base2], ... *)
Definition candidate (U : uni) (base : String.string) (i : nat) : ident :=
  ident_from_py U (u base ++ match i with O => [] | _ => dec (N.of_nat i) end).
Fixpoint first_free (U : uni) (base : String.string) (taken : ident -> bool) (fuel i : nat) : outcome ident :=
  match fuel with
  | O => OutOfFuel
  | S f => let c := candidate U base i in if taken c then first_free U base taken f (S i) else Ok c
  end.
Definition fresh (U : uni) (base : String.string) (scope : list ident) : outcome ident :=
  first_free U base (fun c => mem_str c scope) (S (length scope)) 0.

Definition of_kinds (ks : list pkind) (ps : list param) : list param :=
  filter (fun p => existsb (pkind_eqb (p_kind p)) ks) ps.

(** 507-556 *)
Definition gen_pos (U : uni) (ps : list param) : outcome (bool * pos_args) :=
  let! fixed := mapM (param_ident U) (of_kinds [PositionalOnly; PositionalOrKeyword] ps) in
  let var := match find (fun p => pkind_eqb (p_kind p) VarPositional) ps with
             | Some p => param_ident_opt U p | None => None end in
  Ok (match var, fixed with
      | Some v, [] => (true, PAVar v)
      | Some v, _ => (true, PABoth fixed v)
      | None, [] => (false, PAUnit)
      | None, _ => (true, PAFixed fixed)
      end).
(** 558-607 *)
Definition gen_kw (U : uni) (ps : list param) : outcome (bool * kw_args) :=
  let named := of_kinds [KeywordOnly] ps in
  let! ids := mapM (param_ident U) named in
  let pairs := combine (map (fun p => as_py (p_name p)) named) ids in
  let var := match find (fun p => pkind_eqb (p_kind p) VarKeyword) ps with
             | Some p => param_ident_opt U p | None => None end in
  Ok (match var, pairs with
      | Some v, [] => (true, KAVar v)
      | Some v, _ => (true, KABoth v pairs)
      | None, [] => (false, KANew)
      | None, _ => (true, KAFixed pairs)
      end).
(** 614-626 and 629-641 *)
Definition gen_args (pos : bool * pos_args) (kw : bool * kw_args) : args :=
  if fst kw then ArgsBoth (snd pos) (snd kw)
  else if fst pos then ArgsPos (snd pos)
  else ArgsNone.

(** 390-460 *)
Definition gen_contract (U : uni) (t : ftype) (scope : list ident) (name : ident)
    (params : list (ident * rty)) (rt : rty) : outcome (bool * contract) :=
  match t with
  | FMethod _ MInstance => Ok (false, mk_contract name true params (RetType rt))
  | FMethod _ MCallable =>
      let! c := fresh U "call" scope in
      let! n := ident_to_syn U c in Ok (false, mk_contract n true params (RetType rt))
  | FMethod _ MConstructor =>
      let! c := fresh U "new" scope in
      let! n := ident_to_syn U c in Ok (true, mk_contract n false params RetSelf)
  | _ => Ok (true, mk_contract name false params (RetType rt))
  end.

(** 475-504; [None] is the early return of an empty method. *)
Definition gen_disp (g : gctx) (f : func) : outcome (option disp) :=
  match fn_typ f with
  | FFunction | FClosure =>
      let! p := unwrap PUnreachable (path_parent (fn_name f)) in
      let! l := import_quote (g_imp g) p in Ok (Some (DImport l))
  | FMethod cp (MClass | MStatic | MConstructor) =>
      let! l := import_quote (g_imp g) cp in Ok (Some (DImport l))
  | FMethod _ (MInstance | MCallable) => Ok (Some DSelf)
  | FMethod _ MUnknown => Ok None
  end.

Definition is_bound (t : ftype) : bool := match t with FMethod _ (MInstance | MCallable) => true | _ => false end.

(** 320-665. [scope] is [scoped_function_idents]. *)
Definition fn_generate (g : gctx) (scope : list ident) (f : func) : outcome fn_impl :=
  let U := g_uni g in
  let! docs := gen_doc g (fn_doc f) in
  let! name := path_name (fn_name f) in
  match fn_ident U name with
  | None => Ok (IFunction [])
  | Some id =>
      let! ids := mapM (param_ident U) (fn_params f) in
      let! preps := mapM (fun p => preprocess_borrowed (g_cx g) (p_ann p)) (fn_params f) in
      let! tys := mapM (fun p => into_rs_borrowed (g_cx g) (p_ann p)) (fn_params f) in
      let! rt := into_rs_owned (g_cx g) (fn_ret f) in
      let! (public, k) := gen_contract U (fn_typ f) scope id (combine ids tys) rt in
      let! d := gen_disp g f in
      match d with
      | None => Ok (IMethod [] [])
      | Some d =>
          let! pos := gen_pos U (fn_params f) in
          let! kw := gen_kw U (fn_params f) in
          let a := gen_args pos kw in
          let b := match fn_typ f with
                   | FMethod _ (MConstructor | MCallable) => BCall a
                   | _ => BCallMethod (as_py name) a
                   end in
          let def := mk_fn k (is_bound (fn_typ f)) (combine ids preps) d b in
          let impl := docs ++ (if public then [GPub] else []) ++ [GFn def] in
          Ok (if is_bound (fn_typ f) then IMethod [GDecl k] impl else IFunction impl)
      end
  end.
