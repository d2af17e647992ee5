(** * Model of syntax/property.rs *)
From Verif Require Import Base Model_Ident Model_Path Model_Text Model_Config Model_Type Model_IntoRs
  Model_World Model_Out Model_Function.

(** property.rs:6-21 *)
Inductive powner := OwnerModule | OwnerClass.
Record property := mk_property {
  pr_name : path; pr_owner : powner; pr_mutable : bool;
  pr_ann : ptype; pr_setter_ann : ptype;
  pr_doc : option str; pr_setter_doc : option str }.

(** [Type::try_from(property.get_type())], lines 44, 68, 84 *)
Definition type_of (e : env) (o : oid) : outcome ptype :=
  let tf := w_type (e_world e) o in from_class (e_dbg e) (tf_sub tf) (tf_text tf).

(** 53-85: annotation and documentation of the getter *)
Definition read_getter (e : env) (o : oid) : outcome (ptype * option str) :=
  match w_getattr (e_world e) o (u "fget") with
  | Some g =>
      let! ann := match w_signature (e_world e) g with
                  | Some sg => read_ann (e_dbg e) (sig_return sg)
                  | None => type_of e o
                  end in
      let! doc := read_docstring (e_world e) g in Ok (ann, doc)
  | None => let! ann := type_of e o in Ok (ann, None)
  end.

(** 87-134: [None] if there is no setter *)
Definition read_setter (e : env) (o : oid) : outcome (option (ptype * option str)) :=
  match w_getattr (e_world e) o (u "fset") with
  | Some s =>
      if w_is_none (e_world e) s then Ok None
      else
        let! ann := match w_signature (e_world e) s with
                    | Some sg => let! p := unwrap PUnwrap (nth_error (sig_params sg) 1) in
                                 read_ann (e_dbg e) (sp_ann p)
                    | None => Ok TUnknown
                    end in
        let! doc := read_docstring (e_world e) s in Ok (Some (ann, doc))
  | None => Ok None
  end.

(** 121-127 *)
Definition or_else (a b : option str) : option str := match a with Some _ => a | None => b end.

(** 24-147; importing [inspect] and looking up [signature] (49-51) are taken to succeed. *)
Definition prop_parse (e : env) (o : oid) (name : path) (owner : powner) : outcome property :=
  match owner with
  | OwnerModule => let! t := type_of e o in Ok (mk_property name owner true t t None None)
  | OwnerClass =>
      let! (ann, doc) := read_getter e o in
      let! s := read_setter e o in
      Ok (match s with
          | Some (sann, sdoc) => mk_property name owner true ann sann (or_else doc sdoc) (or_else sdoc doc)
          | None => mk_property name owner false ann TUnknown doc None
          end)
  end.

(** ** Generation *)

(** 219-220, 223-224, 235-236, 309-310 *)
Definition name_taken (scope : list ident) (i : ident) : bool :=
  mem_str i scope || mem_str (as_py i) forbidden_function_names.

(** 222-229, 234-241, 308-315: [None] is the early return of an empty method. *)
Definition prefixed_ident (U : uni) (scope : list ident) (prefix : String.string) (name : ident) : outcome (option ident) :=
  let n := ident_from_py U (u prefix ++ as_py name) in
  if name_taken scope n then Ok None else omap Some (ident_to_syn U n).

(** 216-243 *)
Definition getter_ident (U : uni) (scope : list ident) (name : ident) : outcome (option ident) :=
  if syn_ident_ok U (as_rs name) && negb (name_taken scope name) then Ok (Some name)
  else prefixed_ident U scope "get_" name.

(** 246-262, 323-340: the object the attribute belongs to *)
Definition prop_disp (g : gctx) (p : property) : outcome disp :=
  match pr_owner p with
  | OwnerModule =>
      let! q := unwrap PUnreachable (path_parent (pr_name p)) in
      let! l := import_quote (g_imp g) q in Ok (DImport l)
  | OwnerClass => Ok DSelf
  end.
Definition owner_is_class (o : powner) : bool := match o with OwnerClass => true | OwnerModule => false end.

(** function_definition.rs: [TraitMethod] as the pair (trait_fn, impl_fn) *)
Definition trait_method := (list frag * list frag)%type.
Definition declare (o : powner) (k : contract) : list frag := if owner_is_class o then [GDecl k] else [].

(** 196-285 *)
Definition gen_getter (g : gctx) (scope : list ident) (p : property) : outcome trait_method :=
  let! docs := gen_doc g (pr_doc p) in
  let! name := path_name (pr_name p) in
  let! id := getter_ident (g_uni g) scope name in
  match id with
  | None => Ok ([], [])
  | Some id =>
      let! t := into_rs_owned (g_cx g) (pr_ann p) in
      let! d := prop_disp g p in
      let k := mk_contract id (owner_is_class (pr_owner p)) [] (RetType t) in
      Ok (declare (pr_owner p) k, docs ++ [GFn (mk_fn k false [] d (BGet (as_py name)))])
  end.

Definition p_value : ident := u "p_value".

(** 287-362; the type and the conversion come from [annotation], not [setter_annotation]. *)
Definition gen_setter (g : gctx) (scope : list ident) (p : property) : outcome trait_method :=
  let! docs := gen_doc g (pr_setter_doc p) in
  let! name := path_name (pr_name p) in
  let! id := prefixed_ident (g_uni g) scope "set_" name in
  match id with
  | None => Ok ([], [])
  | Some id =>
      let! prep := preprocess_borrowed (g_cx g) (pr_ann p) in
      let! t := into_rs_borrowed (g_cx g) (pr_ann p) in
      let! d := prop_disp g p in
      let k := mk_contract id (owner_is_class (pr_owner p)) [(p_value, t)] RetUnit in
      Ok (declare (pr_owner p) k,
          docs ++ [GFn (mk_fn k (owner_is_class (pr_owner p)) [(p_value, prep)] d (BSet (as_py name) p_value))])
  end.

(** 149-194 *)
Definition prop_generate (g : gctx) (scope : list ident) (p : property) : outcome fn_impl :=
  let! (gt, gi) := gen_getter g scope p in
  let! (st, si) := if pr_mutable p then gen_setter g scope p else Ok ([], []) in
  Ok (match pr_owner p with
      | OwnerModule => IFunction (GPub :: gi ++ (if pr_mutable p then GPub :: si else []))
      | OwnerClass => IMethod (gt ++ st) (gi ++ si)
      end).
