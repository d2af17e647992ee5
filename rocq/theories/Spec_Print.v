(** * The names in generated code (C67) *)
From Verif Require Import Base Spec_Lex Model_Ident Model_Path Model_Import Model_Type Model_IntoRs Model_Out.

(** The names that a template receives: identifiers and segments of paths *)
Fixpoint ty_names (t : rty) : list str :=
  match t with
  | RName s => [s]
  | RVec t | RSlice t | RRef t | RBound t => ty_names t
  | RTup l => flat_map ty_names l
  | RAbs p l | RImpl p l => p ++ flat_map ty_names l
  | RLocal p => segs p
  end.
Definition contract_names (k : contract) : list str :=
  k_name k :: flat_map (fun p => fst p :: ty_names (snd p)) (k_params k) ++ match k_ret k with RetType t => ty_names t | _ => [] end.
Definition pos_names (a : pos_args) : list str := match a with PAUnit => [] | PAVar v => [v] | PAFixed l => l | PABoth l v => v :: l end.
Definition kw_names (a : kw_args) : list str := match a with KAVar v => [v] | KABoth v l => v :: map snd l | KANew => [] | KAFixed l => map snd l end.
Definition args_names (a : args) : list str := match a with ArgsBoth p k => pos_names p ++ kw_names k | ArgsPos p => pos_names p | ArgsNone => [] end.
Definition body_names (b : body) : list str := match b with BCall a | BCallMethod _ a => args_names a | BGet _ => [] | BSet _ v => [v] end.
Definition fn_names (f : fn_def) : list str := contract_names (f_contract f) ++ map fst (f_prep f) ++ body_names (f_body f).
Fixpoint frag_names (x : frag) : list str :=
  match x with
  | GPub | GDoc _ | GAttr _ | GEmbed _ _ _ => []
  | GFn f => fn_names f
  | GDecl k => contract_names k
  | GUse i => use_path i ++ match use_alias i with Some a => [a] | None => [] end
  | GUseSuper l => l
  | GType n | GStruct n | GMacros n _ => [n]
  | GImpl n l | GTrait n l | GMod n l => n :: flat_map frag_names l
  | GImplFor t n l => t :: n :: flat_map frag_names l
  end.

(** ** Texts: the same code with every text that comes from Python replaced *)
Definition retext_lookup (f : str -> str) (l : lookup) : lookup := mk_lookup (f (lk_import l)) (map f (lk_attrs l)).
Definition retext_disp (f : str -> str) (d : disp) : disp := match d with DSelf => DSelf | DImport l => DImport (retext_lookup f l) end.
Definition retext_entry (f : str -> str) (e : str * ident) : str * ident := (f (fst e), snd e).
Definition retext_kw (f : str -> str) (k : kw_args) : kw_args :=
  match k with KABoth v l => KABoth v (map (retext_entry f) l) | KAFixed l => KAFixed (map (retext_entry f) l) | _ => k end.
Definition retext_args (f : str -> str) (a : args) : args := match a with ArgsBoth p k => ArgsBoth p (retext_kw f k) | _ => a end.
Definition retext_body (f : str -> str) (b : body) : body :=
  match b with BCall a => BCall (retext_args f a) | BCallMethod m a => BCallMethod (f m) (retext_args f a) | BGet n => BGet (f n) | BSet n v => BSet (f n) v end.
Definition retext_fn (f : str -> str) (d : fn_def) : fn_def :=
  mk_fn (f_contract d) (f_let_py d) (f_prep d) (retext_disp f (f_disp d)) (retext_body f (f_body d)).
Fixpoint retext (f : str -> str) (x : frag) : frag :=
  match x with
  | GDoc s => GDoc (f s)
  | GFn d => GFn (retext_fn f d)
  | GMacros n s => GMacros n (f s)
  | GImpl n l => GImpl n (map (retext f) l)
  | GTrait n l => GTrait n (map (retext f) l)
  | GImplFor t n l => GImplFor t n (map (retext f) l)
  | GMod n l => GMod n (map (retext f) l)
  | GEmbed m file src => GEmbed (f m) (f file) (f src)
  | GPub | GAttr _ | GDecl _ | GUse _ | GUseSuper _ | GType _ | GStruct _ => x
  end.
(** Tokens without what the literals say *)
Definition blank (t : tok) : tok := match t with TLit _ => TLit [] | _ => t end.
