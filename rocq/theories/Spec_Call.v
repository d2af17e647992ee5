(** * Python argument binding, and the meaning of the generated call expressions

    Independent of how the engine builds them. Values are opaque ([V]). *)
From Verif Require Import Base Model_Ident Model_Path Model_IntoRs Model_World Model_Out Spec_Path.

(** ** A Python signature as the interpreter sees it *)
Record pyparam := mk_pyparam { pp_name : str; pp_kind : pkind; pp_default : bool }.

Definition kind_rank (k : pkind) : nat :=
  match k with
  | PositionalOnly => 0 | PositionalOrKeyword => 1 | VarPositional => 2 | KeywordOnly => 3 | VarKeyword => 4
  end.
Definition positional (k : pkind) : bool := match k with PositionalOnly | PositionalOrKeyword => true | _ => false end.
Definition by_keyword (k : pkind) : bool := match k with PositionalOrKeyword | KeywordOnly => true | _ => false end.

(** Kinds come in order, [*args] and [**kwargs] at most once. *)
Fixpoint kinds_ordered (l : list pkind) : Prop :=
  match l with
  | a :: ((b :: _) as r) => (kind_rank a < kind_rank b \/ (a = b /\ a <> VarPositional /\ a <> VarKeyword)) /\ kinds_ordered r
  | _ => True
  end.
(** [inspect.Signature] describes this signature; the numbers are those of [inspect._ParameterKind]. *)
Definition kind_number (k : pkind) : N :=
  match k with
  | PositionalOnly => 0 | PositionalOrKeyword => 1 | VarPositional => 2 | KeywordOnly => 3 | VarKeyword => 4
  end%N.
Definition describes (sg : signature) (s : list pyparam) : Prop :=
  Forall2 (fun sp p => sp_name sp = pp_name p /\ sp_kind sp = kind_number (pp_kind p) /\ sp_default sp = pp_default p)
          (sig_params sg) s.
Definition sig_ok (s : list pyparam) : Prop :=
  kinds_ordered (map pp_kind s) /\ NoDup (map pp_name s).

(** What a parameter is bound to. *)
Inductive bound (V : Type) :=
| BOne (v : V) | BTuple (l : list V) | BDict (l : list (str * V)) | BDefault.
Arguments BOne {V} v. Arguments BTuple {V} l. Arguments BDict {V} l. Arguments BDefault {V}.

Section binding.
  Context {V : Type}.
  Fixpoint kw_get (n : str) (kw : list (str * V)) : option V :=
    match kw with [] => None | (k, v) :: r => if str_eqb k n then Some v else kw_get n r end.

  (** The language reference, "Calls": positional arguments fill the positional parameters from the
      left, the rest goes to [*args]; a keyword fills the parameter of that name unless it is already
      filled (an error) or positional-only; unknown keywords go to [**kwargs]; what is left takes its
      default or is an error. [None] is [TypeError]. *)
  Definition is_keyword_of (s : list pyparam) (n : str) : bool :=
    existsb (fun p => by_keyword (pp_kind p) && str_eqb (pp_name p) n) s.
  Definition or_default (p : pyparam) (v : option V) : option (bound V) :=
    match v with Some v => Some (BOne v) | None => if pp_default p then Some BDefault else None end.
  Fixpoint fill (all s : list pyparam) (pos : list V) (kw : list (str * V)) : option (list (str * bound V)) :=
    match s with
    | [] => match pos with [] => Some [] | _ => None end
    | p :: r =>
        let cons b pos' := option_map (fun l => (pp_name p, b) :: l) (fill all r pos' kw) in
        match pp_kind p with
        | PositionalOnly =>
            match pos with
            | v :: pos' => cons (BOne v) pos'
            | [] => if pp_default p then cons BDefault [] else None
            end
        | PositionalOrKeyword =>
            match pos with
            | v :: pos' => match kw_get (pp_name p) kw with None => cons (BOne v) pos' | Some _ => None end
            | [] => match or_default p (kw_get (pp_name p) kw) with Some b => cons b [] | None => None end
            end
        | VarPositional => cons (BTuple pos) []
        | KeywordOnly => match or_default p (kw_get (pp_name p) kw) with Some b => cons b pos | None => None end
        | VarKeyword => cons (BDict (filter (fun e => negb (is_keyword_of all (fst e))) kw)) pos
        end
    end.
  Definition has_var_kw (s : list pyparam) : bool := existsb (fun p => pkind_eqb (pp_kind p) VarKeyword) s.
  Definition bind_args (s : list pyparam) (pos : list V) (kw : list (str * V)) : option (list (str * bound V)) :=
    if has_var_kw s || forallb (fun e => is_keyword_of s (fst e)) kw then fill s s pos kw else None.

  (** ** Meaning of the generated expressions
      The Rust variables in scope, after conversion to Python. *)
  Inductive rval := VOne (v : V) | VTuple (l : list V) | VDict (l : list (str * V)).
  Definition renv := list (str * rval).
  Fixpoint var (rho : renv) (x : str) : option rval :=
    match rho with [] => None | (y, v) :: r => if str_eqb y x then Some v else var r x end.
  Definition one (rho : renv) (x : str) : option V := match var rho x with Some (VOne v) => Some v | _ => None end.
  Fixpoint ones (rho : renv) (l : list str) : option (list V) :=
    match l with
    | [] => Some []
    | x :: r => match one rho x, ones rho r with Some v, Some vs => Some (v :: vs) | _, _ => None end
    end.
  Definition tup (rho : renv) (x : str) : option (list V) := match var rho x with Some (VTuple l) => Some l | _ => None end.
  Definition dic (rho : renv) (x : str) : option (list (str * V)) := match var rho x with Some (VDict l) => Some l | _ => None end.

  Definition eval_pos (rho : renv) (p : pos_args) : option (list V) :=
    match p with
    | PAUnit => Some []
    | PAVar x => tup rho x
    | PAFixed l => ones rho l
    | PABoth l x => match ones rho l, tup rho x with Some a, Some b => Some (a ++ b) | _, _ => None end
    end.
  (** [dict[k] = v]: replaces in place or appends. *)
  Fixpoint set_item (d : list (str * V)) (k : str) (v : V) : list (str * V) :=
    match d with
    | [] => [(k, v)]
    | (k', v') :: r => if str_eqb k' k then (k, v) :: r else (k', v') :: set_item r k v
    end.
  Fixpoint set_items (rho : renv) (d : list (str * V)) (l : list (str * str)) : option (list (str * V)) :=
    match l with
    | [] => Some d
    | (k, x) :: r => match one rho x with Some v => set_items rho (set_item d k v) r | None => None end
    end.
  Definition eval_kw (rho : renv) (k : kw_args) : option (list (str * V)) :=
    match k with
    | KAVar x => dic rho x
    | KABoth x l => match dic rho x with Some d => set_items rho d l | None => None end
    | KANew => Some []
    | KAFixed l => set_items rho [] l
    end.
  Definition eval_args (rho : renv) (a : args) : option (list V * list (str * V)) :=
    match a with
    | ArgsBoth p k => match eval_pos rho p, eval_kw rho k with Some x, Some y => Some (x, y) | _, _ => None end
    | ArgsPos p => option_map (fun x => (x, [])) (eval_pos rho p)
    | ArgsNone => Some ([], [])
    end.
  Definition body_args (b : body) : option args :=
    match b with BCall a | BCallMethod _ a => Some a | _ => None end.

  (** ** What a Rust caller passes
      One value; any number of values for [*args]; an optional dict for [**kwargs]. *)
  Inductive rarg := AOne (v : V) | ATuple (l : list V) | AOptDict (d : option (list (str * V))).
  (** The Python parameter this is meant for receives: *)
  Definition meant (a : rarg) : bound V :=
    match a with
    | AOne v => BOne v
    | ATuple l => BTuple l
    | AOptDict (Some d) => BDict d
    | AOptDict None => BDict []
    end.
  (** What the variable holds after its preprocessing statement; the arguments of the call are
      built from tuples and dicts only if they were converted to such. (That the value itself
      survives the conversion is a matter of types: C61.) *)
  Definition prepared (p : prep) (a : rarg) : option rval :=
    match a, p with
    | AOne v, _ => Some (VOne v)
    | ATuple l, PrepIntoTuple => Some (VTuple l)
    | AOptDict (Some d), PrepOptDict => Some (VDict d)
    | AOptDict None, PrepOptDict => Some (VDict [])
    | _, _ => None
    end.
  Fixpoint call_env (ps : list (str * prep)) (l : list rarg) : option renv :=
    match ps, l with
    | [], [] => Some []
    | (x, p) :: ps', a :: l' =>
        match prepared p a, call_env ps' l' with Some v, Some rho => Some ((x, v) :: rho) | _, _ => None end
    | _, _ => None
    end.
  (** The arguments of the Python call made by a generated function. *)
  Definition python_call (d : fn_def) (l : list rarg) : option (list V * list (str * V)) :=
    match call_env (f_prep d) l, body_args (f_body d) with
    | Some rho, Some a => eval_args rho a
    | _, _ => None
    end.

  (** Arguments that suit a signature: one value per parameter; keywords given through [**kwargs]
      are distinct and are not the names of other parameters ([all]: the full signature). *)
  Definition suits (all : list pyparam) (p : pyparam) (a : rarg) : Prop :=
    match pp_kind p, meant a with
    | (PositionalOnly | PositionalOrKeyword | KeywordOnly), BOne _ => True
    | VarPositional, BTuple _ => True
    | VarKeyword, BDict d => NoDup (map fst d) /\ forall k, In k (map fst d) -> is_keyword_of all k = false
    | _, _ => False
    end.

  (** The dict objects of the caller that the body writes to. *)
  Definition mutated (b : body) : list str :=
    match body_args b with Some (ArgsBoth _ (KABoth x _)) => [x] | _ => [] end.
End binding.
Arguments rarg V : clear implicits.
Arguments rval V : clear implicits.
Arguments renv V : clear implicits.

(** ** How a class stores a method
    [reaches w o l c]: walking the attributes [l] from [o] leads to [c]. *)
Inductive reaches (w : world) : oid -> list str -> oid -> Prop :=
| reaches_here : forall o, reaches w o [] o
| reaches_step : forall o x o' l c, w_getattr w o x = Some o' -> reaches w o' l c -> reaches w o (x :: l) c.
(** The class at the dotted path [r.l] has [n] in its own [__dict__], stored as [st]. *)
Definition stores (w : world) (r : str) (l : list str) (n : str) (st : storage) : Prop :=
  exists m c, w_import w r = Some m /\ reaches w m l c /\ w_stored w c n = Some st.

(** ** Reading the output *)
Definition frags_of (i : fn_impl) : list frag := match i with IFunction l => l | IMethod _ l => l end.
Definition decls_of (i : fn_impl) : list frag := match i with IFunction _ => [] | IMethod l _ => l end.

(** The parameter names are Python identifiers; none has a given name. *)
Definition names_ok (U : uni) (s : list pyparam) : Prop := forall p, In p s -> py_identifier U (pp_name p).
Definition no_name (n : String.string) (s : list pyparam) : Prop := forall p, In p s -> pp_name p <> u n.

(** The Rust variables that a body mentions. *)
Definition pos_vars (p : pos_args) : list ident :=
  match p with PAUnit => [] | PAVar v => [v] | PAFixed l => l | PABoth l v => l ++ [v] end.
Definition kw_vars (k : kw_args) : list ident :=
  match k with KAVar v => [v] | KANew => [] | KAFixed l => map snd l | KABoth v l => v :: map snd l end.
Definition args_vars (a : args) : list ident :=
  match a with ArgsBoth p k => pos_vars p ++ kw_vars k | ArgsPos p => pos_vars p | ArgsNone => [] end.
Definition body_vars (b : body) : list ident :=
  match b with BCall a | BCallMethod _ a => args_vars a | BGet _ => [] | BSet _ v => [v] end.
