(** * Calls from Rust with values (C77) *)
From Coq Require Import ZArith.
From Verif Require Import Base Model_Ident Model_Path Model_Text Model_Config Model_Type Model_IntoRs Model_World Model_Out Model_Function Model_Property Model_Class Model_Module Model_Parse
  Spec_Path Spec_Names Spec_Call Spec_Prop Spec_Acts Spec_Rust Spec_Value.

(** The objects that a generated function makes of its arguments *)
Definition handed (d : fn_def) (rs : list rv) : list pyv := map (fun e => passed (snd (fst e)) (snd e)) (combine (f_prep d) rs).
(** The arguments have the types of the parameters. *)
Definition well_typed (d : fn_def) (rs : list rv) : Prop := Forall2 (fun p r => typed (snd p) r) (k_params (f_contract d)) rs.
(** No argument is [None] for a dictionary. *)
Definition nothing_replaced (d : fn_def) (rs : list rv) : Prop := Forall2 (fun p r => snd p = PrepOptDict -> r <> ValOption None) (f_prep d) rs.
(** One value for the parameter *)
Definition plain_kind (k : pkind) : bool := match k with VarPositional | VarKeyword => false | _ => true end.
(** The annotations for which C61 and C75 hold *)
Definition fit (t : ptype) : Prop := good_keys t = true /\ faithful t = true.
Definition sound (t : ptype) : Prop := good_keys t = true /\ no_ip t = true /\ no_callable t = true /\ small_tuples t = true.

(** ** [*args] and [**kwargs]
    A tuple is passed on as further arguments, a dictionary as further keywords if its keys are texts. *)
Fixpoint keywords (l : list (pyv * pyv)) : option (list (str * pyv)) :=
  match l with
  | [] => Some []
  | (VStr k, v) :: r => match keywords r with Some kw => Some ((k, v) :: kw) | None => None end
  | _ => None
  end.
Definition spread (k : pkind) (v : pyv) : option (rarg pyv) :=
  match k with
  | VarPositional => match v with VTuple l => Some (ATuple l) | _ => None end
  | VarKeyword => match v with VDict l => match keywords l with Some kw => Some (AOptDict (Some kw)) | None => None end | _ => None end
  | _ => Some (AOne v)
  end.

(** ** Python functions
    From what its parameters are bound to, by name, to the result; [None] if it raises an exception. *)
Definition pyfun := list (str * bound pyv) -> option pyv.
(** What it is entitled to: instances of the annotations, and [own], whatever it asks of [*args] and [**kwargs] (their annotations are not read). *)
Definition entitled (own : bound pyv -> Prop) (k : pkind) (t : ptype) (b : bound pyv) : Prop :=
  match k, b with
  | VarPositional, BTuple _ | VarKeyword, BDict _ => own b
  | (PositionalOnly | PositionalOrKeyword | KeywordOnly), BOne v => conforms t v
  | _, _ => False
  end.
Definition each_entitled (own : bound pyv -> Prop) (s : list pyparam) (ts : list ptype) (bs : list (bound pyv)) : Prop :=
  Forall2 (fun e b => entitled own (pp_kind (fst e)) (snd e) b) (combine s ts) bs.
(** It keeps to its annotations: given what it is entitled to, it returns an instance of the annotation of the result. *)
Definition keeps (own : bound pyv -> Prop) (s : list pyparam) (ts : list ptype) (ret : ptype) (F : pyfun) : Prop :=
  forall bs v, each_entitled own s ts bs -> F (combine (map pp_name s) bs) = Some v -> conforms ret v.

(** ** Calls
    [d] is called with values of its Rust types. [front] and [selfs] are the parameter for the object, if any, and the object. *)
Definition callable (round : Z -> option N) (numpy dbg : bool) (d : fn_def) (sg : signature) (front : list pyparam) (selfs : list pyv) (s : list pyparam) : Prop :=
  exists ts ret,
    Forall2 (fun sp t => sp_kind sp <> 2%N -> sp_kind sp <> 4%N -> read_ann dbg (sp_ann sp) = Ok t) (skipn (length front) (sig_params sg)) ts /\
    read_ann dbg (sig_return sg) = Ok ret /\
    forall rs, well_typed d rs -> Forall2 (fun e r => plain_kind (pp_kind (fst e)) = true -> fit (snd e) /\ vouched (snd e) r) (combine s ts) rs ->
      (* they can be passed on, and are what was given *)
      Forall2 (fun p v => match pp_kind p with VarPositional => exists l, v = VTuple l | VarKeyword => exists l, v = VDict l | _ => True end) s (handed d rs) /\
      (Forall solid rs -> nothing_replaced d rs -> Forall2 (stands round) rs (handed d rs)) /\
      forall args, Forall2 (fun e a => spread (pp_kind (fst e)) (snd e) = Some a) (combine s (handed d rs)) args -> Forall2 (suits (front ++ s)) s args ->
        (* they reach the right parameters *)
        (exists pos kw, python_call d args = Some (pos, kw) /\
           bind_args (front ++ s) (selfs ++ pos) kw = Some (combine (map pp_name (front ++ s)) (map BOne selfs ++ map meant args))) /\
        (* as annotated *)
        forall own : bound pyv -> Prop, (forall p a, In (p, a) (combine s args) -> plain_kind (pp_kind p) = false -> own (meant a)) ->
          each_entitled own s ts (map meant args) /\
          (* and the result comes back *)
          forall F v ty, keeps own s ts ret F -> no_arrays numpy ret -> sound ret -> F (combine (map pp_name s) (map meant args)) = Some v -> small round v ->
            k_ret (f_contract d) = RetType ty -> exists r, extract round ty v = Some r /\ stands round r v.

(** ** Accessors of values of the type [t] *)
Definition accesses (round : Z -> option N) (numpy : bool) (d : fn_def) (t : ptype) : Prop :=
  match f_body d with
  | BGet _ => k_params (f_contract d) = [] /\ exists ty, k_ret (f_contract d) = RetType ty /\
      (no_arrays numpy t -> sound t -> forall v, conforms t v -> small round v -> exists r, extract round ty v = Some r /\ stands round r v)
  | BSet _ n => exists b pr, k_params (f_contract d) = [(n, b)] /\ f_prep d = [(n, pr)] /\
      (fit t -> forall r, typed b r -> (vouched t r -> conforms t (passed pr r)) /\ (solid r -> (pr = PrepOptDict -> r <> ValOption None) -> stands round r (passed pr r)))
  | _ => False
  end.

(** ** The functions of an output, for the objects they are made of *)
Definition ordinary (x : penv) (b : oid) (sg : signature) (front s : list pyparam) : Prop :=
  w_signature (pe_world x) b = Some sg /\ describes sg (front ++ s) /\ sig_ok (front ++ s) /\ names_ok (pe_uni x) (front ++ s) /\
  no_name "_" (front ++ s) /\ no_name "__unknown_self__" s /\ no_name "self" s.
Definition answering (round : Z -> option N) (numpy : bool) (x : penv) : duties :=
  let w := pe_world x in
  mk_duties
    (fun b d => forall sg s, ordinary x b sg [] s -> callable round numpy (pe_dbg x) d sg [] [] s)
    (fun b d => forall sg sr s self, ordinary x b sg [sr] s -> positional (pp_kind sr) = true -> callable round numpy (pe_dbg x) d sg [sr] [self] s)
    (fun b d => exists t, type_of (pe_env x) b = Ok t /\ accesses round numpy d t)
    (fun b d => exists t, ((exists g a, getter_of w b g /\ result_annotation w g a /\ read_ann (pe_dbg x) a = Ok t) \/
                           ((forall g, getter_of w b g -> w_signature w g = None) /\ type_of (pe_env x) b = Ok t)) /\ accesses round numpy d t).
