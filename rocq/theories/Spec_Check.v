(** * Checking the bodies of the generated functions (C68)

    A checker for the statements that the templates can produce, written from the documentation of pyo3 0.21:
    which variables are in scope, what type they have after the preparations, and which conversion each use of them needs. *)
From Verif Require Import Base Model_Ident Model_Path Model_Import Model_Type Model_IntoRs Model_World Model_Out Spec_Path Spec_Names Spec_Call Spec_Rust Spec_Api.

(** ** Types
    [pyo3::FromPyObject], for results that do not borrow from the object they are extracted from *)
Fixpoint has_from (t : rty) : bool :=
  match t with
  | RName s => mem_str s (map u ["bool"; "i64"; "f64"; "u8"]%string)
  | RVec t => has_from t
  | RTup l => (1 <=? length l) && (length l <=? 12) && forallb has_from l
  | RAbs p args =>
      match args with
      | [] => is_path p ["std"; "string"; "String"]%string || is_path p ["std"; "path"; "PathBuf"]%string
      | [a] => (is_path p ["std"; "option"; "Option"]%string && has_from a)
               || (is_path p ["std"; "collections"; "HashSet"]%string && has_from a && has_hash a)
               || is_path p ["pyo3"; "Py"]%string
      | [a; b] => is_path p ["std"; "collections"; "HashMap"]%string && has_from a && has_hash a && has_from b
      | _ => false
      end
  | RBound _ => true
  | RSlice _ | RRef _ | RLocal _ | RImpl _ _ => false
  end.
(** pyo3 converts tuples of up to twelve elements. *)
Fixpoint small (t : rty) : bool :=
  match t with
  | RName _ | RLocal _ => true
  | RVec t | RSlice t | RRef t | RBound t => small t
  | RTup l => (length l <=? 12) && forallb small l
  | RAbs _ args | RImpl _ args => forallb small args
  end.
(** Nothing is wrong with the type itself: hashed collections have hashable keys, all paths exist, tuples are small. *)
Definition sound (t : rty) : bool := keys_hashable t && paths_exist t && small t.

(** ** Variables
    The last binding of a name counts. *)
Definition scope := list (ident * rty).
Definition var (E : scope) (x : ident) : option rty := match find (fun e => str_eqb (fst e) x) E with Some e => Some (snd e) | None => None end.
Fixpoint prepare (E : scope) (l : list (ident * prep)) : option scope :=
  match l with
  | [] => Some E
  | (_, PrepNone) :: r => prepare E r
  | (x, p) :: r =>
      match var E x with
      | Some t => match after p t with Some t' => prepare ((x, t') :: E) r | None => None end
      | None => None
      end
  end.
Definition var_is (E : scope) (f : rty -> bool) (x : ident) : bool := match var E x with Some t => f t | None => false end.

(** ** Uses
    [to_object(&x, py)], [set_item(.., x)] and [setattr(.., x)] *)
Definition given_object (E : scope) : ident -> bool := var_is E has_topy.
(** The items of [x] are taken, or [x] itself is passed as [impl IntoPy<Py<PyTuple>>] *)
Definition is_tuple_ref (t : rty) : bool := match t with RRef (RBound (RAbs p [])) => is_path p ["pyo3"; "types"; "PyTuple"]%string | _ => false end.
Definition into_tuple_arg (t : rty) : bool := is_tuple_ref t || impl_into_py "PyTuple" t.
Definition pos_checks (E : scope) (p : pos_args) : bool :=
  match p with
  | PAUnit => true
  | PAVar v => var_is E into_tuple_arg v
  | PAFixed l => forallb (given_object E) l
  | PABoth l v => forallb (given_object E) l && var_is E is_tuple_ref v
  end.
(** The dictionary is passed as [Some(&x)]. *)
Definition kw_checks (E : scope) (k : kw_args) : bool :=
  match k with
  | KAVar v => var_is E is_bound_dict v
  | KABoth v l => var_is E is_bound_dict v && forallb (fun e => given_object E (snd e)) l
  | KANew => true
  | KAFixed l => forallb (fun e => given_object E (snd e)) l
  end.
Definition args_check (E : scope) (a : args) : bool :=
  match a with ArgsBoth p k => pos_checks E p && kw_checks E k | ArgsPos p => pos_checks E p | ArgsNone => true end.
Definition body_checks (E : scope) (b : body) : bool :=
  match b with BCall a | BCallMethod _ a => args_check E a | BGet _ => true | BSet _ x => given_object E x end.

(** Some uses move the variable, so none may be used twice. *)
Fixpoint distinct (l : list ident) : bool := match l with [] => true | x :: r => negb (mem_str x r) && distinct r end.

(** ** Functions
    A function stands in a module, in [impl Struct] or in [impl Trait for Bound<Struct>]. *)
Inductive place := AtModule | InImpl | InTrait.
Definition stands_at (k : list frag) (pl : place) (d : fn_def) : Prop :=
  match pl with
  | AtModule => In (GFn d) k
  | InImpl => exists n b, In (GImpl n b) k /\ In (GFn d) b
  | InTrait => exists t n b, In (GImplFor t n b) k /\ In (GFn d) b
  end.
(** [py] is a parameter or [let py = self.py();] comes first; only a getter that acts on [self] does without. *)
Definition has_py (d : fn_def) : bool := negb (k_self (f_contract d)) || f_let_py d.
Definition needs_py (d : fn_def) : bool :=
  match f_body d, f_disp d with BGet _, DSelf => existsb (fun e => match snd e with PrepNone => false | _ => true end) (f_prep d) | _, _ => true end.
(** The names that the templates use themselves *)
Definition own_names : list str := map u ["self"; "py"; "__internal__args"; "__internal__kwargs"; "__internal__arg"]%string.
(** The result of a call or attribute is extracted; [Bound<Self>] makes sense in [impl Struct] only. *)
Definition result_checks (pl : place) (d : fn_def) : bool :=
  match f_body d, k_ret (f_contract d) with
  | BSet _ _, RetUnit => true
  | (BCall _ | BCallMethod _ _ | BGet _), RetType t => has_from t
  | (BCall _ | BCallMethod _ _ | BGet _), RetSelf => match pl with InImpl => true | _ => false end
  | _, _ => false
  end.
Definition checks (pl : place) (d : fn_def) : bool :=
  let k := f_contract d in
  Bool.eqb (k_self k) (match pl with InTrait => true | _ => false end)
  && match f_disp d with DSelf => k_self k | DImport _ => true end
  && (negb (needs_py d) || has_py d)
  && forallb (fun e => negb (mem_str (fst e) own_names)) (k_params k)
  && distinct (body_vars (f_body d))
  && match prepare (k_params k) (f_prep d) with Some E => body_checks E (f_body d) | None => false end
  && result_checks pl d.

(** ** Names that the bodies use without a path
    [Some(..)] and [Vec::with_capacity(..)] *)
Definition uses_some (d : fn_def) : bool :=
  existsb (fun e => match snd e with PrepOptDict => true | _ => false end) (f_prep d) ||
  match f_body d with (BCall (ArgsBoth _ _) | BCallMethod _ (ArgsBoth _ _)) => true | _ => false end.
Definition uses_vec (d : fn_def) : bool :=
  match f_body d with (BCall (ArgsBoth (PABoth _ _) _ | ArgsPos (PABoth _ _)) | BCallMethod _ (ArgsBoth (PABoth _ _) _ | ArgsPos (PABoth _ _))) => true | _ => false end.
(** A function or a tuple struct called [i] is defined or imported in the scope. *)
Definition hides_value (k : list frag) (i : ident) : Prop :=
  (exists d, In (GFn d) k /\ k_name (f_contract d) = i) \/ In (GStruct i) k \/ exists v, In (GUse v) k /\ Spec_Names.bound_name v = Some i.

(** ** Worlds without brackets in names *)
Definition no_brackets (w : world) : Prop :=
  (forall o, is_module w o -> ~ In 91%N (w_name w o)) /\ (forall o s, In s (w_dir w o) -> ~ In 91%N s).
