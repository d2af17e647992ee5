(** * The grammar of the generated code

    Rust's grammar restricted to the templates of the engine: a list of items, each one preceded by
    attributes and an optional [pub] (in this order), with all names in place. *)
From Verif Require Import Base Model_Ident Model_Path Model_Import Model_IntoRs Model_Out Spec_Path.

(** The Rust reference, "Identifiers" *)
Definition rust_ident (U : uni) (n : str) : Prop :=
  (py_identifier U n /\ ~ rust_keyword n) \/
  (exists t, n = u "r#" ++ t /\ py_identifier U t /\ ~ rust_unspellable t).
Definition path_segment (U : uni) (n : str) : Prop := rust_ident U n \/ path_kw n = true.
Definition rust_path (U : uni) (l : list str) : Prop := l <> [] /\ forall s, In s l -> path_segment U s.

Fixpoint rust_type (U : uni) (t : rty) : Prop :=
  match t with
  | RName s => rust_ident U s
  | RVec t | RSlice t | RRef t | RBound t => rust_type U t
  | RTup l => fold_right and True (map (rust_type U) l)
  | RAbs p l | RImpl p l => rust_path U p /\ fold_right and True (map (rust_type U) l)
  | RLocal p => leading_colon p = false /\ rust_path U (segs p)
  end.

(** Names and types of a signature *)
Definition contract_ok (U : uni) (k : contract) : Prop :=
  rust_ident U (k_name k) /\
  (forall n t, In (n, t) (k_params k) -> rust_ident U n /\ rust_type U t) /\
  match k_ret k with RetType t => rust_type U t | _ => True end.
(** A body mentions [self] only if there is a receiver. *)
Definition fn_ok (U : uni) (d : fn_def) : Prop :=
  contract_ok U (f_contract d) /\
  (f_let_py d = true -> k_self (f_contract d) = true) /\ (f_disp d = DSelf -> k_self (f_contract d) = true).

Inductive place := InModule | InImpl | InTrait | InTraitImpl.
Inductive before := Nothing | Attribute | Pub.

Section sequence.
  Variable item : bool -> frag -> Prop.      (* with or without [pub] *)
  Fixpoint items (s : before) (l : list frag) : Prop :=
    match l with
    | [] => s = Nothing
    | x :: r =>
        match x with
        | GDoc _ | GAttr _ => s <> Pub /\ items Attribute r
        | GPub => s <> Pub /\ items Pub r
        | _ => item (match s with Pub => true | _ => false end) x /\ items Nothing r
        end
    end.
End sequence.

Fixpoint item_ok (U : uni) (pl : place) (public : bool) (x : frag) : Prop :=
  match x with
  | GPub | GDoc _ | GAttr _ => False
  | GFn d => fn_ok U d /\ match pl with
                          | InModule => k_self (f_contract d) = false
                          | InImpl => True
                          | InTraitImpl => public = false
                          | InTrait => False
                          end
  | GDecl k => pl = InTrait /\ public = false /\ contract_ok U k
  | GUse i => pl = InModule /\ rust_path U (use_path i) /\ match use_alias i with Some a => rust_ident U a | None => True end
  | GUseSuper l => pl = InModule /\ l <> [] /\ forall n, In n l -> rust_ident U n
  | GType n | GStruct n => pl = InModule /\ rust_ident U n
  | GMacros n _ => pl = InModule /\ public = false /\ rust_ident U n
  | GImpl n l => pl = InModule /\ public = false /\ rust_ident U n /\ items (item_ok U InImpl) Nothing l
  | GTrait n l => pl = InModule /\ rust_ident U n /\ items (item_ok U InTrait) Nothing l
  | GImplFor t n l => pl = InModule /\ public = false /\ rust_ident U t /\ rust_ident U n /\ items (item_ok U InTraitImpl) Nothing l
  | GMod n l => pl = InModule /\ rust_ident U n /\ items (item_ok U InModule) Nothing l
  | GEmbed _ _ _ => pl = InModule
  end.
(** A list of items, as found at [pl] *)
Definition well_formed (U : uni) (pl : place) (l : list frag) : Prop := items (item_ok U pl) Nothing l.

(** ** Traits and their implementation *)
Fixpoint declared (l : list frag) : list contract :=
  match l with [] => [] | GDecl k :: r => k :: declared r | _ :: r => declared r end.
Fixpoint defined (l : list frag) : list contract :=
  match l with [] => [] | GFn d :: r => f_contract d :: defined r | _ :: r => defined r end.
(** The functions in a list of fragments, not looking into blocks *)
Fixpoint fns (l : list frag) : list fn_def :=
  match l with [] => [] | GFn d :: r => d :: fns r | _ :: r => fns r end.

(** ** Names
    Whether the getter and the setter of a module-level variable [n] can be named: [n] itself, if it
    can be written in Rust and is neither the name of a function (list [F]) nor reserved, else [get_n];
    and [set_n]. *)
Definition reserved : list str := map u ["get_type"; "obj"; "py"; "repr"; "str"]%string.
Definition available (F : list str) (n : str) : Prop := ~ In n F /\ ~ In n reserved.
Definition accessors_named (U : uni) (F : list str) (n : str) : Prop :=
  ((py_identifier U n /\ ~ rust_unspellable n /\ available F n) \/ available F (u "get_" ++ n)) /\ ~ In (u "set_" ++ n) F.
