(** * Vocabulary for the tree of modules *)
From Verif Require Import Base Model_Ident Model_Path Model_Import Model_Function Model_Property Model_Class Model_Module Spec_Path Spec_Items.

(** [within x m]: [x] is [m] or one of the modules nested in it. *)
Inductive within (x : module) : module -> Prop :=
| within_here : within x x
| within_sub m s : In s (m_subs m) -> within x s -> within x m.

(** The last component of a path is the Python name [n], as the engine writes it. *)
Definition called (U : uni) (p : path) (n : str) : Prop :=
  starts_with (u "r#") n = false /\ exists q, segs p = q ++ [ident_from_py U n].

(** What parsing guarantees about the items of a module: members of a class belong to that class,
    variables of a module have no docstring. *)
Definition items_typed (m : module) : Prop :=
  (forall c p, In c (m_classes m) -> In p (cl_props c) -> pr_owner p = OwnerClass) /\
  (forall p, In p (m_properties m) -> pr_doc p = None /\ pr_setter_doc p = None).

(** The accessors of all variables of a module can be named. *)
Definition variables_named (U : uni) (m : module) : Prop :=
  exists F, Forall2 (fun f n => called U (fn_name f) n) (m_functions m) F /\
    forall p, In p (m_properties m) -> exists n, called U (pr_name p) n /\ accessors_named U F n.

(** ** Items of a forest *)
Inductive item := AnExport (i : ident) | AnImport (i : import) | AClass (c : class) | ATypeVar (p : path)
                | AFunction (f : func) | AProperty (p : property).
Definition has (m : module) (it : item) : Prop :=
  match it with
  | AnExport i => In i (m_prelude m)
  | AnImport i => In i (m_imports m)
  | AClass c => In c (m_classes m)
  | ATypeVar p => In p (m_typevars m)
  | AFunction f => In f (m_functions m)
  | AProperty p => In p (m_properties m)
  end.

(** [reach l c m]: going down from the roots [l] through modules named [c] leads to [m]. *)
Inductive reach : list module -> list path -> module -> Prop :=
| reach_here l m : In m l -> reach l [m_name m] m
| reach_down l m c k : In m l -> reach (m_subs m) c k -> reach l (m_name m :: c) k.
Definition present (l : list module) (c : list path) : Prop := exists m, reach l c m.
Definition holds (l : list module) (c : list path) (it : item) : Prop := exists m, reach l c m /\ has m it.
(** The same modules with the same items *)
Definition same_forest (l k : list module) : Prop :=
  forall c, (present l c <-> present k c) /\ forall it, holds l c it <-> holds k c it.

(** Sibling modules have different names, at every depth. *)
Definition siblings_differ (l : list module) : Prop :=
  NoDup (map m_name l) /\ forall m k, In m l -> within k m -> NoDup (map m_name (m_subs k)).

(** ** Paths of modules *)
Definition extends (a b : path) : Prop := exists i, segs b = segs a ++ [i].
(** Each path extends the one before by one component. *)
Fixpoint linked (c : list path) : Prop :=
  match c with
  | a :: ((b :: _) as r) => extends a b /\ linked r
  | _ => True
  end.
(** The paths of the parents of [p], outermost first *)
Definition parents (p : path) : list path :=
  map (fun k => mk_path false (firstn k (segs p))) (seq 1 (length (segs p) - 1)).
(** The name of a module, as Python writes it: names without dots in between, none of them [super]. *)
Definition module_named (U : uni) (p : path) : Prop :=
  exists l, l <> [] /\ (forall s, In s l -> component s) /\ ~ In (u "super") l /\ p = path_from_py U (join [c_dot] l).
Definition forest_named (U : uni) (l : list module) : Prop := forall m k, In m l -> within k m -> module_named U (m_name k).
