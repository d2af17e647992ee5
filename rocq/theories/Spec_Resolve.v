(** * What the names in a function of the written file mean (C73)

    After the Rust reference, chapters "Scopes", "Namespaces" and "Identifier patterns". *)
From Verif Require Import Base Model_Ident Model_Path Model_Config Model_World Model_Module Model_Parse Spec_Lex Spec_Path Spec_Items Spec_Privacy Spec_Api Spec_Attr Spec_Code Spec_Decl.

(** ** Variables
    The names that a body binds, beside the parameters *)
Fixpoint binds (e : expr) : list str :=
  match e with
  | EPath _ | ELit _ | ENum _ | EEnd => []
  | ETuple l _ | EArray l _ | EMacro _ l _ => flat_map binds l
  | ECall a l _ | EMethod a _ l _ => binds a ++ flat_map binds l
  | ETry a | ERef a | EBlock a => binds a
  | EAdd a b | ESeq a b => binds a ++ binds b
  | EClosure x a => x :: binds a
  | EIfLet _ x e a b => x :: binds e ++ binds a ++ binds b
  | ELet _ x e r => x :: binds e ++ binds r
  | EConst _ _ e r => binds e ++ binds r
  end.
Definition fn_binds (f : rfn) : list str := map fst (r_params f) ++ binds (r_body f).
(** A pattern that is a name binds a variable, unless a struct with fields in parentheses has the name; then the program is
    rejected (E0530).  An import may be one of such a struct.  The keyword [self] is no such name. *)
Definition has_import (k : list decl) (i : str) : Prop :=
  exists p v alias, In (COther p (OUse v alias)) k /\ (alias = Some i \/ alias = None /\ exists q, v = q ++ [i]).
Definition unbindable (k : list decl) (i : str) : Prop := i <> u "self" /\ (has_struct k i \/ has_import k i).

(** ** Paths
    The paths of a body that are not variables; [vs] are the variables and constants at this point.  A constant does not see variables.
    Of the type of a constant, every word counts as a path. *)
Fixpoint leaves (vs : list str) (e : expr) : list (list tok) :=
  match e with
  | EPath p => match p with [TWord x] => if mem_str x vs then [] else [p] | _ => [p] end
  | ELit _ | ENum _ | EEnd => []
  | ETuple l _ | EArray l _ => flat_map (leaves vs) l
  | EMacro p l _ => p :: flat_map (leaves vs) l
  | ECall a l _ | EMethod a _ l _ => leaves vs a ++ flat_map (leaves vs) l
  | ETry a | ERef a | EBlock a => leaves vs a
  | EAdd a b | ESeq a b => leaves vs a ++ leaves vs b
  | EClosure x a => leaves (x :: vs) a
  | EIfLet c x e a b => [TWord c] :: leaves vs e ++ leaves (x :: vs) a ++ leaves vs b
  | ELet _ x e r => leaves vs e ++ leaves (x :: vs) r
  | EConst x t e r => flat_map (fun w => match w with TWord _ => [[w]] | _ => [] end) t ++ leaves [] e ++ leaves (x :: vs) r
  end.
Definition fn_leaves (f : rfn) : list (list tok) := leaves (map fst (r_params f)) (r_body f).
(** A path that starts with [::], as do all paths between its angle brackets: it leads to a library, whatever stands in the file. *)
Definition is_colon (l : list tok) : bool := match l with t :: _ => punct ":" t | [] => false end.
Fixpoint types_global (l : list tok) : bool := match l with [] => true | t :: r => (negb (punct "<" t) || is_colon r) && types_global r end.
Definition global (p : list tok) : bool := is_colon p && types_global p.
(** Something in the scope is called [i]. *)
Definition named (k : list decl) (i : str) : Prop :=
  has_name k i \/ (exists p b, In (CTrait p i b) k) \/ has_import k i.

(** ** In Python
    A Python module with the path [ns] has an attribute [i] that is not hidden. *)
Definition has_attribute (x : penv) (ns : list ident) (i : ident) : Prop :=
  let (U, w) := (pe_uni x, pe_world x) in
  exists o a, is_module w o /\ segs (path_from_py U (w_name w o)) = ns /\ attribute_of U w o i a /\ ~ hidden (pe_cfg x) (as_py i) (components (from_module U w a)).
(** There is a Python module [ns.i]. *)
Definition has_submodule (x : penv) (ns : list ident) (i : ident) : Prop :=
  exists o, is_module (pe_world x) o /\ segs (path_from_py (pe_uni x) (w_name (pe_world x) o)) = ns ++ [i].
