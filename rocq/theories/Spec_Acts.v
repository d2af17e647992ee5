(** * What the generated functions act on (C65) *)
From Verif Require Import Base Model_Ident Model_Path Model_Import Model_Text Model_Config Model_Type Model_IntoRs Model_World Model_Out
  Model_Function Model_Property Model_Class Model_Module Model_Parse Spec_Path Spec_Names Spec_Call Spec_Tree Spec_Api Spec_Out Spec_Attr Spec_Doc Spec_Full.

(** ** Lookups
    The lookup is written as this dotted name; in the interpreter it finds this object. *)
Definition spells (l : lookup) (n : list str) : Prop := join [c_dot] (lk_import l :: lk_attrs l) = join [c_dot] n.
Definition finds (w : world) (l : lookup) (o : oid) : Prop := exists m, w_import w (lk_import l) = Some m /\ reaches w m (lk_attrs l) o.
(** The module with the dotted name [n] can be imported, and its parent package has it as an attribute. *)
Definition bound_in_parent (w : world) (n : list str) (o : oid) : Prop :=
  w_import w (join [c_dot] n) = Some o /\
  forall q s, n = q ++ [s] -> q <> [] -> exists m, w_import w (join [c_dot] q) = Some m /\ w_getattr w m s = Some o.

(** ** Arguments (as in C24)
    Whatever is given to the generated function arrives at the parameters of the Python function [b]. *)
Definition passes (x : penv) (b : oid) (d : fn_def) : Prop :=
  forall V sg s (l : list (rarg V)), w_signature (pe_world x) b = Some sg -> describes sg s -> sig_ok s -> names_ok (pe_uni x) s ->
  no_name "_" s -> no_name "__unknown_self__" s -> no_name "self" (tl s) -> (forall p, In p s -> pp_name p = u "self" -> positional (pp_kind p) = true) ->
  Forall2 (suits s) s l ->
  exists pos kw, python_call d l = Some (pos, kw) /\ bind_args s pos kw = Some (combine (map pp_name s) (map meant l)).
(** The same for a function that gets its first argument from Python *)
Definition passes_bound (x : penv) (b : oid) (d : fn_def) : Prop :=
  forall V sg r s (v : V) (l : list (rarg V)), w_signature (pe_world x) b = Some sg -> describes sg (r :: s) -> sig_ok (r :: s) -> names_ok (pe_uni x) (r :: s) ->
  no_name "_" (r :: s) -> no_name "__unknown_self__" s -> no_name "self" s -> positional (pp_kind r) = true ->
  Forall2 (suits (r :: s)) s l ->
  exists pos kw, python_call d l = Some (pos, kw) /\
    bind_args (r :: s) (v :: pos) kw = Some ((pp_name r, BOne v) :: combine (map pp_name s) (map meant l)).

(** ** What is claimed of a function
    Each claim is about the function and the Python object it was made of: a function, a function that gets its first argument from Python, a variable, or a property. *)
Record duties := mk_duties { du_fn : oid -> fn_def -> Prop; du_bound : oid -> fn_def -> Prop; du_var : oid -> fn_def -> Prop; du_prop : oid -> fn_def -> Prop }.
Definition passing (x : penv) : duties := mk_duties (passes x) (passes_bound x) (fun _ _ => True) (fun _ _ => True).

(** ** Names
    The function uses the attribute [i] of the object it is applied to, and is called after it. *)
Definition spelled_as (U : uni) (pre : str) (i : ident) (r : ident) : Prop := forall n, i = ident_from_py U n -> py_identifier U n -> spelled U pre n r.
Definition uses_attr (U : uni) (d : fn_def) (i : ident) : Prop :=
  match f_body d with
  | BCall _ => False
  | BCallMethod n _ => n = as_py i /\ spelled_as U (u "f_") i (k_name (f_contract d))
  | BGet n => n = as_py i /\ (k_name (f_contract d) = i \/ k_name (f_contract d) = ident_from_py U (u "get_" ++ n))
  | BSet n v => n = as_py i /\ k_name (f_contract d) = ident_from_py U (u "set_" ++ n) /\ map fst (k_params (f_contract d)) = [v]
  end.
Definition is_call (d : fn_def) : bool := match f_body d with BCallMethod _ _ => true | _ => false end.

(** ** Items
    The object [a] that an item is made of: the attribute itself, or what it was imported from *)
Definition comes_from (U : uni) (w : world) (i : ident) (b a : oid) : Prop := b = a \/ stands U w (place_of U w i b) a.
(** No part of the path is called [super], which the engine takes for the parent module. *)
Definition no_super (p : list ident) : Prop := forall s, In s p -> as_py s <> u "super".

(** A function of the module [o]: it finds the module, and applies to the attribute that it was made of. *)
Definition module_acts (D : duties) (x : penv) (ns : list ident) (d : fn_def) : Prop :=
  let U := pe_uni x in
  let w := pe_world x in
  exists o i b a L, is_module w o /\ segs (path_from_py U (w_name w o)) = ns /\ attribute_of U w o i b /\ comes_from U w i b a /\
    f_disp d = DImport L /\ spells L (map as_py ns) /\ (bound_in_parent w (map as_py ns) o -> finds w L o) /\
    k_self (f_contract d) = false /\ uses_attr U d i /\ (is_call d = true -> du_fn D a d) /\ (is_call d = false -> du_var D a d).
(** A function of the struct for the class [a], which the module [o] has as its attribute [i] *)
Definition class_acts (D : duties) (x : penv) (a : oid) (d : fn_def) : Prop :=
  let U := pe_uni x in
  let w := pe_world x in
  exists o i j b L, is_module w o /\ attribute_of U w o i a /\ attribute_of U w a j b /\ f_disp d = DImport L /\ k_self (f_contract d) = false /\
    let cls := segs (path_snoc (path_from_py U (w_name w o)) i) in
    match f_body d with
    | BCall _ => as_py j = u "__init__" /\ (exists s, k_name (f_contract d) = u "new" ++ s) /\ k_ret (f_contract d) = RetSelf /\ du_bound D b d /\
        (no_super cls -> spells L (map as_py cls)) /\ (w_import w (w_name w o) = Some o -> finds w L a)
    | _ => uses_attr U d j /\ is_call d = true /\ du_fn D b d /\
        ((no_super cls -> spells L (map as_py cls)) /\ (w_import w (w_name w o) = Some o -> finds w L a) \/
         k_params (f_contract d) = [] /\ (no_super (cls ++ [j]) -> spells L (map as_py (cls ++ [j]))))     (* a method without parameters *)
    end.
(** A function of the trait for the class [a]: it applies to the object at hand. *)
Definition object_acts (D : duties) (x : penv) (a : oid) (d : fn_def) : Prop :=
  let U := pe_uni x in
  let w := pe_world x in
  exists j b, attribute_of U w a j b /\ f_disp d = DSelf /\ k_self (f_contract d) = true /\
    match f_body d with
    | BCall _ => as_py j = u "__call__" /\ (exists s, k_name (f_contract d) = u "call" ++ s) /\ du_bound D b d
    | _ => uses_attr U d j /\ (is_call d = true -> du_bound D b d) /\ (is_call d = false -> du_prop D b d)
    end.

Definition acts (D : duties) (x : penv) (ns : list ident) (k : list frag) (y : frag) : Prop :=
  let U := pe_uni x in
  let w := pe_world x in
  let for_class id (Q : oid -> Prop) := exists p i a, segs p = ns /\ stands U w (path_snoc p i) a /\ In (GMacros id (to_py (path_snoc p i))) k /\
    spelled_as U (u "s_") i id /\ Q a in
  match y with
  | GFn d => module_acts D x ns d
  | GStruct id => for_class id (fun _ => True)
  | GImpl id b => for_class id (fun a => forall d, In (GFn d) b -> class_acts D x a d)
  | GImplFor _ id b => for_class id (fun a => forall d, In (GFn d) b -> object_acts D x a d)
  | _ => True
  end.
