(** * What the functions of the written file do (C70)

    Stated for the functions that a reader of the text finds ([Spec_Code]), and for any interpreter that answers imports and attributes as the world does. *)
From Verif Require Import Base Spec_Lex Model_Ident Model_Path Model_Import Model_Text Model_Config Model_Type Model_IntoRs Model_World Model_Out
  Model_Function Model_Property Model_Class Model_Module Model_Parse Model_Codegen Spec_Path Spec_Names Spec_Call Spec_Tree Spec_Api Spec_Out Spec_Attr Spec_Doc Spec_Full Spec_Acts Spec_Code.

Definition faithful (w : world) (answer : list (op oid) -> op oid -> option oid) : Prop :=
  forall log, (forall n, answer log (OImport n) = w_import w n) /\ (forall o a, answer log (OGet o a) = w_getattr w o a).
Definition is_lookup {V} (o : op V) : Prop := match o with OImport _ | OGet _ _ => True | _ => False end.
(** After some lookups the last thing that the call asks for is [o]; the call returns what [k] makes of the answer, or the exception. *)
Definition ends_with {V} (answer : list (op V) -> op V -> option V) (f : rfn) (args : list (val V)) (log : list (op V)) (o : op V) (k : V -> result V) : Prop :=
  exists m, Forall is_lookup m /\ run answer f args log = Some (match answer (log ++ m) o with Some v => k v | None => Raised end, log ++ m ++ [o]).
Definition finished {V} (v : V) : result V := Finished.
Definition distinct_params (f : rfn) : Prop := NoDup (map fst (r_params f)).

(** What a caller can pass for the signature [s] of the Python function [b] *)
Definition callable (x : penv) (b : oid) (s : list pyparam) : Prop :=
  exists sg, w_signature (pe_world x) b = Some sg /\ describes sg s /\ sig_ok s /\ names_ok (pe_uni x) s /\ no_name "_" s.
Definition plain_call {V} (x : penv) (b : oid) (s : list pyparam) (l : list (rarg V)) : Prop :=
  callable x b s /\ no_name "__unknown_self__" s /\ no_name "self" (tl s) /\ (forall p, In p s -> pp_name p = u "self" -> positional (pp_kind p) = true) /\ Forall2 (suits s) s l.
Definition bound_call {V} (x : penv) (b : oid) (r : pyparam) (s : list pyparam) (l : list (rarg V)) : Prop :=
  callable x b (r :: s) /\ no_name "__unknown_self__" s /\ no_name "self" s /\ positional (pp_kind r) = true /\ Forall2 (suits (r :: s)) s l.
Definition passed {V} (l : list (rarg V)) : list (val V) := map VGiven l.

(** ** A function of the module [o]
    It calls, reads or sets the attribute of [o] that it was made of. *)
Definition module_runs (x : penv) (ns : list ident) (f : rfn) : Prop :=
  let U := pe_uni x in
  let w := pe_world x in
  exists o i b a, is_module w o /\ segs (path_from_py U (w_name w o)) = ns /\ attribute_of U w o i b /\ comes_from U w i b a /\
    (bound_in_parent w (map as_py ns) o -> forall answer log, faithful w answer ->
      (spelled_as U (u "f_") i (r_name f) /\ forall s l, plain_call x a s l ->
         exists pos kw, bind_args s pos kw = Some (combine (map pp_name s) (map meant l)) /\
           ends_with answer f (VPy :: passed l) log (OMethod o (as_py i) pos kw) Extracted) \/
      ((r_name f = i \/ r_name f = ident_from_py U (u "get_" ++ as_py i)) /\ ends_with answer f [VPy] log (OGet o (as_py i)) Extracted) \/
      (r_name f = ident_from_py U (u "set_" ++ as_py i) /\ forall v, ends_with answer f [VPy; VGiven (AOne v)] log (OSet o (as_py i) v) finished)).

(** ** A function of the struct for the class [a]
    It calls the class, or a method of the class. *)
Definition struct_runs (x : penv) (a : oid) (f : rfn) : Prop :=
  let U := pe_uni x in
  let w := pe_world x in
  exists o i j b, is_module w o /\ attribute_of U w o i a /\ attribute_of U w a j b /\
    (w_import w (w_name w o) = Some o -> forall answer log, faithful w answer ->
      (as_py j = u "__init__" /\ (exists s, r_name f = u "new" ++ s) /\ forall r s v l, bound_call x b r s l ->
         exists pos kw, bind_args (r :: s) (v :: pos) kw = Some ((pp_name r, BOne v) :: combine (map pp_name s) (map meant l)) /\
           ends_with answer f (VPy :: passed l) log (OCall a pos kw) Extracted) \/
      (spelled_as U (u "f_") j (r_name f) /\ forall s l, plain_call x b s l -> l <> [] ->
         exists pos kw, bind_args s pos kw = Some (combine (map pp_name s) (map meant l)) /\
           ends_with answer f (VPy :: passed l) log (OMethod a (as_py j) pos kw) Extracted)).
(** ** A function of the trait for the class [a], called on an object
    It asks the interpreter for one thing only, about this object. *)
Definition asks_once {V} (answer : list (op V) -> op V -> option V) (f : rfn) (args : list (val V)) (log : list (op V)) (o : op V) (k : V -> result V) : Prop :=
  run answer f args log = Some (match answer log o with Some v => k v | None => Raised end, log ++ [o]).
Definition object_runs (x : penv) (a : oid) (f : rfn) : Prop :=
  let U := pe_uni x in
  let w := pe_world x in
  exists j b, attribute_of U w a j b /\ forall V (answer : list (op V) -> op V -> option V) (self : V) log,
    (as_py j = u "__call__" /\ (exists s, r_name f = u "call" ++ s) /\ forall r s l, bound_call x b r s l ->
       exists pos kw, bind_args (r :: s) (self :: pos) kw = Some ((pp_name r, BOne self) :: combine (map pp_name s) (map meant l)) /\
         asks_once answer f (VObj self :: passed l) log (OCall self pos kw) Extracted) \/
    (spelled_as U (u "f_") j (r_name f) /\ forall r s l, bound_call x b r s l ->
       exists pos kw, bind_args (r :: s) (self :: pos) kw = Some ((pp_name r, BOne self) :: combine (map pp_name s) (map meant l)) /\
         asks_once answer f (VObj self :: passed l) log (OMethod self (as_py j) pos kw) Extracted) \/
    ((r_name f = j \/ r_name f = ident_from_py U (u "get_" ++ as_py j)) /\ asks_once answer f [VObj self] log (OGet self (as_py j)) Extracted) \/
    (r_name f = ident_from_py U (u "set_" ++ as_py j) /\ forall v, asks_once answer f [VObj self; VGiven (AOne v)] log (OSet self (as_py j) v) finished).

(** ** All functions of the module at the path [ns] *)
Definition fn_runs (x : penv) (ns : list ident) (w : owner) (f : rfn) : Prop :=
  let for_class n (Q : oid -> Prop) := exists p i a, segs p = ns /\ stands (pe_uni x) (pe_world x) (path_snoc p i) a /\ spelled_as (pe_uni x) (u "s_") i n /\ Q a in
  match w with
  | OfModule => module_runs x ns f
  | OfStruct n => for_class n (fun a => struct_runs x a f)
  | OfObject n => for_class n (fun a => object_runs x a f)
  end.
(** The function with this name and these parameters belongs there. *)
Definition has_fn (k : list frag) (w : owner) (d : fn_def) : Prop :=
  match w with
  | OfModule => In (GFn d) k
  | OfStruct n => exists b, In (GImpl n b) k /\ In (GFn d) b
  | OfObject n => exists t b, In (GImplFor t n b) k /\ In (GFn d) b
  end.
(** [f] is how a reader sees the function [d]. *)
Definition presents (d : fn_def) (f : rfn) : Prop :=
  let k := f_contract d in
  r_name f = k_name k /\ map fst (r_params f) = (if k_self k then u "self" else u "py") :: map fst (k_params k).
(** The function of a module that was made of source text loads the text that was given for it as that module. *)
Definition embeds_source (l : list request) (ns : list ident) (f : rfn) : Prop :=
  exists n src, ns = [n] /\ given l n = Some src /\ r_name f = u "pyo3_embed_python_source_code" /\
    forall V (answer : list (op V) -> op V -> option V) log, run answer f [VPy] log = Some (loads_source answer n (n ++ u "/__init__.py") src log).
