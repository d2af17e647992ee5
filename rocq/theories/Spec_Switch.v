(** * Switching off a kind of item *)
From Verif Require Import Base Model_Ident Model_Path Model_Config Model_Out Spec_Out.

Inductive switch := Imports | Preludes | TypeVars | Classes | Functions | Properties.
Definition off (s : switch) (c : config) : config :=
  let on (t : switch) (b : bool) := match s, t with
    | Imports, Imports | Preludes, Preludes | TypeVars, TypeVars | Classes, Classes | Functions, Functions | Properties, Properties => false
    | _, _ => b end in
  {| traverse_submodules := traverse_submodules c; generate_preludes := on Preludes (generate_preludes c); generate_imports := on Imports (generate_imports c);
     generate_classes := on Classes (generate_classes c); generate_type_vars := on TypeVars (generate_type_vars c); generate_functions := on Functions (generate_functions c);
     generate_properties := on Properties (generate_properties c); generate_docs := generate_docs c; blocklist_names := blocklist_names c; include_private := include_private c;
     generate_dependencies := generate_dependencies c; suppress_python_stdout := suppress_python_stdout c; suppress_python_stderr := suppress_python_stderr c |}.
Definition switched (s : switch) : kind :=
  match s with Imports => KImport | Preludes => KPrelude | TypeVars => KTypeVar | Classes => KClass | Functions => KFunction | Properties => KProperty end.

(** The text without the items of kind [K], at every depth: with an item go the attributes and the [pub] in front of it. *)
Section without.
  Variable K : kind.
  Fixpoint without_in (f : frag) : frag :=
    match f with
    | GMod n b =>
        GMod n ((fix go (front l : list frag) {struct l} : list frag :=
                   match l with
                   | [] => front
                   | y :: r => if leads y then go (front ++ [y]) r else (if kind_eqb (kind_of y) K then [] else front ++ [without_in y]) ++ go [] r
                   end) [] b)
    | _ => f
    end.
  Fixpoint without_from (front l : list frag) : list frag :=
    match l with
    | [] => front
    | y :: r => if leads y then without_from (front ++ [y]) r else (if kind_eqb (kind_of y) K then [] else front ++ [without_in y]) ++ without_from [] r
    end.
  Definition without (l : list frag) : list frag := without_from [] l.
End without.

(** ** Documentation
    Two kinds of items carry fixed remarks: the trait of a class and the embedded source text. *)
Definition docs_off (c : config) : config :=
  {| traverse_submodules := traverse_submodules c; generate_preludes := generate_preludes c; generate_imports := generate_imports c;
     generate_classes := generate_classes c; generate_type_vars := generate_type_vars c; generate_functions := generate_functions c;
     generate_properties := generate_properties c; generate_docs := false; blocklist_names := blocklist_names c; include_private := include_private c;
     generate_dependencies := generate_dependencies c; suppress_python_stdout := suppress_python_stdout c; suppress_python_stderr := suppress_python_stderr c |}.
Definition is_doc (x : frag) : bool := match x with GDoc _ => true | _ => false end.
Definition remarked (x : frag) : bool := match x with GTrait _ _ | GEmbed _ _ _ => true | _ => false end.
(** The next item carries fixed remarks. *)
Fixpoint next_remarked (l : list frag) : bool := match l with [] => false | y :: r => if leads y then next_remarked r else remarked y end.
(** The text without documentation other than these, at every depth *)
Fixpoint undoc_in (f : frag) : frag :=
  let undoc := fix go (l : list frag) : list frag :=
    match l with [] => [] | y :: r => if is_doc y && negb (next_remarked r) then go r else undoc_in y :: go r end in
  match f with
  | GMod n b => GMod n (undoc b)
  | GImpl n b => GImpl n (undoc b)
  | GImplFor t n b => GImplFor t n (undoc b)
  | _ => f
  end.
Fixpoint undoc (l : list frag) : list frag :=
  match l with [] => [] | y :: r => if is_doc y && negb (next_remarked r) then undoc r else undoc_in y :: undoc r end.
