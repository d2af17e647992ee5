(** * What a command line asks for (C74) *)
From Verif Require Import Base Spec_Lex.

(** A word that is not an option *)
Definition value (v : str) : Prop := v = u "-" \/ forall r, v <> u "-" ++ r.

Definition module_option (a : str) : Prop := a = u "-m" \/ a = u "--module-name".
Definition output_option (a : str) : Prop := a = u "-o" \/ a = u "--output".
(** [a] is one of the options with the value [v] attached. *)
Definition attached (short long a v : str) : Prop :=
  a = long ++ u "=" ++ v \/ a = short ++ u "=" ++ v \/ (a = short ++ v /\ v <> [] /\ forall r, v <> u "=" ++ r).

(** The arguments [l] name the modules [ns] and the output files [os]. *)
Inductive says : list str -> list str -> list str -> Prop :=
| says_nothing : says [] [] []
| says_stop : says [u "--"] [] []
| says_modules : forall a vs r ns os, module_option a -> vs <> [] -> Forall value vs -> says r ns os -> says (a :: vs ++ r) (vs ++ ns) os
| says_module : forall a v r ns os, attached (u "-m") (u "--module-name") a v -> says r ns os -> says (a :: r) (v :: ns) os
| says_output : forall a v r ns os, output_option a -> value v -> v <> [] -> says r ns os -> says (a :: v :: r) ns (v :: os)
| says_output_at : forall a v r ns os, attached (u "-o") (u "--output") a v -> v <> [] -> says r ns os -> says (a :: r) ns (v :: os).

Definition out_list (o : option str) : list str := match o with Some p => [p] | None => [] end.

(** A string literal, and characters that stand for themselves in one *)
Definition quoted (s : str) : str := c_quote :: s ++ [c_quote].
Definition easy_char (c : char) : Prop := c <> c_quote /\ c <> c_back /\ c <> c_cr.
