(** * Specification predicates over the data of the path/import model *)
From Verif Require Import Base Model_Ident Model_Path Model_Import Spec_Path.

(** A path that names a module or item from the root: plain names, no leading [::]. *)
Definition absolute (p : path) : Prop := leading_colon p = false /\ plain_names (segs p).

(** Name bound by [use p (as a)?]: the alias, else the last segment. *)
Definition bound_name (x : use_item) : option ident :=
  match use_alias x with Some a => Some a | None => last_opt (use_path x) end.

(** Names usable in a Python import statement. *)
Definition import_name (i : ident) : Prop :=
  as_py i <> [] /\ ~ In c_dot (as_py i) /\ as_py i <> u "super".

(** The importability oracle answers what the package universe says. *)
Definition oracle_agrees (V : universe) (imp : str -> bool) : Prop :=
  forall m, m <> [] -> (forall s, In s m -> s <> [] /\ ~ In c_dot s) ->
    imp (join [c_dot] m) = forallb (uv_module V) (prefixes m).
