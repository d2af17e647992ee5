(** * Going from a module to its submodules, for the termination of parsing *)
From Verif Require Import Base Model_Ident Model_Path Model_Type Model_World Spec_Path Spec_Api.

(** [n] names a submodule of the module [o]: it is listed as one, or it is an attribute that is a module of [o]'s own. *)
Definition sub_named (U : uni) (w : world) (o : oid) (n : str) : Prop :=
  In n (w_iter_modules w o) \/
  In n (w_dir w o) /\ exists a, w_getattr w o (as_py (ident_from_py U n)) = Some a /\ is_module w a /\
    (contains_str (u "<locals>") (w_str w a) = true \/
     path_from_py U (match attr_text w a "__module__" with Some t => t | None => [] end) = path_from_py U (w_name w o)).
(** The name under which it is imported *)
Definition sub_full (U : uni) (w : world) (o : oid) (n : str) : str :=
  to_py (path_snoc (path_from_py U (w_name w o)) (ident_from_py U n)).
(** [enters U w o s]: reading [o] leads to reading [s]. *)
Definition enters (U : uni) (w : world) (o s : oid) : Prop :=
  exists n, sub_named U w o n /\
    (w_import w (sub_full U w o n) = Some s \/
     w_import w (sub_full U w o n) = None /\ w_getattr w o (as_py (ident_from_py U n)) = Some s /\ is_module w s).
(** [leads_to U w o s]: in one step or more *)
Inductive leads_to (U : uni) (w : world) : oid -> oid -> Prop :=
| leads_one o s : enters U w o s -> leads_to U w o s
| leads_more o s t : leads_to U w o s -> enters U w s t -> leads_to U w o t.
(** No module is inside itself. *)
Definition acyclic (U : uni) (w : world) : Prop := forall o, ~ leads_to U w o o.
(** [l] has all submodules of its members. *)
Definition closed_list (U : uni) (w : world) (l : list oid) : Prop := forall o s, In o l -> enters U w o s -> In s l.

(** A submodule that is certainly read: listed, permitted, not hidden by an attribute *)
Definition surely_enters (U : uni) (w : world) (allowed : ident -> path -> bool) (o s : oid) : Prop :=
  exists n, In n (w_iter_modules w o) /\ w_getattr w o (u "__path__") <> None /\
    allowed (ident_from_py U n) (path_from_py U (w_name w o)) = true /\
    (forall a, In a (w_dir w o) -> ident_from_py U a <> ident_from_py U n) /\
    w_import w (sub_full U w o n) = Some s.
