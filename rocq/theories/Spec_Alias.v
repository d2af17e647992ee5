(** * What names mean inside of a module (C23) *)
From Verif Require Import Base Model_Ident Model_Path Model_Import Model_Type Model_IntoRs Model_Module Spec_Path Spec_Names Spec_Type Spec_Rust.

(** The path stands for a dotted Python name. *)
Definition stands (U : uni) (p : path) (l : list str) : Prop :=
  l <> [] /\ (forall s, In s l -> component s /\ s <> u "super") /\ p = path_from_py U (dotted 0 l).
(** The module binds the name [a] to what stands at [o]: [import o as a] or [from … import … as a]. *)
Definition bound_to (U : uni) (m : module) (a : str) (o : list str) : Prop :=
  exists im t, In im (m_imports m) /\ stands U (im_origin im) o /\ stands U (im_target im) (t ++ [a]).
Definition is_class (U : uni) (ts : list path) (l : list str) : Prop := exists p, In p ts /\ stands U p l.
(** All names in sight are dotted Python names. *)
Definition python_names (U : uni) (m : module) (ts : list path) : Prop :=
  (exists l, stands U (m_name m) l) /\ (forall p, In p ts -> exists l, stands U p l) /\
  (forall im, In im (m_imports m) -> (exists o, stands U (im_origin im) o) /\ exists t a, stands U (im_target im) (t ++ [a])).
(** The Rust type of the text is the class that stands at [l], seen from the module. *)
Definition shows (c : ctx) (m : module) (n : str) (l : list str) : Prop :=
  exists t rel, from_str (cx_dbg c) n = Ok t /\ into_rs c t = Ok (RBound (RLocal rel), RRef (RBound (RLocal rel))) /\
    resolve (segs (m_name m)) (segs rel) = Some (map (ident_from_py (cx_uni c)) l).
(** The text is taken for any object. *)
Definition shows_any (c : ctx) (n : str) : Prop :=
  exists t, from_str (cx_dbg c) n = Ok t /\ into_rs c t = Ok (bound_of "PyAny", into_py_of "PyAny").
(** A dotted name that has no meaning of its own *)
Definition just_name (c : ctx) (n : list str) : Prop :=
  (forall s, In s n -> component s) /\ plain_name (dotted 0 n) /\ table_get (dotted 0 n) name_table = None /\
  (cx_dbg c = false \/ contains_str dcolon (dotted 0 n) = false) /\ (cx_numpy c = false \/ ~ names_ndarray (dotted 0 n)).
