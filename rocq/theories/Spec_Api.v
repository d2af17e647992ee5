(** * Using the generator: requests, and worlds whose modules know their names *)
From Verif Require Import Base Model_Ident Model_Path Model_Import Model_Type Model_World Model_Function Model_Property Model_Class
  Model_Module Model_Parse Model_Codegen Spec_Path Spec_Tree.

(** ** Requests made through the public interface *)
Inductive request :=
| AddModule (o : oid)
| AddName (n : str)
| AddModules (l : list oid)
| AddNames (l : list str)
| AddSource (src n : str) (o : option oid).   (* [o]: the module Python makes of it *)
Definition ask (x : penv) (fuel : nat) (r : request) (c : codegen) : outcome codegen :=
  match r with
  | AddModule o => cg_module x fuel o c
  | AddName n => cg_module_name x fuel n c
  | AddModules l => cg_modules_all x fuel l c
  | AddNames l => cg_module_names x fuel l c
  | AddSource src n o => cg_module_from_str x fuel src n o c
  end.
Fixpoint asks (x : penv) (fuel : nat) (l : list request) (c : codegen) : outcome codegen :=
  match l with [] => Ok c | r :: k => let! c' := ask x fuel r c in asks x fuel k c' end.

(** The Python modules a request is about *)
Definition asked (w : world) (r : request) : list (option oid) :=
  match r with
  | AddModule o => [Some o]
  | AddName n => [w_import w n]
  | AddModules l => map Some l
  | AddNames l => map (w_import w) l
  | AddSource _ _ o => [o]
  end.
(** The source text last given for a name *)
Fixpoint given (l : list request) (n : str) : option str :=
  match l with
  | [] => None
  | AddSource src k _ :: r => match given r n with Some s => Some s | None => if str_eqb k n then Some src else None end
  | _ :: r => given r n
  end.

(** ** Worlds whose modules know their names *)
Definition is_module (w : world) (o : oid) : Prop := tf_is_module (w_type w o) = true.
Definition py_name (s : str) : Prop := component s /\ s <> u "super".
Definition dot (a b : str) : str := a ++ c_dot :: b.
(** A module found as an attribute that is not an import *)
Definition nested_attr (U : uni) (w : world) (o : oid) (s : str) (a : oid) : Prop :=
  w_getattr w o s = Some a /\ is_module w a /\
  (contains_str (u "<locals>") (w_str w a) = true \/
   path_from_py U (match attr_text w a "__module__" with Some t => t | None => [] end) = path_from_py U (w_name w o)).
Definition child_name (U : uni) (w : world) (o : oid) (s : str) : Prop :=
  In s (w_iter_modules w o) \/ exists a, In s (w_dir w o) /\ nested_attr U w o s a.
(** The objects a request names are modules. *)
Definition asked_modules (w : world) (l : list request) : Prop := forall r o, In r l -> In (Some o) (asked w r) -> is_module w o.
(** Every module has a name, and importing gives a module. *)
Definition named_world (w : world) : Prop := (forall o, is_module w o -> w_name w o <> []) /\ (forall n o, w_import w n = Some o -> is_module w o).
Record honest (U : uni) (w : world) : Prop := mk_honest {
  (* names of modules are dotted names *)
  hn_name : forall o, is_module w o -> exists l, l <> [] /\ (forall s, In s l -> py_name s) /\ w_name w o = join [c_dot] l;
  (* importing a name gives the module of that name *)
  hn_import : forall n o, w_import w n = Some o -> is_module w o /\ w_name w o = n;
  (* names of attributes and submodules are names *)
  hn_dir : forall o s, In s (w_dir w o) -> starts_with (u "r#") s = false;
  hn_child : forall o s, is_module w o -> child_name U w o s -> py_name s;
  (* a child that cannot be imported is still called by its place *)
  hn_attr : forall o s a, is_module w o -> child_name U w o s -> w_getattr w o s = Some a -> is_module w a ->
    w_import w (dot (w_name w o) s) = None -> w_name w a = dot (w_name w o) s
}.

(** Every module's parent packages can be imported, and they have documentation (perhaps [None]). *)
Definition parents_importable (w : world) (p : path) : Prop :=
  forall q, In q (parents p) -> exists o, w_import w (to_py q) = Some o /\ w_getattr w o (u "__doc__") <> None.
(** Different modules have different names. *)
Definition names_differ (w : world) : Prop := forall o o', is_module w o -> is_module w o' -> w_name w o = w_name w o' -> o = o'.
Definition same_members {A} (l k : list A) : Prop := forall a, In a l <-> In a k.

(** ** Dependencies
    [deepest w o l t]: following the names [l] from [o] as long as they lead to modules ends in [t]. *)
Inductive deepest (w : world) : oid -> list ident -> oid -> Prop :=
| deepest_end o : deepest w o [] o
| deepest_step o i r a t : w_getattr w o (as_py i) = Some a -> is_module w a -> deepest w a r t -> deepest w o (i :: r) t
| deepest_stop o i r : (forall a, w_getattr w o (as_py i) = Some a -> ~ is_module w a) -> deepest w o (i :: r) o.
(** The module that has to be read for an imported item with path [p] *)
Definition home (w : world) (p : path) (o : oid) : Prop :=
  exists i r t, segs p = i :: r /\ w_import w (to_py (mk_path (leading_colon p) [i])) = Some t /\ deepest w t r o.
(** The modules that the modules [l] import something from, other than their own package *)
Definition imported_from (w : world) (l : list module) (o : oid) : Prop :=
  exists m k i, In m l /\ within k m /\ In i (m_imports k) /\ im_type i = ExternalImport /\ home w (im_origin i) o.
