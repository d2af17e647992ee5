(** * Documentation (C64) *)
From Verif Require Import Base Model_Ident Model_Path Model_Import Model_Text Model_Config Model_Type Model_IntoRs Model_World Model_Out
  Model_Function Model_Property Model_Class Model_Module Model_Parse Spec_Path Spec_Tree Spec_Api Spec_Prop Spec_Out Spec_Attr.

(** ** What Python says *)
Definition has_doc (w : world) (o : oid) (s : str) : Prop := exists d, w_getattr w o (u "__doc__") = Some d /\ w_is_none w d = false /\ w_str w d = s.
(** [None] is printed as such. *)
Definition none_prints (w : world) : Prop := forall d, w_is_none w d = true -> w_str w d = u "None".
(** [d] is the documentation of [o]; an empty text and the text [None] do not count. *)
Definition doc_of (w : world) (o : oid) (d : option str) : Prop :=
  match d with Some s => has_doc w o s | None => forall s, has_doc w o s -> s = [] \/ s = u "None" end.
(** The same for an accessor: its own documentation, else the one of its counterpart. A getter is taken as it is, a setter
    unless it is [None]. *)
Definition doc_get (w : world) (o : oid) (d : option str) : Prop :=
  (exists g, getter_of w o g /\ doc_of w g d) \/ ((forall g, ~ getter_of w o g) /\ d = None).
Definition doc_set (w : world) (o : oid) (d : option str) : Prop :=
  (exists s, setter_of w o s /\ doc_of w s d) \/ (no_setter w o /\ d = None).
Definition either (a b d : option str) : Prop := (a <> None /\ d = a) \/ (a = None /\ d = b).

(** ** What the generated code says: the lines of documentation in front of each item *)
Fixpoint described (t : list str) (l : list frag) : list (list str * frag) :=
  match l with
  | [] => []
  | GDoc s :: r => described (t ++ [s]) r
  | GPub :: r => described t r
  | GAttr _ :: r => described t r
  | y :: r => (t, y) :: described [] r
  end.
(** The text [d], if documentation is wanted *)
Definition tells (cfg : config) (d : option str) (t : list str) : Prop :=
  match d with
  | Some s => if generate_docs cfg then exists s', format_docstring s = Ok s' /\ t = [s'] else t = []
  | None => t = []
  end.
Definition tells_of (x : penv) (o : oid) (t : list str) : Prop := exists d, doc_of (pe_world x) o d /\ tells (pe_cfg x) d t.

(** ** The object at a path: an attribute of the module, perhaps one that comes from somewhere else *)
Inductive stands (U : uni) (w : world) : path -> oid -> Prop :=
| stands_attr o i a : is_module w o -> attribute_of U w o i a -> stands U w (path_snoc (path_from_py U (w_name w o)) i) a
| stands_import o i b a : is_module w o -> attribute_of U w o i b -> stands U w (place_of U w i b) a ->
    stands U w (path_snoc (path_from_py U (w_name w o)) i) a.

(** ** Items and their documentation
    A function of a class, made from the attributes of the class object [a] *)
Definition member_told (x : penv) (a : oid) (t : list str) (d : fn_def) : Prop :=
  let U := pe_uni x in
  let w := pe_world x in
  exists i b, attribute_of U w a i b /\
  match f_body d with
  | BCall _ => (as_py i = u "__init__" \/ as_py i = u "__call__") /\ tells_of x b t
  | BCallMethod n _ => n = as_py i /\ tells_of x b t
  | BGet n => n = as_py i /\ exists dg ds e, doc_get w b dg /\ doc_set w b ds /\ either dg ds e /\ tells (pe_cfg x) e t
  | BSet n _ => n = as_py i /\ exists dg ds e, doc_get w b dg /\ doc_set w b ds /\ either ds dg e /\ tells (pe_cfg x) e t
  end.
Definition members_told (x : penv) (a : oid) (b : list frag) : Prop := forall t y, In (t, y) (described [] b) -> exists d, y = GFn d /\ member_told x a t d.

(** An item [y] of the scope [k], which is the module with path [ns], and the lines [t] in front of it *)
Definition told (x : penv) (ns : list ident) (k : list frag) (t : list str) (y : frag) : Prop :=
  let U := pe_uni x in
  let w := pe_world x in
  match y with
  | GFn d => exists p i a, segs p = ns /\ stands U w (path_snoc p i) a /\
      match f_body d with
      | BCall _ => False
      | BCallMethod n _ => n = as_py i /\ tells_of x a t
      | BGet n | BSet n _ => n = as_py i /\ t = []          (* the type of a variable may have documentation, not the variable *)
      end
  | GStruct id => exists p i a, segs p = ns /\ stands U w (path_snoc p i) a /\ In (GMacros id (to_py (path_snoc p i))) k /\ tells_of x a t
  | GImpl id b => exists p i a, segs p = ns /\ stands U w (path_snoc p i) a /\ In (GMacros id (to_py (path_snoc p i))) k /\ t = [] /\ members_told x a b
  | GImplFor _ id b => exists p i a, segs p = ns /\ stands U w (path_snoc p i) a /\ In (GMacros id (to_py (path_snoc p i))) k /\ t = [] /\ members_told x a b
  | GMod n b => is_prelude b = true /\ t = [] \/ exists o, is_module w o /\ segs (path_from_py U (w_name w o)) = ns ++ [n] /\ tells_of x o t
  | GTrait _ _ => trait_docs = map GDoc t                   (* a remark about methods *)
  | GEmbed _ _ _ => length t = 2                            (* a remark about the text *)
  | _ => t = []
  end.
