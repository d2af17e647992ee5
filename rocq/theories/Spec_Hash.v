(** * Two runs that differ in the order of hash sets (C72) *)
From Coq Require Import Permutation.
From Verif Require Import Base Model_Ident Model_Path Model_Import Model_Config Model_Type Model_IntoRs Model_World Model_Out Model_Function Model_Property
  Model_Class Model_Module Model_Parse Model_Codegen Spec_Path Spec_Items Spec_Tree Spec_Out.

(** The same world, configuration and build, another order *)
Definition with_order (x : penv) (h : hash_order) : penv := mk_penv (pe_env x) (pe_cfg x) h.

(** The same items in another order. Whatever stands in front of an item ([pub], attributes, documentation) moves with it. *)
Definition whole (l : list frag) : Prop := l = [] \/ exists a y, l = a ++ [y] /\ leads y = false.
Inductive reordered : list frag -> list frag -> Prop :=
| ro_same l : reordered l l
| ro_trans a b c : reordered a b -> reordered b c -> reordered a c
| ro_app a a' b b' : whole a -> whole a' -> reordered a a' -> reordered b b' -> reordered (a ++ b) (a' ++ b')
| ro_swap a b : whole a -> whole b -> reordered (a ++ b) (b ++ a)
| ro_mod front n a b : forallb leads front = true -> reordered a b -> reordered (front ++ [GMod n a]) (front ++ [GMod n b])
| ro_use front a b : forallb leads front = true -> Permutation a b -> reordered (front ++ [GUseSuper a]) (front ++ [GUseSuper b]).

(** ** Names that could mean several classes *)

(** The texts whose meaning is looked up for the type *)
Fixpoint texts (t : ptype) : list str :=
  match t with
  | TOther s => [s]
  | TOptional x | TFrozenSet x | TList x | TSet x => texts x
  | TDict k v => texts k ++ texts v
  | TTuple l => flat_map texts l
  | _ => []
  end.
Definition fn_texts (f : func) : list str := flat_map (fun p => texts (p_ann p)) (fn_params f) ++ texts (fn_ret f).
Definition prop_texts (p : property) : list str := texts (pr_ann p).
Definition class_texts (c : class) : list str := flat_map fn_texts (cl_methods c) ++ flat_map prop_texts (cl_props c).
Definition module_texts (m : module) : list str :=
  flat_map class_texts (m_classes m) ++ flat_map fn_texts (m_functions m) ++ flat_map prop_texts (m_properties m).

(** Through the import, the path [q] stands for the class [p]: the text of [p] after that of the origin, with its first component
    replaced by the name the import binds (what C23 shows), or the name alone. *)
Definition seen_as (U : uni) (im : import) (p q : path) : Prop :=
  exists t a, segs (im_target im) = t ++ [a] /\ (exists r, segs p = segs (im_origin im) ++ r) /\
    ((exists s b r, to_py p = to_py (im_origin im) ++ c_dot :: s /\ segs (path_from_py U s) = b :: r /\
        q = mk_path (leading_colon (path_from_py U s)) (a :: r)) \/
     ((forall s, to_py p <> to_py (im_origin im) ++ c_dot :: s) /\ q = mk_path false [a])).
(** The module never asks for a path that stands for two classes. *)
Definition unambiguous (U : uni) (ts : list path) (m : module) : Prop :=
  forall s q im im' p p', In s (module_texts m) -> (q = path_from_py U s \/ q = path_from_py U (before_bracket s)) ->
    In im (m_imports m) -> In im' (m_imports m) -> In p ts -> In p' ts -> seen_as U im p q -> seen_as U im' p' q -> p = p'.

(** ** What [reordered] keeps *)
Inductive alike_item : list frag * frag -> list frag * frag -> Prop :=
| ai_same e : alike_item e e
| ai_mod front n a b : reordered a b -> alike_item (front, GMod n a) (front, GMod n b)
| ai_use front a b : Permutation a b -> alike_item (front, GUseSuper a) (front, GUseSuper b).
