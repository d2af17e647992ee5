(** * Looking into the generated code *)
From Verif Require Import Base Model_Ident Model_Path Model_Import Model_IntoRs Model_Out Spec_Path Spec_Items.

(** [at_path l ns b]: going down from [l] through [mod]s named [ns] leads to the body [b]. *)
Inductive at_path : list frag -> list ident -> list frag -> Prop :=
| at_here l : at_path l [] l
| at_down l n b ns k : In (GMod n b) l -> at_path b ns k -> at_path l (n :: ns) k.

(** ** Items, one by one: the attributes and the [pub] in front of an item belong to it. *)
Definition leads (x : frag) : bool := match x with GPub | GDoc _ | GAttr _ => true | _ => false end.
Fixpoint split_items (front : list frag) (l : list frag) : list (list frag * frag) :=
  match l with
  | [] => []
  | x :: r => if leads x then split_items (front ++ [x]) r else (front, x) :: split_items [] r
  end.

(** ** Kinds of items *)
Inductive kind := KImport | KPrelude | KTypeVar | KClass | KFunction | KProperty | KModule | KEmbed.
Definition fn_kind (b : body) : kind := match b with BCall _ | BCallMethod _ _ => KFunction | BGet _ | BSet _ _ => KProperty end.
(** The prelude is the module that consists of [pub use super::{..}]. *)
Definition is_prelude (l : list frag) : bool := match l with [GPub; GUseSuper _] => true | _ => false end.
Definition kind_of (x : frag) : kind :=
  match x with
  | GUse _ => KImport
  | GUseSuper _ => KPrelude
  | GType _ => KTypeVar
  | GStruct _ | GMacros _ _ | GImpl _ _ | GTrait _ _ | GImplFor _ _ _ => KClass
  | GFn d => fn_kind (f_body d)
  | GMod _ b => if is_prelude b then KPrelude else KModule
  | _ => KEmbed
  end.
Definition kind_eqb (a b : kind) : bool :=
  match a, b with
  | KImport, KImport | KPrelude, KPrelude | KTypeVar, KTypeVar | KClass, KClass | KFunction, KFunction
  | KProperty, KProperty | KModule, KModule | KEmbed, KEmbed => true
  | _, _ => false
  end.

(** ** The Rust module that mirrors a Python module: each component of its path is a [mod]. *)
Definition ends (p : path) (i : ident) : Prop := exists q, segs p = q ++ [i].
Definition mirrors (ch : list path) (ns : list ident) : Prop := Forall2 ends ch ns.

(** The embedded texts of a scope *)
Definition embeds (l : list frag) : list frag := filter (fun f => match f with GEmbed _ _ _ => true | _ => false end) l.
(** The names of the [mod]s of a scope *)
Definition mod_names (l : list frag) : list ident := flat_map (fun f => match f with GMod n _ => [n] | _ => [] end) l.
(** No text is embedded anywhere. *)
Definition no_text (out : list frag) : Prop := forall ns k, at_path out ns k -> embeds k = [].
