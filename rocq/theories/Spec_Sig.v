(** * What the types in the generated signatures refer to (C66) *)
From Verif Require Import Base Model_Ident Model_Path Model_Import Model_Type Model_IntoRs Model_Out Model_Class Model_Module Spec_Path Spec_Names Spec_Rust Spec_Items Spec_Out.

(** ** The names in a type: bare ones, paths of libraries, and paths of generated items *)
Inductive mention := MBare (s : str) | MLib (p : list str) | MLocal (p : path).
Fixpoint mentions (t : rty) : list mention :=
  match t with
  | RName s => [MBare s]
  | RVec t => MBare (u "Vec") :: mentions t
  | RSlice t | RRef t => mentions t
  | RTup l => flat_map mentions l
  | RAbs p args | RImpl p args => MLib p :: flat_map mentions args
  | RBound t => MLib (segs_of ["pyo3"; "Bound"]%string) :: mentions t
  | RLocal p => [MLocal p]
  end.

(** ** The signatures of a scope: functions, and the methods of its structs and traits *)
Definition sig_types (k : contract) : list rty := map snd (k_params k) ++ match k_ret k with RetType t => [t] | _ => [] end.
Definition frag_contracts (y : frag) : list contract := match y with GFn d => [f_contract d] | GDecl k => [k] | _ => [] end.
Definition contracts (k : list frag) : list contract :=
  flat_map (fun y => match y with GImpl _ b | GTrait _ b | GImplFor _ _ b => flat_map frag_contracts b | _ => frag_contracts y end) k.
Definition mentioned (k : list frag) (r : mention) : Prop := exists c t, In c (contracts k) /\ In t (sig_types c) /\ In r (mentions t).

(** ** Resolution
    The path [p], written in the module [ns] of [out], leads to a struct or type of [out]. *)
Definition type_at (out : list frag) (ns : list ident) (p : list ident) : Prop :=
  exists q i k, resolve ns p = Some (q ++ [i]) /\ at_path out q k /\ (In (GStruct i) k \/ In (GType i) k).
(** The name [i] is defined or imported in the scope as a type, trait or module (an imported function counts, too); this hides the primitive types and the names that Rust knows everywhere. *)
Definition hides (k : list frag) (i : ident) : Prop :=
  In (GStruct i) k \/ In (GType i) k \/ (exists b, In (GMod i b) k) \/ (exists b, In (GTrait i b) k) \/ exists v, In (GUse v) k /\ Spec_Names.bound_name v = Some i.
Definition bare_types : list str := map u ["bool"; "u8"; "f64"; "i64"; "str"; "Vec"]%string.
(** The items of the libraries, as in C21 *)
Definition library_items : list (list str) := segs_of ["pyo3"; "Bound"]%string :: existing_items.
(** The two paths that do not exist (C21) *)
Definition missing_paths : list (list str) := map segs_of [["std"; "net"; "IpV4Addr"]; ["std"; "net"; "IpV6Addr"]]%string.
