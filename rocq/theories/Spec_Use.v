(** * What the generated [use] items refer to (C30, C48, C59) *)
From Verif Require Import Base Model_Ident Model_Path Model_Import Model_Config Model_Type Model_IntoRs Model_World Model_Out Model_Function Model_Property Model_Class Model_Module Model_Parse
  Spec_Path Spec_Items Spec_Tree Spec_Api Spec_Out Spec_Privacy Spec_Attr.

(** The scope [k] defines the name [i]. *)
Definition defines (k : list frag) (i : ident) : Prop :=
  (exists d, In (GFn d) k /\ k_name (f_contract d) = i) \/ In (GType i) k \/ In (GStruct i) k \/ exists b, In (GMod i b) k.
(** The [use] path [p], written in the module [ns] of [out], leads to something that [out] defines. *)
Definition refers (out : list frag) (ns p : list ident) : Prop :=
  exists q i k, resolve ns p = Some (q ++ [i]) /\ at_path out q k /\ defines k i.

(** A Python name that can be written in Rust, as it is or raw *)
Definition spellable_name (U : uni) (n : str) : Prop := py_identifier U n /\ ~ rust_unspellable n.
(** Nothing is switched off that could be imported. *)
Definition all_on (cfg : config) : Prop :=
  traverse_submodules cfg = true /\ generate_classes cfg = true /\ generate_type_vars cfg = true /\ generate_functions cfg = true /\ generate_properties cfg = true.

(** ** Preludes
    Something of module [m], not an import, that is called [i] *)
Definition counterpart (m : module) (i : ident) : Prop :=
  (exists s, In s (m_subs m) /\ ends (m_name s) i) \/
  (exists it p, has m it /\ item_path it = Some p /\ ends p i /\ forall j, it <> AnImport j).
(** The name [i] is in use in module [m], perhaps for an import. *)
Definition in_use (m : module) (i : ident) : Prop := counterpart m i \/ exists j, In j (m_imports m) /\ ends (im_target j) i.

(** The names in [__all__] of the module [o], and its public attributes *)
Definition listed (x : penv) (o : oid) (i : ident) : Prop :=
  exists l s, w_all (pe_world x) o = Some l /\ In s l /\ i = ident_from_py (pe_uni x) s.
Definition public_name (x : penv) (o : oid) (i : ident) : Prop :=
  exists s, In s (w_dir (pe_world x) o) /\ i = ident_from_py (pe_uni x) s /\ ~ private (as_py i).
(** The object comes from the package that the module [p] belongs to. *)
Definition own_package (x : penv) (p : path) (a : oid) : Prop :=
  exists r t q, segs p = r :: t /\ segs (from_module (pe_uni x) (pe_world x) a) = r :: q.
(** The names that the module [o] with path [p] declares for export *)
Definition exported (x : penv) (o : oid) (p : path) (i : ident) : Prop :=
  generate_preludes (pe_cfg x) = true /\ listed x o i /\
  ~ (forall j, listed x o j <-> public_name x o j) /\            (* else there is nothing to select *)
  (exists a, w_getattr (pe_world x) o (as_py i) = Some a /\ (generate_dependencies (pe_cfg x) = true \/ own_package x p a)) /\
  ~ hidden (pe_cfg x) (as_py i) (components p).

(** What the modules declare and have can be written in Rust. *)
Definition exports_spelled (U : uni) (ms : list module) : Prop :=
  forall m k i, In m ms -> within k m -> In i (m_prelude k) -> counterpart k i -> rust_ident U i.

(** The scope [k] has a prelude, a module [c] with the exports [ex]. *)
Definition prelude_of (k : list frag) (c : ident) (ex : list ident) : Prop := In (GMod c [GPub; GUseSuper ex]) k.
(** Names of the form [pre], [pre1], [pre2], .. *)
Definition numbered (pre : str) (j : nat) : str := pre ++ match j with O => [] | _ => dec (N.of_nat j) end.
