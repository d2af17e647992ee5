(** * Which names are hidden (properties C09, C50, C58) *)
From Verif Require Import Base Model_Ident Model_Path Model_Config Model_Type Model_World Model_Function Model_Parse Model_Codegen Spec_Path Spec_Items Spec_Api.

Definition private (s : str) : Prop := exists t, s = u "_" ++ t.
(** An attribute [n] that comes from a module with the components [ms] *)
Definition hidden (cfg : config) (n : str) (ms : list str) : Prop :=
  In n reserved \/ (include_private cfg = false /\ (private n \/ exists s, In s ms /\ private s)) \/
  In n (blocklist_names cfg) \/ In (u "typing") ms \/ In (u "__future__") ms.
Definition components (p : path) : list str := map as_py (segs p).
(** The text of an object's [__module__] *)
Definition module_text (w : world) (o : oid) : str := match attr_text w o "__module__" with Some s => s | None => [] end.
(** A dependency that the configuration excludes *)
Definition excluded (x : penv) (o : oid) : Prop :=
  hidden (pe_cfg x) (w_name (pe_world x) o) (components (path_from_py (pe_uni x) (module_text (pe_world x) o))).
