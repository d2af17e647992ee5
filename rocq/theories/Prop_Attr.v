(** * Property theorems: attributes of modules and classes (C50, C60) *)
From Verif Require Import Base Model_Ident Model_Path Model_Import Model_Config Model_Type Model_IntoRs Model_World Model_Out Model_Function Model_Property
  Model_Class Model_Module Model_Parse Model_Codegen Spec_Path Spec_Items Spec_Tree Spec_Api Spec_Privacy Spec_Attr Example_World Example_Honest
  Proof_Base Proof_Ident Proof_Path Proof_Parse Proof_Honest Proof_Rooted Proof_Deps Proof_Attr.

Definition ax_order_ok : order_ok id_order := fun A l => Permutation.Permutation_refl l.

(** ** C60 *)
Theorem C60_documented_order : forall e o from owner b k, type_named (e_world e) o ->
  determine e o from owner b = Ok k -> first_test (documented_tests (e_world e) o from owner (b = true)) k.
Proof. exact determine_tests. Qed.
Print Assumptions C60_documented_order.
(** Outside of debug builds there are no other outcomes. *)
Theorem C60_documented_order_iff : forall e o from owner b k, e_dbg e = false -> type_named (e_world e) o ->
  determine e o from owner b = Ok k <-> first_test (documented_tests (e_world e) o from owner (b = true)) k.
Proof. exact determine_iff. Qed.
Print Assumptions C60_documented_order_iff.
(** Two objects that agree on the tested facts are of the same kind. *)
Theorem C60_only_the_facts : forall e e' o o' from from' owner owner' b k k', type_named (e_world e) o ->
  w_type (e_world e') o' = w_type (e_world e) o -> (local_object (e_world e') o' <-> local_object (e_world e) o) -> (from' = owner' <-> from = owner) ->
  determine e o from owner b = Ok k -> determine e' o' from' owner' b = Ok k' -> k = k'.
Proof.
  intros e e' o o' from from' owner owner' b k k' Ht Et El Ef H H'.
  assert (Ht' : type_named (e_world e') o') by (unfold type_named in *; now rewrite Et).
  apply determine_tests in H; [|exact Ht]. apply determine_tests in H'; [|exact Ht']. apply (first_test_unique _ _ _ H).
  unfold documented_tests in *. rewrite Et in H'. inversion H' as [P a r HP|P a r c HP HR]; subst; [apply test_holds; tauto|apply test_fails; [tauto|exact HR]].
Qed.
Print Assumptions C60_only_the_facts.
(** What says that it comes from the module it is found in is not an import; nothing in a class is. *)
Theorem C60_own_not_imported : forall e o owner b, determine e o owner owner b <> Ok VImport.
Proof. exact determine_own. Qed.
Print Assumptions C60_own_not_imported.
Theorem C60_no_imports_in_classes : forall e o from owner, determine e o from owner false <> Ok VImport.
Proof. exact determine_class. Qed.
Print Assumptions C60_no_imports_in_classes.
(** The objects of the example package are named, and of different kinds. *)
Definition ax_kind (o : oid) : outcome variant :=
  determine (mk_env (pkg_world []) false uni_ascii) o (from_module uni_ascii (pkg_world []) o) (mk_path false [u "pkg"]) true.
Lemma ax_named : forall o, type_named (pkg_world []) o.
Proof.
  intros o. assert (K : forall n, type_named (pkg_world []) (N.of_nat n)).
  { intros n. unfold type_named. do 14 (destruct n as [|n]; [split; [reflexivity|intros s [= <-]; exists [u "builtins"]; split; [|reflexivity]; intros t [<-|[]]; apply py_nameb_ok; reflexivity]|]).
    cbn [pkg_world world_of w_type]. unfold ob_at. rewrite Nnat.Nat2N.id. rewrite nth_overflow by (cbn; lia). split; [reflexivity|].
    intros s [= <-]. exists [u "builtins"]. split; [|reflexivity]. intros t [<-|[]]. apply py_nameb_ok. reflexivity. }
  rewrite <- (Nnat.N2Nat.id o). apply K.
Qed.
Example C60_ex : ax_kind 5 = Ok VFunction /\ ax_kind 6 = Ok VClass /\ ax_kind 7 = Ok VProperty /\ ax_kind 11 = Ok VImport /\
  first_test (documented_tests (pkg_world []) 11 (from_module uni_ascii (pkg_world []) 11) (mk_path false [u "pkg"]) (true = true)) VImport.
Proof.
  assert (K : ax_kind 11 = Ok VImport) by (vm_compute; reflexivity). repeat split; try (vm_compute; reflexivity).
  unfold ax_kind in K. exact (determine_tests (mk_env (pkg_world []) false uni_ascii) _ _ _ _ _ (ax_named 11) K).
Qed.
(** A module object has no [__module__], so that it always counts as imported from elsewhere, even if it is
    a submodule of the module it is found in; such a submodule is found only if [pkgutil] lists it. *)
Definition w_dynamic : world := w_pkg [at_ "sub" 3%N] [] [] [module_ob "pkg.sub" [at_ "__name__" 4%N] None []; str_ob "pkg.sub"].
Theorem C60_submodule_refuted : exists e o m name, honest (e_uni e) (e_world e) /\ is_module (e_world e) o /\
  w_getattr (e_world e) m (u "sub") = Some o /\ w_name (e_world e) m = name /\ w_name (e_world e) o = name ++ u ".sub" /\
  determine e o (from_module (e_uni e) (e_world e) o) (path_from_py (e_uni e) name) true = Ok VImport /\
  exists x k, pe_env x = e /\ pe_cfg x = default_config /\ mod_parse x 3 m = Ok k /\ m_imports k = [] /\ m_subs k = [].
Proof.
  exists (pe_env (env_of w_dynamic)), 3%N, 2%N, (u "pkg"). split; [apply honestb_ok; vm_compute; reflexivity|].
  do 5 (split; [vm_compute; reflexivity|]). set (k := match mod_parse (env_of w_dynamic) 3 2 with Ok k => k | _ => mk_module (mk_path false []) [] [] [] [] [] [] [] None false None end).
  exists (env_of w_dynamic), k. split; [reflexivity|]. split; [reflexivity|]. repeat split; vm_compute; reflexivity.
Qed.
Print Assumptions C60_submodule_refuted.

(** ** C50
    The full claim: the attribute is parsed as an item, or skipped because it is a method, is hidden, or is
    its own origin. It fails for imports in the place of a submodule ([C50_lost_import_refuted]); [accounted] says
    when such an import survives. Modules are followed if [traverse_submodules] says so. *)
Theorem C50_modules_partial : forall x fuel o m i a k, order_ok (pe_ord x) -> mod_parse x (S fuel) o = Ok m -> attribute_of (pe_uni x) (pe_world x) o i a ->
  ~ hidden (pe_cfg x) (as_py i) (components (from_module (pe_uni x) (pe_world x) a)) -> type_named (pe_world x) a ->
  first_test (documented_tests (pe_world x) a (from_module (pe_uni x) (pe_world x) a) (m_name m) True) k ->
  accounted (pe_uni x) (pe_world x) (pe_cfg x) (fun t k => mod_parse x fuel t = Ok k) o i a m k.
Proof. exact module_accounted. Qed.
Print Assumptions C50_modules_partial.
Theorem C50_classes : forall e cfg o name c i a k, class_parse e cfg o name = Ok c -> attribute_of (e_uni e) (e_world e) o i a ->
  (~ hidden cfg (as_py i) (components (from_module (e_uni e) (e_world e) a)) \/ as_py i = u "__init__" \/ as_py i = u "__call__") -> type_named (e_world e) a ->
  first_test (documented_tests (e_world e) a (from_module (e_uni e) (e_world e) a) name False) k -> accounted_in_class i c k.
Proof. exact class_accounted. Qed.
Print Assumptions C50_classes.
(** At most one item per attribute *)
Theorem C50_at_most_once : forall x fuel o m k, order_ok (pe_ord x) -> mod_parse x fuel o = Ok m -> within k m -> NoDup (item_paths k).
Proof. intros x fuel o m k Ho Hm Hk. exact (parsed_distinct x fuel o m Ho Hm k Hk). Qed.
Print Assumptions C50_at_most_once.
Theorem C50_members_at_most_once : forall e cfg o name c, class_parse e cfg o name = Ok c -> NoDup (member_paths c).
Proof. exact class_distinct. Qed.
Print Assumptions C50_members_at_most_once.
Definition ax_module : module := match pkg_parsed [] with Ok m => m | _ => mk_module (mk_path false []) [] [] [] [] [] [] [] None false None end.
Example C50_ex : mod_parse (pkg_env default_config []) 3 3 = Ok ax_module /\
  attribute_of uni_ascii (pkg_world []) 3 (u "g") 11 /\ ~ hidden default_config (u "g") (components (from_module uni_ascii (pkg_world []) 11)) /\
  length (m_imports ax_module) = 1 /\ length (m_classes ax_module) = 1 /\ length (m_functions ax_module) = 1 /\ length (m_properties ax_module) = 1 /\
  length (item_paths ax_module) = 4.
Proof.
  split; [vm_compute; reflexivity|]. split; [exists (u "g"); split; [vm_compute; tauto|]; split; vm_compute; reflexivity|].
  split; [apply (shown_iff default_config (u "g") (from_module uni_ascii (pkg_world []) 11)); vm_compute; reflexivity|]. repeat split; vm_compute; reflexivity.
Qed.
(** [pkg] has a submodule [tool], and its attribute [tool] is a function that comes from another module:
    neither the function nor the submodule is found. *)
Definition w_lost : world :=
  w_pkg [at_ "tool" 5%N] [u "tool"] [at_ "pkg.tool" 3%N; at_ "dep" 4%N]
    [module_ob "pkg.tool" [at_ "h" 7%N] None []; module_ob "dep" [at_ "tool" 5%N] None []; fn_ob 6 (sig [] None); str_ob "dep"; fn_ob 8 (sig [] None); str_ob "pkg.tool"].
Theorem C50_lost_import_refuted : exists x o m i a, order_ok (pe_ord x) /\ honest (pe_uni x) (pe_world x) /\ pe_cfg x = default_config /\ mod_parse x 5 o = Ok m /\
  attribute_of (pe_uni x) (pe_world x) o i a /\ ~ hidden (pe_cfg x) (as_py i) (components (from_module (pe_uni x) (pe_world x) a)) /\
  item_paths m = [] /\ m_subs m = [] /\ w_iter_modules (pe_world x) o = [i].
Proof.
  set (m := match mod_parse (env_of w_lost) 5 2 with Ok m => m | _ => ax_module end). exists (env_of w_lost), 2%N, m, (u "tool"), 5%N.
  split; [exact ax_order_ok|]. split; [apply honestb_ok; vm_compute; reflexivity|]. split; [reflexivity|]. split; [vm_compute; reflexivity|].
  split; [exists (u "tool"); split; [vm_compute; tauto|]; split; vm_compute; reflexivity|].
  split; [apply (shown_iff default_config (u "tool") (from_module uni_ascii w_lost 5)); vm_compute; reflexivity|]. repeat split; vm_compute; reflexivity.
Qed.
Print Assumptions C50_lost_import_refuted.
(** A class that does not define [__init__] has the one of [object], which is no function for [inspect]: it becomes a property. *)
Definition slot_ob : ob :=
  mk_ob [at_ "__doc__" 0%N] (u "<slot wrapper '__init__' of 'object' objects>") (facts "wrapper_descriptor" false false false false false no_sub "<class 'wrapper_descriptor'>") None [] [] None [].
Definition w_no_init : world := w_pkg [at_ "C" 3%N] [] [] [class_ob 1 [at_ "__init__" 4%N] []; slot_ob].
Theorem C50_inherited_constructor_refuted : exists x o m c, order_ok (pe_ord x) /\ honest (pe_uni x) (pe_world x) /\ pe_cfg x = default_config /\ mod_parse x 5 o = Ok m /\
  m_classes m = [c] /\ cl_methods c = [] /\ map (fun p => to_py (pr_name p)) (cl_props c) = [u "pkg.C.__init__"].
Proof.
  set (m := match mod_parse (env_of w_no_init) 5 2 with Ok m => m | _ => ax_module end).
  set (c := match m_classes m with c :: _ => c | [] => mk_class (mk_path false []) [] [] None end). exists (env_of w_no_init), 2%N, m, c.
  split; [exact ax_order_ok|]. split; [apply honestb_ok; vm_compute; reflexivity|]. split; [reflexivity|]. repeat split; vm_compute; reflexivity.
Qed.
Print Assumptions C50_inherited_constructor_refuted.
