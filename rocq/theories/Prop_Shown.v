(** * Property theorems: nothing hidden is bound (C09) *)
From Verif Require Import Base Model_Ident Model_Path Model_Import Model_Config Model_Type Model_IntoRs Model_World Model_Out Model_Function Model_Property
  Model_Class Model_Module Model_Parse Model_Codegen Spec_Path Spec_Items Spec_Tree Spec_Api Spec_Out Spec_Privacy Spec_Attr Example_World Example_Honest
  Proof_Base Proof_Ident Proof_Path Proof_Parse Proof_Honest Proof_Rooted Proof_Deps Proof_Attr Proof_Shown Prop_Attr Prop_Forest.

(** ** C09 *)
(** Everything that is generated is made of an object whose name and module are shown, and is called after a shown attribute
    (the two attributes differ when a re-exported object has moved to another module);
    also the members of classes, except for [__init__] and [__call__], and the modules that imports go through. *)
Theorem C09_items : forall x, order_ok (pe_ord x) -> named_world (pe_world x) -> forall fuel l c ms m k it,
  asked_modules (pe_world x) l -> asks x fuel l cg_new = Ok c -> final_modules x fuel c = Ok ms -> In m ms -> within k m -> has k it -> (forall i, it <> AnExport i) ->
  shown_item x it /\ shown_inside x it.
Proof.
  intros x Ho Hw fuel l c ms m k it Hl Hc Hf Hm Hk Hit He. pose proof (final_shown x Ho Hw fuel l c Hl Hc ms m k it Hf Hm Hk Hit) as K.
  destruct it as [n| | | | |]; [now destruct (He n)|exact K..].
Qed.
Print Assumptions C09_items.
(** The same of a single module: this is what parsing looks at. *)
Theorem C09_parsed_items : forall x fuel o m k it, named_world (pe_world x) -> is_module (pe_world x) o -> mod_parse x fuel o = Ok m -> within k m -> has k it ->
  (forall i, it <> AnExport i) -> shown_item x it /\ shown_inside x it.
Proof. intros x fuel o m k it Hw Ho Hm Hk Hit He. pose proof (parsed_shown x fuel o m k it Hw Ho Hm Hk Hit) as K. destruct it as [n| | | | |]; [now destruct (He n)|exact K..]. Qed.
Print Assumptions C09_parsed_items.
(** No generated text uses a hidden attribute. *)
Theorem C09_output : forall x, order_ok (pe_ord x) -> named_world (pe_world x) -> forall numpy fuel l c out ns k f,
  asked_modules (pe_world x) l -> asks x fuel l cg_new = Ok c -> cg_generate x numpy fuel c = Ok out -> at_path out ns k -> In f k -> frag_shown x f.
Proof. intros x Ho Hw numpy fuel l c out ns k f Hl Hc Hout. exact (output_shown x Ho Hw numpy fuel l c out Hl Hc Hout ns k f). Qed.
Print Assumptions C09_output.
(** Modules: the last component of the name is shown, unless the module was asked for, or something is imported from it, or one of its submodules. *)
Theorem C09_modules_partial : forall x, order_ok (pe_ord x) -> honest (pe_uni x) (pe_world x) -> names_differ (pe_world x) -> forall fuel l c ms m k,
  asked_modules (pe_world x) l -> asks x fuel l cg_new = Ok c -> final_modules x fuel c = Ok ms -> In m ms -> within k m ->
  (exists n i, m_name k = path_snoc n i /\ name_shown (pe_cfg x) i) \/ exists m0, In (m_name k) (parents (m_name m0) ++ [m_name m0]) /\
    (In m0 (cg_modules c) \/
      (generate_dependencies (pe_cfg x) = true /\ exists o, imported_from (pe_world x) (cg_modules c) o /\ ~ excluded x o /\ mod_parse x fuel o = Ok m0)).
Proof. intros x Ho Hw Hd fuel l c ms m k Hl Hc. exact (final_module_shown x Ho Hw fuel l c ms m k Hd Hl Hc). Qed.
Print Assumptions C09_modules_partial.
(** The last exception is a real one. The filter for dependencies takes the dotted name of a module for a single name:
    [pkg] has a function from [dep.impl], and this attribute of [dep] is the module [dep._impl]. *)
Definition w_hidden_dep : world :=
  w_pkg [at_ "g" 5%N] [] [at_ "dep" 4%N]
    [str_ob "dep.impl"; module_ob "dep" [at_ "__name__" 6%N; at_ "__path__" 6%N; at_ "impl" 7%N] None []; fn_ob 3 (sig [] None); str_ob "dep";
     module_ob "dep._impl" [at_ "__name__" 8%N; at_ "g" 5%N; at_ "n" 9%N] None []; str_ob "dep._impl"; int_ob].
Theorem C09_dependency_refuted : exists x l c ms m k p, order_ok (pe_ord x) /\ honest (pe_uni x) (pe_world x) /\ names_differ (pe_world x) /\ asked_modules (pe_world x) l /\
  include_private (pe_cfg x) = false /\ asks x 5 l cg_new = Ok c /\ map (fun m => to_py (m_name m)) (cg_modules c) = [u "pkg"] /\
  final_modules x 5 c = Ok ms /\ In m ms /\ within k m /\ m_name k = mk_path false [u "dep"; u "_impl"] /\ m_properties k = [p] /\ pr_name p = mk_path false [u "dep"; u "_impl"; u "n"].
Proof.
  set (ms := fx_forest (deps_env w_hidden_dep) fx_pkg). set (m := hd (fx_copy []) ms). set (k := hd (fx_copy []) (m_subs m)).
  exists (deps_env w_hidden_dep), fx_pkg, (fx_codegen (deps_env w_hidden_dep) fx_pkg), ms, m, k, (hd (mk_property (m_name m) OwnerModule true TUnknown TUnknown None None) (m_properties k)).
  split; [exact fx_order_ok|]. split; [apply honestb_ok; vm_compute; reflexivity|]. split; [apply differb_ok; vm_compute; reflexivity|].
  split; [intros r o [<-|[]] [E|[]]; injection E as <-; reflexivity|]. split; [reflexivity|]. split; [vm_compute; reflexivity|]. split; [vm_compute; reflexivity|].
  split; [vm_compute; reflexivity|]. split; [subst m; vm_compute; now left|].
  split; [apply (within_sub k m k); [subst k m ms; vm_compute; now left|constructor]|]. split; [vm_compute; reflexivity|]. split; vm_compute; reflexivity.
Qed.
Print Assumptions C09_dependency_refuted.
(** The example package has some hidden attributes as well: [_n], [tests] of the blocklist and a function of a private module. *)
Definition w_private : world :=
  w_pkg [at_ "_n" 3%N; at_ "n" 3%N; at_ "tests" 3%N; at_ "g" 5%N; at_ "C" 6%N] [] []
    [int_ob; str_ob "pkg._impl"; fn_ob 4 (sig [] None); class_ob 1 [at_ "__init__" 7%N; at_ "_m" 7%N; at_ "m" 7%N] []; fn_ob 1 (sig [par "self" None] None)].
Definition px_uses (f : frag) : list str :=
  flat_map (fun g => match g with GFn d => match f_body d with BCallMethod m _ => [m] | BGet m => [m] | BSet m _ => [m] | _ => [] end | _ => [] end)
    (match f with GImplFor _ _ b | GImpl _ b => b | f => [f] end).
Definition px_scope (out : list frag) : list frag := match flat_map (fun f => match f with GMod _ b => b | _ => [] end) out with [] => [] | l => l end.
Example C09_ex : named_world w_private /\ asked_modules w_private fx_pkg /\ asks (env_of w_private) 5 fx_pkg cg_new = Ok (fx_codegen (env_of w_private) fx_pkg) /\
  cg_generate (env_of w_private) false 5 (fx_codegen (env_of w_private) fx_pkg) = Ok (fx_output (env_of w_private) fx_pkg) /\
  flat_map px_uses (px_scope (fx_output (env_of w_private) fx_pkg)) = map u ["m"; "n"; "n"]%string /\
  final_modules (env_of w_private) 5 (fx_codegen (env_of w_private) fx_pkg) = Ok (fx_forest (env_of w_private) fx_pkg).
Proof.
  split; [apply (honest_named uni_ascii), honestb_ok; vm_compute; reflexivity|]. split; [intros r o [<-|[]] [E|[]]; injection E as <-; reflexivity|].
  split; [vm_compute; reflexivity|]. split; [vm_compute; reflexivity|]. split; vm_compute; reflexivity.
Qed.
