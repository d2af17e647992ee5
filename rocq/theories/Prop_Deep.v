(** * Property theorems: traversing submodules (C82) *)
From Verif Require Import Base Model_Ident Model_Path Model_Import Model_Config Model_Type Model_IntoRs Model_World Model_Out Model_Function Model_Property
  Model_Class Model_Module Model_Parse Model_Codegen Spec_Path Spec_Names Spec_Items Spec_Tree Spec_Api Spec_Out Spec_Attr Spec_Use Spec_Rust Spec_Hash Spec_Privacy Spec_More Spec_Block Spec_Fuller Spec_Open Spec_Deep Example_World Example_Honest
  Proof_Base Proof_Ident Proof_Path Proof_IntoRs Prop_Items Prop_Forest Prop_Switch Prop_Use Prop_Full Prop_More Prop_Block Proof_Open Proof_Opened Proof_Deep Prop_Open Spec_Rust.

(** ** C82
    The same requests without submodules ([x]) and with them ([deep_run h x]).
    A module that can be read with its submodules can be read without them; it then has none, declares the same names, and everything that is found in it is found with submodules too. *)
Theorem C82_module : forall h x fuel o m', traverse_submodules (pe_cfg x) = false -> mod_parse (deep_run h x) fuel o = Ok m' ->
  exists m, mod_parse x fuel o = Ok m /\ opens m m' /\ m_prelude m = m_prelude m' /\ m_subs m = [].
Proof. intros h x fuel o m' Ht. exact (parse_deep h x Ht fuel o m'). Qed.
Print Assumptions C82_module.
(** All that submodules add to the items of the module itself: an item of a module that can be imported under the module's name and one more, in the place of that module
    ([tool] in [C82_ex_names]). *)
Theorem C82_added : forall h x fuel o m m', traverse_submodules (pe_cfg x) = false -> mod_parse x (S fuel) o = Ok m -> mod_parse (deep_run h x) (S fuel) o = Ok m' ->
  forall it, has m' it -> has m it \/
    exists i t k it0, w_import (pe_world x) (to_py (path_snoc (m_name m) i)) = Some t /\ mod_parse (deep_run h x) fuel t = Ok k /\ has k it0 /\ moved it0 it (path_snoc (m_name m) i).
Proof. intros h x fuel o m m' Ht. exact (deep_added h x Ht fuel o m m'). Qed.
Print Assumptions C82_added.
(** All requests *)
Theorem C82_requests : forall h x fuel l c', traverse_submodules (pe_cfg x) = false -> asked_modules (pe_world x) l ->
  asks (deep_run h x) fuel l cg_new = Ok c' -> exists c, asks x fuel l cg_new = Ok c /\ Forall2 opens (cg_modules c) (cg_modules c').
Proof. intros h x fuel l c' Ht. exact (requests_open _ _ _ h x (parse_opened h x Ht) fuel l c'). Qed.
Print Assumptions C82_requests.
(** The forests, dependencies included *)
Theorem C82_forest : forall h x fuel l c c' ms ms', traverse_submodules (pe_cfg x) = false -> order_ok (pe_ord x) -> order_ok h -> honest (pe_uni x) (pe_world x) -> asked_modules (pe_world x) l ->
  (generate_dependencies (pe_cfg x) = true -> names_differ (pe_world x)) ->
  asks x fuel l cg_new = Ok c -> final_modules x fuel c = Ok ms -> asks (deep_run h x) fuel l cg_new = Ok c' -> final_modules (deep_run h x) fuel c' = Ok ms' ->
  forall ch, (present ms ch -> present ms' ch) /\ forall it, holds ms ch it -> exists it', holds ms' ch it' /\ open_item it it'.
Proof. intros h x fuel l c c' ms ms' Ht Ho Ho' Hw. exact (forest_open _ _ _ h x Ho Ho' Hw (parse_opened h x Ht) (deep_excluded h x) fuel l c c' ms ms'). Qed.
Print Assumptions C82_forest.
(** The outputs, if every name in an annotation can stand for one class at most, every name in a prelude can be written in Rust, and no function or method that is added has a name that
    the engine could give to an accessor, a constructor or a call (the full claim has no such conditions: [C82_setter_refuted], [C82_prelude_refuted]).
    Every item is in the output with submodules at the same path, with the same calls; types can be sharper, and preludes can list more. *)
Theorem C82_output_partial : forall h x numpy fuel l c c' ms ms' out out', uni_ok (pe_uni x) -> traverse_submodules (pe_cfg x) = false -> order_ok (pe_ord x) -> order_ok h -> honest (pe_uni x) (pe_world x) ->
  names_differ (pe_world x) -> asked_modules (pe_world x) l ->
  asks x fuel l cg_new = Ok c -> final_modules x fuel c = Ok ms -> cg_generate x numpy fuel c = Ok out ->
  asks (deep_run h x) fuel l cg_new = Ok c' -> final_modules (deep_run h x) fuel c' = Ok ms' -> cg_generate (deep_run h x) numpy fuel c' = Ok out' ->
  ordinary_additions ms ms' ->
  (forall m k, In m ms' -> within k m -> one_meaning (pe_uni x) (all_types ms') k) ->
  (forall m k, In m ms' -> within k m -> forall j, In j (m_prelude k) -> counterpart k j -> rust_ident (pe_uni x) j) ->
  forall ns k y, at_path out ns k -> In y k -> leads y = false ->
    (exists ex, y = GUseSuper ex) \/ exists k', at_path out' ns k' /\ ((exists y', In y' k' /\ fuller y y') \/
      exists n ex n' ex', y = GMod n [GPub; GUseSuper ex] /\ In (GMod n' [GPub; GUseSuper ex']) k' /\ incl ex ex').
Proof.
  intros h x numpy fuel l c c' ms ms' out out' HU Ht Ho Ho' Hw Hd Hl Hc Hf Hg Hc' Hf' Hg' Ha Hv Hr.
  exact (op_output _ _ _ h x numpy fuel l c c' ms ms' out out' HU Ho Ho' Hw (parse_opened h x Ht) (deep_excluded h x) Hd Hl Hc Hf Hg Hc' Hf' Hg' Ha eq_refl Hv Hr).
Qed.
Print Assumptions C82_output_partial.

(** ** An example
    [pkg] has [f(x: pkg.C)], a class [C], a submodule [sub], and takes the function [tool] from its submodule [tool]; it declares [f] and [tool]. *)
Definition w_deep : world :=
  world_of [at_ "pkg" 2%N; at_ "pkg.sub" 6%N; at_ "pkg.tool" 8%N]
    [none_ob; str_ob "pkg";
     module_ob "pkg" [at_ "__name__" 1%N; at_ "__path__" 1%N; at_ "f" 3%N; at_ "C" 4%N; at_ "tool" 9%N] (Some (map u ["f"; "tool"]%string)) [u "sub"; u "tool"];
     fn_ob 1 (sig [par "x" (Some "pkg.C"%string)] None); class_ob 1 [] [];
     str_ob "pkg.sub"; module_ob "pkg.sub" [at_ "__name__" 5%N; at_ "p" 10%N] None [];
     str_ob "pkg.tool"; module_ob "pkg.tool" [at_ "__name__" 7%N; at_ "tool" 9%N] None [];
     fn_ob 7 (sig [] None); fn_ob 5 (sig [] None)].
Definition dx : penv := sx_off (env_of w_deep).
Definition dx' : penv := deep_run rev_order dx.
Example C82_ex : uni_ok (pe_uni dx) /\ traverse_submodules (pe_cfg dx) = false /\ order_ok (pe_ord dx) /\ order_ok rev_order /\ honest (pe_uni dx) (pe_world dx) /\ names_differ (pe_world dx) /\ asked_modules (pe_world dx) fx_pkg /\
  ends_ok fx_pkg dx /\ ends_ok fx_pkg dx' /\ ordinary_additions (fx_forest dx fx_pkg) (fx_forest dx' fx_pkg) /\
  (forall m k, In m (fx_forest dx' fx_pkg) -> within k m -> one_meaning (pe_uni dx) (all_types (fx_forest dx' fx_pkg)) k) /\
  (forall m k, In m (fx_forest dx' fx_pkg) -> within k m -> forall j, In j (m_prelude k) -> counterpart k j -> rust_ident (pe_uni dx) j).
Proof.
  split; [exact uni_ascii_ok|]. split; [reflexivity|]. split; [exact fx_order_ok|]. split; [exact rev_order_ok|]. split; [apply honestb_ok; vm_compute; reflexivity|].
  split; [apply differb_ok; vm_compute; reflexivity|]. split; [intros r o [<-|[]] [E|[]]; injection E as <-; reflexivity|]. split; [repeat split; vm_compute; reflexivity|]. split; [repeat split; vm_compute; reflexivity|].
  split; [apply all_ordinary_ok; vm_compute; reflexivity|]. split; [apply all_meant_ok; vm_compute; reflexivity|]. apply all_spelled_ok. vm_compute. reflexivity.
Qed.
Example C82_ex_names :
  map names_in (cg_modules (fx_codegen dx fx_pkg)) = [map (map u) [["f"]; ["C"]; []; []; []]%string] /\
  map names_in (cg_modules (fx_codegen dx' fx_pkg)) = [map (map u) [["f"; "tool"]; ["C"]; []; []; ["sub"]]%string] /\
  named_uses (body_of "pkg" (fx_output dx fx_pkg)) = [(u "call", [u "f"])] /\ named_uses (body_of "pkg" (fx_output dx' fx_pkg)) = [(u "call", map u ["f"; "tool"]%string)].
Proof. repeat split; vm_compute; reflexivity. Qed.

(** ** What does change
    [deepened x l]: all conditions but those on names. *)
Definition deepened (x : penv) (l : list request) : Prop :=
  order_ok (pe_ord x) /\ honest (pe_uni x) (pe_world x) /\ names_differ (pe_world x) /\ asked_modules (pe_world x) l /\ pe_cfg x = no_traversal default_config /\
  ends_ok l x /\ ends_ok l (deep_run (pe_ord x) x).
Ltac deepen :=
  split; [exact fx_order_ok|]; split; [apply honestb_ok; vm_compute; reflexivity|]; split; [apply differb_ok; vm_compute; reflexivity|];
  split; [intros r o Hr Ha; repeat (destruct Hr as [<-|Hr]; [destruct Ha as [E|[]]; injection E as <-; reflexivity|]); destruct Hr|];
  split; [reflexivity|]; split; repeat split; vm_compute; reflexivity.
(** [pkg] has a variable [n] and takes the function [set_n] from its submodule [set_n]. Without submodules, the variable has a setter; with them, it does not. *)
Definition w_set_n : world :=
  w_pkg [at_ "n" 3%N; at_ "set_n" 6%N] [u "set_n"] [at_ "pkg.set_n" 5%N] [int_ob; str_ob "pkg.set_n"; module_ob "pkg.set_n" [at_ "__name__" 4%N; at_ "set_n" 6%N] None []; fn_ob 4 (sig [] None)].
Theorem C82_setter_refuted : exists x l, deepened x l /\
  fn_kinds (body_of "pkg" (fx_output x l)) = [(u "n", false); (u "set_n", false)] /\ fn_kinds (body_of "pkg" (fx_output (deep_run (pe_ord x) x) l)) = [(u "set_n", true); (u "n", false)].
Proof. exists (sx_off (env_of w_set_n)), fx_pkg. split; [deepen|]. split; vm_compute; reflexivity. Qed.
Print Assumptions C82_setter_refuted.
(** [f(x: pkg.sub.C)]: the function takes any object; with submodules, it takes instances of [C] only. *)
Definition w_sub_class : world :=
  w_pkg [at_ "f" 3%N] [u "sub"] [at_ "pkg.sub" 5%N] [fn_ob 1 (sig [par "x" (Some "pkg.sub.C"%string)] None); str_ob "pkg.sub"; module_ob "pkg.sub" [at_ "__name__" 4%N; at_ "C" 6%N] None []; class_ob 4 [] []].
Theorem C82_type_refuted : exists x l, deepened x l /\
  params_of "f" (body_of "pkg" (fx_output x l)) = [[(u "p_x", into_py_of "PyAny")]] /\
  params_of "f" (body_of "pkg" (fx_output (deep_run (pe_ord x) x) l)) = [[(u "p_x", RRef (RBound (RLocal (mk_path false [u "sub"; u "C"]))))]].
Proof. exists (sx_off (env_of w_sub_class)), fx_pkg. split; [deepen|]. split; vm_compute; reflexivity. Qed.
Print Assumptions C82_type_refuted.
(** [__all__] lists the functions [f] and [crate]; [crate] comes from the submodule [crate], and Rust cannot spell it: with submodules there is no prelude. *)
Definition w_sub_crate (inner : bool) : world :=
  world_of [at_ "pkg" 2%N; at_ "pkg.crate" 5%N]
    [none_ob; str_ob "pkg"; module_ob "pkg" [at_ "__name__" 1%N; at_ "__path__" 1%N; at_ "f" 3%N; at_ "h" 3%N; at_ "crate" (if inner then 6%N else 5%N)] (Some (map u ["f"; "crate"]%string)) [u "crate"];
     fn_ob 1 (sig [] None); str_ob "pkg.crate"; module_ob "pkg.crate" [at_ "__name__" 4%N; at_ "crate" 6%N] None []; fn_ob 4 (sig [] None)].
Theorem C82_prelude_refuted : exists x l, deepened x l /\
  named_uses (body_of "pkg" (fx_output x l)) = [(u "call", [u "f"])] /\ named_uses (body_of "pkg" (fx_output (deep_run (pe_ord x) x) l)) = [].
Proof. exists (sx_off (env_of (w_sub_crate true))), fx_pkg. split; [deepen|]. split; vm_compute; reflexivity. Qed.
Print Assumptions C82_prelude_refuted.
(** A submodule [crate] that is not covered makes the whole run fail. *)
Theorem C82_fails_refuted : exists x l c', order_ok (pe_ord x) /\ honest (pe_uni x) (pe_world x) /\ names_differ (pe_world x) /\ asked_modules (pe_world x) l /\ pe_cfg x = no_traversal default_config /\ ends_ok l x /\
  asks (deep_run (pe_ord x) x) 5 l cg_new = Ok c' /\ cg_generate (deep_run (pe_ord x) x) false 5 c' = Err ECodegen.
Proof.
  exists (sx_off (env_of (w_sub_crate false))), fx_pkg, (fx_codegen (deep_run id_order (sx_off (env_of (w_sub_crate false)))) fx_pkg). split; [exact fx_order_ok|]. split; [apply honestb_ok; vm_compute; reflexivity|]. split; [apply differb_ok; vm_compute; reflexivity|].
  split; [intros r o [<-|[]] [E|[]]; injection E as <-; reflexivity|]. split; [reflexivity|]. split; [repeat split; vm_compute; reflexivity|]. split; vm_compute; reflexivity.
Qed.
Print Assumptions C82_fails_refuted.
