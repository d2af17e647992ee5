(** * Property theorems: generating dependencies too (C80) *)
From Verif Require Import Base Model_Ident Model_Path Model_Import Model_Config Model_Type Model_IntoRs Model_World Model_Out Model_Function Model_Property
  Model_Class Model_Module Model_Parse Model_Codegen Spec_Path Spec_Names Spec_Items Spec_Tree Spec_Api Spec_Out Spec_Attr Spec_Use Spec_Rust Spec_Hash Spec_More Spec_Wider Example_World Example_Honest
  Proof_Base Proof_Ident Proof_Path Proof_IntoRs Proof_Hash Prop_Items Prop_Forest Prop_Switch Prop_Use Prop_Clash Prop_Alias Prop_Hash Prop_More Prop_Block Proof_Wider.

(** ** C80
    The same requests without dependencies ([x]) and with them ([wide_run x]).
    A module is read in the same way; it may declare more names for export. *)
Theorem C80_module : forall x fuel o m, mod_parse x fuel o = Ok m -> exists m', mod_parse (wide_run x) fuel o = Ok m' /\ wider m m'.
Proof. exact parse_wider. Qed.
Print Assumptions C80_module.
(** Every module and every item of the forest without dependencies is in the forest with dependencies. *)
Theorem C80_forest : forall x fuel l c c' ms ms', generate_dependencies (pe_cfg x) = false -> order_ok (pe_ord x) -> honest (pe_uni x) (pe_world x) -> names_differ (pe_world x) ->
  asks x fuel l cg_new = Ok c -> final_modules x fuel c = Ok ms -> asks (wide_run x) fuel l cg_new = Ok c' -> final_modules (wide_run x) fuel c' = Ok ms' ->
  forall ch, (present ms ch -> present ms' ch) /\ forall it, holds ms ch it -> holds ms' ch it.
Proof. exact wd_forest. Qed.
Print Assumptions C80_forest.
(** A module for which there was an item has no further items, apart from declared exports. *)
Theorem C80_items : forall x fuel l c c' ms ms', order_ok (pe_ord x) -> honest (pe_uni x) (pe_world x) -> names_differ (pe_world x) -> asked_modules (pe_world x) l ->
  asks x fuel l cg_new = Ok c -> final_modules x fuel c = Ok ms -> asks (wide_run x) fuel l cg_new = Ok c' -> final_modules (wide_run x) fuel c' = Ok ms' ->
  forall ch it it', (forall i, it' <> AnExport i) -> holds ms ch it -> holds ms' ch it' -> holds ms ch it'.
Proof. exact wd_back. Qed.
Print Assumptions C80_items.
(** The outputs: every item, at any path, is in the output with dependencies at the same path, with the same calls; types can only have become sharper.
    A prelude still lists what it listed; it changes its name only if a module that was added has that name. *)
Theorem C80_output_partial : forall x numpy fuel l c c' ms ms' out out', uni_ok (pe_uni x) -> generate_dependencies (pe_cfg x) = false -> order_ok (pe_ord x) -> honest (pe_uni x) (pe_world x) ->
  names_differ (pe_world x) -> asked_modules (pe_world x) l ->
  asks x fuel l cg_new = Ok c -> final_modules x fuel c = Ok ms -> cg_generate x numpy fuel c = Ok out ->
  asks (wide_run x) fuel l cg_new = Ok c' -> final_modules (wide_run x) fuel c' = Ok ms' -> cg_generate (wide_run x) numpy fuel c' = Ok out' ->
  (forall m k, In m ms' -> within k m -> forall j, In j (m_prelude k) -> counterpart k j -> rust_ident (pe_uni x) j) ->
  traverse_submodules (pe_cfg x) = true ->
  (forall m k, In m ms' -> within k m -> one_meaning (pe_uni x) (all_types ms') k) ->
  forall ns k y, at_path out ns k -> In y k -> leads y = false ->
    (exists ex, y = GUseSuper ex) \/ exists k', at_path out' ns k' /\ ((exists y', In y' k' /\ kept y y') \/
      exists n ex n' ex', y = GMod n [GPub; GUseSuper ex] /\ In (GMod n' [GPub; GUseSuper ex']) k' /\ incl ex ex' /\ (n' = n \/ exists b, In (GMod n b) k')).
Proof. exact wd_output. Qed.
Print Assumptions C80_output_partial.

(** ** An example
    [pkg] takes the class [C] from [other], has [f(x: C)] and [LIMIT], and declares [f], [C] and [LIMIT]; a variable has no module, so that only [f] is taken for the prelude. *)
Definition w_wider : world :=
  world_of [at_ "pkg" 2%N; at_ "other" 7%N]
    [none_ob; str_ob "pkg"; module_ob "pkg" [at_ "__name__" 1%N; at_ "__path__" 1%N; at_ "C" 5%N; at_ "f" 3%N; at_ "LIMIT" 4%N; at_ "h" 3%N] (Some (map u ["f"; "C"; "LIMIT"]%string)) [];
     fn_ob 1 (sig [par "x" (Some "C"%string)] None); int_ob;
     mk_ob [at_ "__doc__" 0%N; at_ "__module__" 6%N; at_ "__name__" 8%N] (u "<class>") (facts "type" false true false false false no_sub "<class 'type'>") None [] [] None [];
     str_ob "other"; module_ob "other" [at_ "__name__" 6%N; at_ "C" 5%N; at_ "g" 9%N] None []; str_ob "C"; fn_ob 6 (sig [] None)].
Definition wx : penv := env_of w_wider.
Definition wx' : penv := wide_run wx.
Example C80_ex : uni_ok (pe_uni wx) /\ generate_dependencies (pe_cfg wx) = false /\ order_ok (pe_ord wx) /\ honest (pe_uni wx) (pe_world wx) /\ names_differ (pe_world wx) /\ asked_modules (pe_world wx) fx_pkg /\
  ends_ok fx_pkg wx /\ ends_ok fx_pkg wx' /\
  (forall m k, In m (fx_forest wx' fx_pkg) -> within k m -> forall j, In j (m_prelude k) -> counterpart k j -> rust_ident (pe_uni wx) j) /\ traverse_submodules (pe_cfg wx) = true /\
  (forall m k, In m (fx_forest wx' fx_pkg) -> within k m -> one_meaning (pe_uni wx) (all_types (fx_forest wx' fx_pkg)) k).
Proof.
  split; [exact uni_ascii_ok|]. split; [reflexivity|]. split; [exact fx_order_ok|]. split; [apply honestb_ok; vm_compute; reflexivity|]. split; [apply differb_ok; vm_compute; reflexivity|].
  split; [intros r o [<-|[]] [E|[]]; injection E as <-; reflexivity|]. split; [repeat split; vm_compute; reflexivity|]. split; [repeat split; vm_compute; reflexivity|].
  split; [apply all_spelled_ok; vm_compute; reflexivity|]. split; [reflexivity|]. apply all_meant_ok. vm_compute. reflexivity.
Qed.
Example C80_ex_names : map (fun m => to_py (m_name m)) (fx_forest wx fx_pkg) = [u "pkg"] /\ map (fun m => to_py (m_name m)) (fx_forest wx' fx_pkg) = map u ["other"; "pkg"]%string /\
  named_uses (body_of "pkg" (fx_output wx fx_pkg)) = [(u "call", [u "f"])] /\ named_uses (body_of "pkg" (fx_output wx' fx_pkg)) = [(u "call", map u ["f"; "LIMIT"]%string)].
Proof. repeat split; vm_compute; reflexivity. Qed.

(** ** What does change
    [widened x l]: all conditions but those on names. *)
Definition widened (x : penv) (l : list request) : Prop :=
  order_ok (pe_ord x) /\ honest (pe_uni x) (pe_world x) /\ names_differ (pe_world x) /\ asked_modules (pe_world x) l /\ pe_cfg x = default_config /\ ends_ok l x.
Ltac widen :=
  split; [exact fx_order_ok|]; split; [apply honestb_ok; vm_compute; reflexivity|]; split; [apply differb_ok; vm_compute; reflexivity|];
  split; [intros r o Hr Ha; repeat (destruct Hr as [<-|Hr]; [destruct Ha as [E|[]]; injection E as <-; reflexivity|]); destruct Hr|];
  split; [reflexivity|]; repeat split; vm_compute; reflexivity.
(** A function that took any object takes a class: calls with other arguments no longer compile. *)
Theorem C80_type_refuted : exists x l, widened x l /\ ends_ok l (wide_run x) /\
  params_of "f" (body_of "pkg" (fx_output x l)) = [[(u "p_x", into_py_of "PyAny")]] /\ params_of "f" (body_of "pkg" (fx_output (wide_run x) l)) = [[(u "p_x", RRef other_c)]].
Proof. exists wx, fx_pkg. split; [widen|]. split; [repeat split; vm_compute; reflexivity|]. split; vm_compute; reflexivity. Qed.
Print Assumptions C80_type_refuted.
(** [__all__] lists the function [f] and the variable [crate], which Rust cannot spell. Without dependencies only [f] is taken for the prelude, with dependencies both, and there is no prelude. *)
Definition w_crate : world := w_listed [at_ "f" 3%N; at_ "crate" 4%N; at_ "h" 3%N] ["f"; "crate"]%string [plain_fn; int_ob].
Theorem C80_prelude_refuted : exists x l, widened x l /\ ends_ok l (wide_run x) /\
  named_uses (body_of "pkg" (fx_output x l)) = [(u "call", [u "f"])] /\ named_uses (body_of "pkg" (fx_output (wide_run x) l)) = [].
Proof. exists (env_of w_crate), fx_pkg. split; [widen|]. split; [repeat split; vm_compute; reflexivity|]. split; vm_compute; reflexivity. Qed.
Print Assumptions C80_prelude_refuted.
(** If something comes from a module that cannot be imported, the run with dependencies panics (C58). *)
Theorem C80_panic_refuted : exists x l c', widened x l /\ asks (wide_run x) 5 l cg_new = Ok c' /\ final_modules (wide_run x) 5 c' = Panic PUnwrap.
Proof. exists (env_of (w_deps true)), fx_pkg, (fx_codegen (wide_run (env_of (w_deps true))) fx_pkg). split; [widen|]. split; vm_compute; reflexivity. Qed.
Print Assumptions C80_panic_refuted.
