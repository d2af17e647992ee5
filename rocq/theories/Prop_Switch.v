(** * Property theorems: switching off a kind of item (C46) *)
From Verif Require Import Base Model_Ident Model_Path Model_Import Model_Config Model_Type Model_IntoRs Model_World Model_Out Model_Function Model_Property
  Model_Class Model_Module Model_Parse Model_Codegen Spec_Path Spec_Names Spec_Items Spec_Tree Spec_Api Spec_Out Spec_Switch Example_World Example_Honest
  Proof_Base Proof_Ident Proof_Switch Proof_Docs Prop_Items Prop_Forest.

(** ** C46 *)
(** Switching off one kind of item takes these items (with what stands in front of them) out of the text and leaves everything else, at every depth. *)
Theorem C46_output : forall s x numpy fuel l c out, uni_ok (pe_uni x) -> order_ok (pe_ord x) ->
  (s = Preludes -> honest (pe_uni x) (pe_world x) /\ asked_modules (pe_world x) l) -> asks x fuel l cg_new = Ok c ->
  (forall ms m k, final_modules x fuel c = Ok ms -> In m ms -> within k m -> variables_named (pe_uni x) k) -> cg_generate x numpy fuel c = Ok out ->
  let x' := mk_penv (pe_env x) (off s (pe_cfg x)) (pe_ord x) in
  exists c', asks x' fuel l cg_new = Ok c' /\ cg_generate x' numpy fuel c' = Ok (without (switched s) out).
Proof. exact off_output. Qed.
Print Assumptions C46_output.
(** Nothing of the kind is left. *)
Theorem C46_gone : forall K l ns k f, at_path (without K l) ns k -> In f k -> leads f = false -> kind_of f <> K.
Proof. exact without_gone. Qed.
Print Assumptions C46_gone.
(** All other items are left, each with what stands in front of it, in the same order. *)
Theorem C46_kept : forall K l, split_items [] (without K l) =
  map (fun i => (fst i, without_in K (snd i))) (filter (fun i => negb (kind_eqb (kind_of (snd i)) K)) (split_items [] l)).
Proof. intros K l. now apply split_without. Qed.
Print Assumptions C46_kept.
(** Documentation: it is taken out everywhere but for the fixed remarks. *)
Theorem C46_docs : forall x numpy fuel l c out, order_ok (pe_ord x) -> asks x fuel l cg_new = Ok c -> cg_generate x numpy fuel c = Ok out ->
  let x' := mk_penv (pe_env x) (docs_off (pe_cfg x)) (pe_ord x) in
  asks x' fuel l cg_new = Ok c /\ cg_generate x' numpy fuel c = Ok (undoc out).
Proof. exact undoc_output. Qed.
Print Assumptions C46_docs.
(** Without traversal no module has a submodule. *)
Theorem C46_submodules_partial : forall x numpy fuel l c out, order_ok (pe_ord x) -> traverse_submodules (pe_cfg x) = false -> asks x fuel l cg_new = Ok c ->
  cg_generate x numpy fuel c = Ok out -> forall n b n' b', In (GMod n b) out -> In (GMod n' b') b -> is_prelude b' = true.
Proof. exact no_modules_output. Qed.
Print Assumptions C46_submodules_partial.
(** But other items do not stay as they were: [pkg/__init__.py] has [from .tool import tool], and the function [pkg.tool] is
    found by looking into the submodule that it hides. *)
Definition w_tool : world :=
  w_pkg [at_ "tool" 5%N] [u "tool"] [at_ "pkg.tool" 4%N] [str_ob "pkg.tool"; module_ob "pkg.tool" [at_ "__name__" 3%N; at_ "tool" 5%N] None []; fn_ob 3 (sig [] None)].
Definition no_traversal (c : config) : config :=
  {| traverse_submodules := false; generate_preludes := generate_preludes c; generate_imports := generate_imports c;
     generate_classes := generate_classes c; generate_type_vars := generate_type_vars c; generate_functions := generate_functions c;
     generate_properties := generate_properties c; generate_docs := generate_docs c; blocklist_names := blocklist_names c; include_private := include_private c;
     generate_dependencies := generate_dependencies c; suppress_python_stdout := suppress_python_stdout c; suppress_python_stderr := suppress_python_stderr c |}.
Definition px_body (l : list frag) : list frag := flat_map (fun f => match f with GMod _ b => b | _ => [] end) l.
Definition px_fns (l : list frag) : list fn_def := flat_map (fun f => match f with GFn d => [d] | _ => [] end) l.
Definition sx_off (x : penv) : penv := mk_penv (pe_env x) (no_traversal (pe_cfg x)) (pe_ord x).
Theorem C46_submodules_refuted : exists x l c c' out out' b d, order_ok (pe_ord x) /\ honest (pe_uni x) (pe_world x) /\ asked_modules (pe_world x) l /\
  asks x 5 l cg_new = Ok c /\ cg_generate x false 5 c = Ok out /\ In (GMod (u "pkg") b) out /\ In (GFn d) b /\ k_name (f_contract d) = u "tool" /\
  asks (sx_off x) 5 l cg_new = Ok c' /\ cg_generate (sx_off x) false 5 c' = Ok out' /\ forall n b', In (GMod n b') out' -> b' = [].
Proof.
  pose (x := env_of w_tool). pose (out := fx_output x fx_pkg). pose (b := px_body out). pose (d := hd (mk_fn (mk_contract [] false [] RetUnit) false [] DSelf (BGet [])) (px_fns b)).
  exists x, fx_pkg, (fx_codegen x fx_pkg), (fx_codegen (sx_off x) fx_pkg), out, (fx_output (sx_off x) fx_pkg), b, d.
  split; [exact fx_order_ok|]. split; [apply honestb_ok; vm_compute; reflexivity|]. split; [intros r o [<-|[]] [E|[]]; injection E as <-; reflexivity|].
  split; [vm_compute; reflexivity|]. split; [vm_compute; reflexivity|]. split; [subst b out; vm_compute; tauto|]. split; [subst d b out; vm_compute; tauto|]. split; [vm_compute; reflexivity|].
  split; [vm_compute; reflexivity|]. split; [vm_compute; reflexivity|].
  set (o := fx_output (sx_off x) fx_pkg). vm_compute in o. subst o. intros n b' [E|[E|[E|[]]]]; try discriminate. now injection E as _ <-.
Qed.
Print Assumptions C46_submodules_refuted.
(** The example package meets the hypotheses for every switch ([C31_ex] has the one about variables); some switches change its text. *)
Definition frag_count := fix go (f : frag) : nat :=
  let all := fix all (l : list frag) : nat := match l with [] => 0 | y :: r => go y + all r end in
  match f with GMod _ b | GImpl _ b | GImplFor _ _ b | GTrait _ b => S (all b) | _ => 1 end.
Definition text_count (l : list frag) : nat := list_sum (map frag_count l).
Example C46_ex : honest uni_ascii (pe_world ex_env) /\ asked_modules (pe_world ex_env) ex_request /\
  map (fun s => text_count (the_output ex_env ex_request) - text_count (without (switched s) (the_output ex_env ex_request))) [Imports; Preludes; TypeVars; Classes; Functions; Properties]
  = [2; 4; 0; 23; 4; 4].
Proof. split; [apply honestb_ok; vm_compute; reflexivity|]. split; [intros r o [<-|[]] [E|[]]; injection E as <-; reflexivity|]. vm_compute. reflexivity. Qed.
(** Documented things: a module, a function, a class and a method; the remarks about the trait stay. *)
Definition documented_ob (o : ob) (d : oid) : ob :=
  mk_ob (at_ "__doc__" d :: tl (ob_attrs o)) (ob_str o) (ob_type o) (ob_sig o) (ob_stored o) (ob_name o) (ob_all o) (ob_iter o).
Definition w_documented : world :=
  w_pkg [at_ "f" 4%N; at_ "C" 5%N] [] [] [str_ob "Does it."; documented_ob (fn_ob 1 (sig [] None)) 3; documented_ob (class_ob 1 [at_ "m" 6%N] [(u "m", StoredOther)]) 3; documented_ob (fn_ob 1 (sig [par "self" None] None)) 3].
Example C46_docs_ex : asks (env_of w_documented) 5 fx_pkg cg_new = Ok (fx_codegen (env_of w_documented) fx_pkg) /\
  cg_generate (env_of w_documented) false 5 (fx_codegen (env_of w_documented) fx_pkg) = Ok (fx_output (env_of w_documented) fx_pkg) /\
  text_count (fx_output (env_of w_documented) fx_pkg) - text_count (undoc (fx_output (env_of w_documented) fx_pkg)) = 3.
Proof. split; [vm_compute; reflexivity|]. split; vm_compute; reflexivity. Qed.
