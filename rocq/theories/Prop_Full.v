(** * Property theorems: everything that was asked for and found is generated (C47, C49) *)
From Verif Require Import Base Model_Ident Model_Path Model_Import Model_Config Model_Type Model_IntoRs Model_World Model_Out Model_Function Model_Property
  Model_Class Model_Module Model_Parse Model_Codegen Spec_Path Spec_Names Spec_Items Spec_Tree Spec_Api Spec_Out Spec_Privacy Spec_Full Example_World Example_Honest
  Proof_Base Proof_Ident Proof_Full Prop_Items Prop_Forest Prop_Switch.

(** ** C49
    The full claim has no conditions on names or methods. [yields] has some: names are identifiers,
    accessors find a name ([C49_setter_refuted]), and the kind of a method is known ([C49_unsigned_refuted]). *)
(** All that was found in the modules asked for, at every depth *)
Theorem C49_found_partial : forall x numpy fuel l c ms out, uni_ok (pe_uni x) -> order_ok (pe_ord x) -> honest (pe_uni x) (pe_world x) ->
  asked_modules (pe_world x) l -> asks x fuel l cg_new = Ok c -> final_modules x fuel c = Ok ms -> cg_generate x numpy fuel c = Ok out ->
  traverse_submodules (pe_cfg x) = true -> forall m0 ch k0, In m0 (cg_modules c) -> reach [m0] ch k0 ->
  exists m k, m_name m = m_name k0 /\ (forall it, has k0 it -> has m it) /\ at_path out (segs (m_name k0)) k /\
    forall it, has m it -> is_on (pe_cfg x) it -> yields (pe_uni x) m k it.
Proof.
  intros x numpy fuel l c ms out HU Ho Hw Hl Hc Hf Hout Ht m0 ch k0 Hm Hr.
  destruct (requested_yields x HU Ho Hw numpy fuel l c ms out Hl Hc Hf Hout m0 ch k0 Hm Hr (or_introl Ht)) as (m & k & _ & H). now exists m, k.
Qed.
Print Assumptions C49_found_partial.
(** All modules of the forest, so also the dependencies *)
Theorem C49_forest_partial : forall x numpy fuel l c ms out, uni_ok (pe_uni x) -> order_ok (pe_ord x) -> honest (pe_uni x) (pe_world x) ->
  asked_modules (pe_world x) l -> asks x fuel l cg_new = Ok c -> final_modules x fuel c = Ok ms -> cg_generate x numpy fuel c = Ok out ->
  traverse_submodules (pe_cfg x) = true -> forall ch m, reach ms ch m ->
  exists k, at_path out (segs (m_name m)) k /\ forall it, has m it -> is_on (pe_cfg x) it -> yields (pe_uni x) m k it.
Proof.
  intros x numpy fuel l c ms out HU Ho Hw Hl Hc Hf Hout Ht ch m Hr. exact (final_yields x HU Ho Hw numpy fuel l c ms out Hl Hc Hf Hout ch m Hr (or_introl Ht)).
Qed.
Print Assumptions C49_forest_partial.
(** Submodules: this part has no conditions. *)
Theorem C49_submodules : forall x numpy fuel l c ms out, uni_ok (pe_uni x) -> order_ok (pe_ord x) -> honest (pe_uni x) (pe_world x) ->
  asked_modules (pe_world x) l -> asks x fuel l cg_new = Ok c -> final_modules x fuel c = Ok ms -> cg_generate x numpy fuel c = Ok out ->
  traverse_submodules (pe_cfg x) = true -> forall m0 ch k0, In m0 (cg_modules c) -> reach [m0] ch k0 -> exists k, at_path out (segs (m_name k0)) k.
Proof.
  intros x numpy fuel l c ms out HU Ho Hw Hl Hc Hf Hout Ht m0 ch k0 Hm Hr.
  destruct (requested_yields x HU Ho Hw numpy fuel l c ms out Hl Hc Hf Hout m0 ch k0 Hm Hr (or_introl Ht)) as (m & k & _ & _ & _ & H & _). now exists k.
Qed.
Print Assumptions C49_submodules.

Definition full_names (l : list frag) : list ident := map (fun d => k_name (f_contract d)) (px_fns (px_body l)).
(** A method whose signature cannot be read is dropped. *)
Definition plain_fn_ob (m : oid) : ob :=
  mk_ob [at_ "__doc__" 0%N; at_ "__module__" m] (u "<function>") (facts "function" false false false true false no_sub "<class 'function'>") None [] [] None [].
Definition w_unsigned : world := w_pkg [at_ "C" 3%N] [] [] [class_ob 1 [at_ "m" 4%N; at_ "n" 5%N] [(u "m", StoredOther); (u "n", StoredOther)]; plain_fn_ob 1; fn_ob 1 (sig [par "self" None] None)].
Definition full_methods (l : list frag) : list ident :=
  map (fun d => k_name (f_contract d)) (px_fns (flat_map (fun f => match f with GImplFor _ _ b | GImpl _ b => b | _ => [] end) (px_body l))).
Theorem C49_unsigned_refuted : exists x l c out m cl f, order_ok (pe_ord x) /\ honest (pe_uni x) (pe_world x) /\ asked_modules (pe_world x) l /\ pe_cfg x = default_config /\
  asks x 5 l cg_new = Ok c /\ cg_generate x false 5 c = Ok out /\ cg_modules c = [m] /\ In cl (m_classes m) /\ In f (cl_methods cl) /\ called (pe_uni x) (fn_name f) (u "m") /\
  full_methods out = [u "n"].
Proof.
  set (x := env_of w_unsigned). set (m := hd (fx_copy []) (cg_modules (fx_codegen x fx_pkg))). set (cl := hd (mk_class (m_name m) [] [] None) (m_classes m)).
  set (f := hd (mk_func (m_name m) FFunction [] TUnknown None) (cl_methods cl)).
  exists x, fx_pkg, (fx_codegen x fx_pkg), (fx_output x fx_pkg), m, cl, f.
  split; [exact fx_order_ok|]. split; [apply honestb_ok; vm_compute; reflexivity|]. split; [intros r o [<-|[]] [E|[]]; injection E as <-; reflexivity|]. split; [reflexivity|].
  split; [vm_compute; reflexivity|]. split; [vm_compute; reflexivity|]. split; [vm_compute; reflexivity|]. split; [subst cl m; vm_compute; tauto|]. split; [subst f cl m; vm_compute; tauto|].
  split; [split; [reflexivity|exists [u "pkg"; u "C"]; vm_compute; reflexivity]|vm_compute; reflexivity].
Qed.
Print Assumptions C49_unsigned_refuted.
(** A variable [n] gets no setter if there is a function [set_n]. *)
Definition w_setter : world := w_pkg [at_ "n" 4%N; at_ "set_n" 3%N] [] [] [fn_ob 1 (sig [] None); int_ob].
Theorem C49_setter_refuted : exists x l c out m p, order_ok (pe_ord x) /\ honest (pe_uni x) (pe_world x) /\ asked_modules (pe_world x) l /\ pe_cfg x = default_config /\
  asks x 5 l cg_new = Ok c /\ cg_generate x false 5 c = Ok out /\ cg_modules c = [m] /\ In p (m_properties m) /\ called (pe_uni x) (pr_name p) (u "n") /\ pr_mutable p = true /\
  map (fun d => match f_body d with BCallMethod n _ => (true, n) | BGet n => (false, n) | _ => (true, []) end) (px_fns (px_body out)) = [(true, u "set_n"); (false, u "n")].
Proof.
  set (x := env_of w_setter). set (m := hd (fx_copy []) (cg_modules (fx_codegen x fx_pkg))).
  set (p := hd (mk_property (m_name m) OwnerModule true TUnknown TUnknown None None) (m_properties m)).
  exists x, fx_pkg, (fx_codegen x fx_pkg), (fx_output x fx_pkg), m, p.
  split; [exact fx_order_ok|]. split; [apply honestb_ok; vm_compute; reflexivity|]. split; [intros r o [<-|[]] [E|[]]; injection E as <-; reflexivity|]. split; [reflexivity|].
  split; [vm_compute; reflexivity|]. split; [vm_compute; reflexivity|]. split; [vm_compute; reflexivity|]. split; [subst p m; vm_compute; tauto|].
  split; [split; [reflexivity|exists [u "pkg"]; vm_compute; reflexivity]|]. split; vm_compute; reflexivity.
Qed.
Print Assumptions C49_setter_refuted.
(** The example package: a function and a variable, a class with all kinds of members, a submodule with a function *)
Example C49_ex : exists m k0, uni_ok (pe_uni fx_env) /\ honest (pe_uni fx_env) (pe_world fx_env) /\ traverse_submodules (pe_cfg fx_env) = true /\
  asks fx_env 5 fx_pkg cg_new = Ok (fx_codegen fx_env fx_pkg) /\ final_modules fx_env 5 (fx_codegen fx_env fx_pkg) = Ok (fx_forest fx_env fx_pkg) /\
  cg_generate fx_env false 5 (fx_codegen fx_env fx_pkg) = Ok (fx_output fx_env fx_pkg) /\
  cg_modules (fx_codegen fx_env fx_pkg) = [m] /\ reach [m] [m_name m; m_name k0] k0 /\
  (length (m_functions m), length (m_properties m), length (m_classes m), length (m_functions k0)) = (1, 1, 1, 1) /\
  full_names (fx_output fx_env fx_pkg) = map u ["f"; "LIMIT"; "set_LIMIT"]%string /\
  full_methods (fx_output fx_env fx_pkg) = map u ["new"; "scale"; "size"; "set_size"]%string /\
  full_names (px_body (fx_output fx_env fx_pkg)) = [u "g"].
Proof.
  set (m := hd (fx_copy []) (cg_modules (fx_codegen fx_env fx_pkg))). set (k0 := hd (fx_copy []) (m_subs m)). exists m, k0.
  split; [exact uni_ascii_ok|]. split; [exact fx_honest|]. split; [reflexivity|]. split; [vm_compute; reflexivity|]. split; [vm_compute; reflexivity|]. split; [vm_compute; reflexivity|].
  split; [vm_compute; reflexivity|]. split; [apply reach_down; [now left|]; apply reach_here; subst k0 m; vm_compute; now left|]. repeat split; vm_compute; reflexivity.
Qed.

(** ** C47
    The full claim holds for all configurations; it fails without traversal ([C47_nested_refuted]) if the name has a dot. *)
Theorem C47_requested_partial : forall x numpy fuel l c ms out, uni_ok (pe_uni x) -> order_ok (pe_ord x) -> honest (pe_uni x) (pe_world x) ->
  asked_modules (pe_world x) l -> asks x fuel l cg_new = Ok c -> final_modules x fuel c = Ok ms -> cg_generate x numpy fuel c = Ok out -> forall m0, In m0 (cg_modules c) ->
  traverse_submodules (pe_cfg x) = true \/ length (segs (m_name m0)) = 1 ->
  exists m k, m_name m = m_name m0 /\ (forall it, has m0 it -> has m it) /\ at_path out (segs (m_name m0)) k /\
    forall it, has m it -> is_on (pe_cfg x) it -> yields (pe_uni x) m k it.
Proof.
  intros x numpy fuel l c ms out HU Ho Hw Hl Hc Hf Hout m0 Hm Ht.
  destruct (requested_yields x HU Ho Hw numpy fuel l c ms out Hl Hc Hf Hout m0 [m_name m0] m0 Hm (reach_here [m0] m0 (or_introl eq_refl)) Ht) as (m & k & _ & H). now exists m, k.
Qed.
Print Assumptions C47_requested_partial.
Definition fx_sub : list request := [AddName (u "pkg.sub")].
Theorem C47_nested_refuted : exists x l c out m, order_ok (pe_ord x) /\ honest (pe_uni x) (pe_world x) /\ asked_modules (pe_world x) l /\
  asks x 5 l cg_new = Ok c /\ cg_generate x false 5 c = Ok out /\ cg_modules c = [m] /\ m_name m = mk_path false [u "pkg"; u "sub"] /\ length (m_functions m) = 1 /\
  px_body out = [] /\ forall k, ~ at_path out [u "pkg"; u "sub"] k.
Proof.
  set (x := sx_off fx_env). exists x, fx_sub, (fx_codegen x fx_sub), (fx_output x fx_sub), (hd (fx_copy []) (cg_modules (fx_codegen x fx_sub))).
  split; [exact fx_order_ok|]. split; [exact fx_honest|]. split; [intros r o [<-|[]] [E|[]]; injection E as <-; reflexivity|].
  split; [vm_compute; reflexivity|]. split; [vm_compute; reflexivity|]. split; [vm_compute; reflexivity|]. split; [vm_compute; reflexivity|]. split; [vm_compute; reflexivity|].
  split; [vm_compute; reflexivity|]. set (o := fx_output x fx_sub). vm_compute in o. subst o. intros k A. inversion A as [|? n b ? ? Hin A2]; subst.
  destruct Hin as [E|[E|[E|[]]]]; try discriminate. injection E as <-. inversion A2 as [|? n2 b2 ? ? Hin2]; subst. easy.
Qed.
Print Assumptions C47_nested_refuted.
(** A module that is asked for is generated even if its name is private; but only variables are found in it: its functions and classes say that they
    come from a private module, which hides them. *)
Definition w_asked : world :=
  world_of [at_ "_impl" 2%N] [none_ob; str_ob "_impl"; module_ob "_impl" [at_ "__name__" 1%N; at_ "f" 3%N; at_ "n" 4%N] None []; fn_ob 1 (sig [] None); int_ob].
Definition asked_impl : list request := [AddName (u "_impl")].
Example C47_ex : exists m, honest uni_ascii w_asked /\ asked_modules w_asked asked_impl /\ include_private (pe_cfg (sx_off (env_of w_asked))) = false /\
  traverse_submodules (pe_cfg (sx_off (env_of w_asked))) = false /\
  asks (sx_off (env_of w_asked)) 5 asked_impl cg_new = Ok (fx_codegen (sx_off (env_of w_asked)) asked_impl) /\
  cg_modules (fx_codegen (sx_off (env_of w_asked)) asked_impl) = [m] /\ length (segs (m_name m)) = 1 /\
  cg_generate (sx_off (env_of w_asked)) false 5 (fx_codegen (sx_off (env_of w_asked)) asked_impl) = Ok (fx_output (sx_off (env_of w_asked)) asked_impl) /\
  full_names (fx_output (sx_off (env_of w_asked)) asked_impl) = map u ["n"; "set_n"]%string.
Proof.
  exists (hd (fx_copy []) (cg_modules (fx_codegen (sx_off (env_of w_asked)) asked_impl))).
  split; [apply honestb_ok; vm_compute; reflexivity|]. split; [intros r o [<-|[]] [E|[]]; injection E as <-; reflexivity|]. repeat (split; [vm_compute; reflexivity|]). vm_compute. reflexivity.
Qed.
Theorem C47_private_refuted : exists x l c out m a, order_ok (pe_ord x) /\ honest (pe_uni x) (pe_world x) /\ asked_modules (pe_world x) l /\ pe_cfg x = default_config /\
  asks x 5 l cg_new = Ok c /\ cg_generate x false 5 c = Ok out /\ cg_modules c = [m] /\ m_name m = mk_path false [u "_impl"] /\
  w_getattr (pe_world x) 2%N (u "f") = Some a /\ tf_is_function (w_type (pe_world x) a) = true /\ module_text (pe_world x) a = u "_impl" /\ m_functions m = [] /\
  full_names out = map u ["n"; "set_n"]%string.
Proof.
  exists (env_of w_asked), asked_impl, (fx_codegen (env_of w_asked) asked_impl), (fx_output (env_of w_asked) asked_impl), (hd (fx_copy []) (cg_modules (fx_codegen (env_of w_asked) asked_impl))), 3%N.
  split; [exact fx_order_ok|]. split; [apply honestb_ok; vm_compute; reflexivity|]. split; [intros r o [<-|[]] [E|[]]; injection E as <-; reflexivity|]. split; [reflexivity|].
  repeat (split; [vm_compute; reflexivity|]). vm_compute. reflexivity.
Qed.
Print Assumptions C47_private_refuted.
