(** * Property theorems: what the names in the functions of the written file mean (C73) *)
From Verif Require Import Base Model_Ident Model_Path Model_Import Model_Text Model_Config Model_Type Model_IntoRs Model_World Model_Out Model_Function Model_Property
  Model_Class Model_Module Model_Parse Model_Codegen Model_Build Spec_Path Spec_Names Spec_Call Spec_Items Spec_Rust Spec_Tree Spec_Api Spec_Out Spec_Attr Spec_Doc Spec_Full Spec_Use Spec_Lex Spec_Code
  Model_Token Model_Print Spec_Behave Example_World Example_Honest Proof_Base Proof_Stated Proof_Resolve Prop_Items Prop_Forest Prop_Clash Prop_Check Prop_Switch Prop_Code Prop_Use Spec_Decl Spec_Resolve.

(** ** C73
    A path in a function of the text starts at a library, with [::] in front; so do the paths between its angle brackets.
    Exceptions: [Some], [Vec::with_capacity], and the function that embeds a source, which writes [pyo3::…] and [str]. *)
Theorem C73_paths_partial : forall x numpy fuel l c out odd, uni_ok (pe_uni x) -> order_ok (pe_ord x) -> honest (pe_uni x) (pe_world x) -> asked_modules (pe_world x) l ->
  asks x fuel l cg_new = Ok c -> (forall ms m k, final_modules x fuel c = Ok ms -> In m ms -> within k m -> variables_named (pe_uni x) k) ->
  (forall a, odd a = true -> scalar a = true) -> cg_generate x numpy fuel c = Ok out ->
  forall its ns r w f, read_file (pe_uni x) (text odd out) = Some its -> inside_mod its ns r -> is_fn_of r w f ->
  forall p, In p (fn_leaves f) -> global p = true \/ p = [TWord (u "Some")] \/ p = rs "Vec::with_capacity" \/
    (w = OfModule /\ r_name f = u "pyo3_embed_python_source_code" /\ exists h q, p = TWord h :: q /\ In h (map u ["pyo3"; "str"]%string)).
Proof.
  intros x numpy fuel l c out odd HU Ho Hw Hl Hc Hv Hs Hg its ns r w f Hi Hr Hf p Hp. destruct (output_final x numpy fuel c out Hv Hg) as (ms & Hm).
  exact (output_paths x HU Ho Hw numpy fuel l c ms out Hl Hc Hm Hv Hg odd Hs its ns r w f p Hi Hr Hf Hp).
Qed.
Print Assumptions C73_paths_partial.
(** The first name of a path without [::] keeps its meaning, unless the Python module itself has an attribute or a submodule of this name. *)
Theorem C73_meaning_partial : forall x numpy fuel l c out odd, uni_ok (pe_uni x) -> order_ok (pe_ord x) -> honest (pe_uni x) (pe_world x) -> asked_modules (pe_world x) l ->
  asks x fuel l cg_new = Ok c -> (forall ms m k, final_modules x fuel c = Ok ms -> In m ms -> within k m -> variables_named (pe_uni x) k) ->
  (forall a, odd a = true -> scalar a = true) -> cg_generate x numpy fuel c = Ok out ->
  forall its ds ns r w f, read_file (pe_uni x) (text odd out) = Some its -> read_decls (pe_uni x) (text odd out) = Some ds -> inside_mod its ns r -> is_fn_of r w f ->
  forall h q k, In (TWord h :: q) (fn_leaves f) -> inside_decls ds ns k -> named k h -> has_attribute x ns h \/ has_submodule x ns h.
Proof.
  intros x numpy fuel l c out odd HU Ho Hw Hl Hc Hv Hs Hg its ds ns r w f Hi Hd Hr Hf h q k Hp. destruct (output_final x numpy fuel c out Hv Hg) as (ms & Hm).
  exact (output_meaning x HU Ho Hw numpy fuel l c ms out Hl Hc Hm Hv Hg odd Hs its ds ns r w f _ h q k Hi Hd Hr Hf Hp eq_refl).
Qed.
Print Assumptions C73_meaning_partial.
(** A function binds names of its own only: [self], [py], [p_…] for what is passed, and three for what it puts together. *)
Theorem C73_variables_partial : forall x numpy fuel l c out odd, uni_ok (pe_uni x) -> order_ok (pe_ord x) -> honest (pe_uni x) (pe_world x) -> asked_modules (pe_world x) l ->
  asks x fuel l cg_new = Ok c -> (forall ms m k, final_modules x fuel c = Ok ms -> In m ms -> within k m -> variables_named (pe_uni x) k) ->
  (forall a, odd a = true -> scalar a = true) -> cg_generate x numpy fuel c = Ok out ->
  forall its ns r w f, read_file (pe_uni x) (text odd out) = Some its -> inside_mod its ns r -> is_fn_of r w f ->
  forall v, In v (fn_binds f) -> In v (map u ["self"; "py"; "__internal__args"; "__internal__arg"; "__internal__kwargs"]%string) \/ exists t, v = u "p_" ++ t.
Proof.
  intros x numpy fuel l c out odd HU Ho Hw Hl Hc Hv Hs Hg its ns r w f Hi Hr Hf v Hp. destruct (output_final x numpy fuel c out Hv Hg) as (ms & Hm).
  exact (output_vars x HU Ho Hw numpy fuel l c ms out Hl Hc Hm Hv Hg odd Hs its ns r w f v Hi Hr Hf Hp).
Qed.
Print Assumptions C73_variables_partial.
(** And it may: no struct or import has the name, unless the Python module itself has an attribute [p_…] of this name.
    (Nothing is called [py], as such attributes are left out; the three internal names are private.) *)
Theorem C73_binds_partial : forall x numpy fuel l c out odd, uni_ok (pe_uni x) -> order_ok (pe_ord x) -> honest (pe_uni x) (pe_world x) -> asked_modules (pe_world x) l ->
  asks x fuel l cg_new = Ok c -> (forall ms m k, final_modules x fuel c = Ok ms -> In m ms -> within k m -> variables_named (pe_uni x) k) ->
  (forall a, odd a = true -> scalar a = true) -> cg_generate x numpy fuel c = Ok out ->
  forall its ds ns r w f, read_file (pe_uni x) (text odd out) = Some its -> read_decls (pe_uni x) (text odd out) = Some ds -> inside_mod its ns r -> is_fn_of r w f ->
  forall v k, In v (fn_binds f) -> inside_decls ds ns k -> unbindable k v ->
  has_attribute x ns v /\ ((exists t, v = u "p_" ++ t) \/ include_private (pe_cfg x) = true).
Proof.
  intros x numpy fuel l c out odd HU Ho Hw Hl Hc Hv Hs Hg its ds ns r w f Hi Hd Hr Hf v k. destruct (output_final x numpy fuel c out Hv Hg) as (ms & Hm).
  exact (output_binds x HU Ho Hw numpy fuel l c ms out Hl Hc Hm Hv Hg odd Hs its ds ns r w f v k Hi Hd Hr Hf).
Qed.
Print Assumptions C73_binds_partial.

(** The hypotheses are met as in C70.  What the functions of two texts bind, and their paths without [::] *)
Example C73_ex : uni_ok (pe_uni ex_env) /\ order_ok (pe_ord ex_env) /\ honest (pe_uni ex_env) (pe_world ex_env) /\ asked_modules (pe_world ex_env) ex_request /\
  asks ex_env 5 ex_request cg_new = Ok (the_codegen ex_env ex_request) /\
  (forall ms m k, final_modules ex_env 5 (the_codegen ex_env ex_request) = Ok ms -> In m ms -> within k m -> variables_named uni_ascii k) /\
  cg_generate ex_env false 5 (the_codegen ex_env ex_request) = Ok (the_output ex_env ex_request).
Proof. exact C70_ex. Qed.
Definition looks (s : str) : list (str * list str * list (list tok)) :=
  map (fun e => (r_name (snd e), fn_binds (snd e), filter (fun p => negb (global p)) (fn_leaves (snd e)))) (fns_of s).
Example C73_ex_looks :
  filter (fun e => mem_str (fst (fst e)) (map u ["size"; "set_size"; "f"]%string)) (looks (text no_odd (fx_output (env_of w_checked) fx_pkg))) =
    [(u "size", [u "self"], []); (u "set_size", map u ["self"; "p_value"; "py"; "p_value"]%string, []);
     (u "f", map u ["py"; "p_a"; "p_b"; "p_args"; "p_c"; "p_d"; "p_kwargs"; "p_b"; "p_args"; "p_args"; "p_c"; "p_c"; "p_kwargs"; "p_kwargs"; "__internal__args"; "__internal__arg"; "__internal__kwargs"]%string,
        [rs "Some"; rs "Vec::with_capacity"; rs "Some"])] /\
  looks (text no_odd (fx_output (env_of w_sources) (fx_src "plain" 6))) =
    [(u "pyo3_embed_python_source_code", [u "py"], [rs "str"; rs "pyo3::types::PyAnyMethods::set_item"; rs "pyo3::types::PyAnyMethods::getattr"; rs "pyo3::intern"; rs "pyo3::intern"; rs "pyo3::types::PyModule::from_code_bound"])].
Proof. split; vm_compute; reflexivity. Qed.
(** One text of each pair differs from the other in one place, and its names are others. *)
Definition one_of (s : String.string) : list (list str * list (list tok)) := map (fun e => (snd (fst e), snd e)) (looks (u ("fn f< 'py > (py: ::pyo3::marker::Python<'py>, p_a: i64) -> ::pyo3::PyResult<i64> {" ++ s ++ "}")%string)).
Example C73_ex_different : map one_of ["::pyo3::f(p_a)"; "pyo3::f(p_a)"; "::pyo3::f(a)"; "let a = p_a; ::pyo3::f(a)"; "let a = a; ::pyo3::f(a)"; "::pyo3::f::<::std::vec::Vec>(p_a)"; "::pyo3::f:: <Vec>(p_a)"]%string =
  [[(map u ["py"; "p_a"]%string, [])]; [(map u ["py"; "p_a"]%string, [rs "pyo3::f"])]; [(map u ["py"; "p_a"]%string, [rs "a"])]; [(map u ["py"; "p_a"; "a"]%string, [])]; [(map u ["py"; "p_a"; "a"]%string, [rs "a"])];
   [(map u ["py"; "p_a"]%string, [])]; [(map u ["py"; "p_a"]%string, [rs "::pyo3::f::<Vec>"])]].
Proof. vm_compute. reflexivity. Qed.

(** A class [p_a], and a function with the parameter [a]: the parameter cannot have the name of a tuple struct. *)
Definition w_p_a : world := w_pkg [at_ "p_a" 3%N; at_ "f" 4%N] [] [] [class_ob 1 [] []; fn_ob 1 (sig [par "a" None] None)].
Lemma struct_stated : forall k i, In (GStruct i) k -> has_struct (states_all plain k) i.
Proof.
  intros k i D. destruct (stated k _ (fun q => COther q (OStruct i [pyo3 ["PyAny"%string] []])) D eq_refl) as [q0 Hq]; [intros q0; exists q0; rewrite Proof_Decl.states_frag; now left|]. now exists q0, [pyo3 ["PyAny"%string] []].
Qed.
Theorem C73_variable_refuted : exists x c out k, runs x c out k /\ looks (text no_odd out) = [(u "f", map u ["py"; "p_a"; "p_a"; "p_a"]%string, [])] /\
  exists ds b, read_decls (pe_uni x) (text no_odd out) = Some ds /\ inside_decls ds [u "pkg"] b /\ unbindable b (u "p_a").
Proof.
  clash w_p_a. split; [vm_compute; reflexivity|]. exists (states_all plain (fx_output x fx_pkg)), (states_all plain (px_body (fx_output x fx_pkg))).
  split; [vm_compute; reflexivity|]. split; [apply path_states, bodies_ok; vm_compute; tauto|]. split; [discriminate|]. left. apply struct_stated. vm_compute. tauto.
Qed.
Print Assumptions C73_variable_refuted.
(** A package with its source and a class [pyo3]: the function that embeds the source looks for [types] in the struct. *)
Definition w_pyo3 : world := w_pkg [at_ "pyo3" 3%N] [] [] [class_ob 1 [] []].
Definition with_source : list request := [AddSource (u "class pyo3: pass") (u "pkg") (Some 2%N)].
Theorem C73_embed_refuted : exists x c out, uni_ok (pe_uni x) /\ order_ok (pe_ord x) /\ pe_cfg x = default_config /\ honest (pe_uni x) (pe_world x) /\ asked_modules (pe_world x) with_source /\
  asks x 5 with_source cg_new = Ok c /\ cg_generate x false 5 c = Ok out /\
  exists ds b its r f, read_decls (pe_uni x) (text no_odd out) = Some ds /\ inside_decls ds [u "pkg"] b /\ has_struct b (u "pyo3") /\
    read_file (pe_uni x) (text no_odd out) = Some its /\ inside_mod its [u "pkg"] r /\ is_fn_of r OfModule f /\ In (rs "pyo3::types::PyModule::from_code_bound") (fn_leaves f).
Proof.
  pose (x := env_of w_pyo3). exists x, (fx_codegen x with_source), (fx_output x with_source). split; [exact uni_ascii_ok|]. split; [exact fx_order_ok|]. split; [reflexivity|].
  split; [apply honestb_ok; vm_compute; reflexivity|]. split; [intros r o [<-|[]] [E|[]]; injection E as <-; reflexivity|]. do 2 (split; [vm_compute; reflexivity|]).
  assert (A : at_path (fx_output x with_source) [u "pkg"] (px_body (fx_output x with_source))) by (apply bodies_ok; vm_compute; tauto).
  exists (states_all plain (fx_output x with_source)), (states_all plain (px_body (fx_output x with_source))), (Proof_File.shown_all bare (fx_output x with_source)), (Proof_File.shown_all bare (px_body (fx_output x with_source))).
  exists (Proof_Ast.embed_syntax (u "pkg") (u "pkg/__init__.py") (u "class pyo3: pass")).
  split; [vm_compute; reflexivity|]. split; [now apply path_states|]. split; [apply struct_stated; vm_compute; tauto|]. split; [vm_compute; reflexivity|]. split; [now apply Proof_Behave.path_shown|].
  split; [|vm_compute; tauto]. cbn [is_fn_of]. set (r := Proof_File.shown_all _ _). vm_compute in r. subst r. eexists. repeat (first [left; reflexivity|right]).
Qed.
Print Assumptions C73_embed_refuted.
