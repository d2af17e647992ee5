(** * Property theorems: generated code is syntactically valid Rust (C69) *)
From Verif Require Import Base Spec_Lex Model_Ident Model_Path Model_Import Model_Config Model_Type Model_IntoRs Model_World Model_Token Model_Out Model_Function Model_Property
  Model_Class Model_Module Model_Parse Model_Codegen Model_Build Model_Print Spec_Path Spec_Items Spec_Tree Spec_Api Spec_Out Spec_Print Spec_Grammar
  Example_World Example_Honest Proof_Base Proof_Io Proof_Api Proof_Rooted Proof_Written Proof_Valid Proof_Decide Prop_Items Prop_Forest Prop_Check.

(** ** C69
    The full claim has no condition on the names; it fails ([C69_dangling_pub_refuted]) when an accessor of a variable of a module cannot be named. *)
Theorem C69_tokens_partial : forall x numpy fuel l c out, uni_ok (pe_uni x) -> order_ok (pe_ord x) -> honest (pe_uni x) (pe_world x) -> asked_modules (pe_world x) l ->
  asks x fuel l cg_new = Ok c -> (forall ms m k, final_modules x fuel c = Ok ms -> In m ms -> within k m -> variables_named (pe_uni x) k) ->
  cg_generate x numpy fuel c = Ok out -> is_a (pe_uni x) "File" (tokens out).
Proof.
  intros x numpy fuel l c out HU Ho Hw Hl Hc Hn Hg. apply (output_file x HU Ho Hw numpy fuel l c out Hl Hc Hg). exact (output_wf x numpy fuel l c out HU Ho Hc Hn Hg).
Qed.
Print Assumptions C69_tokens_partial.
Theorem C69_text_partial : forall x numpy fuel l c out odd, uni_ok (pe_uni x) -> order_ok (pe_ord x) -> honest (pe_uni x) (pe_world x) -> asked_modules (pe_world x) l ->
  asks x fuel l cg_new = Ok c -> (forall ms m k, final_modules x fuel c = Ok ms -> In m ms -> within k m -> variables_named (pe_uni x) k) ->
  (forall a, odd a = true -> scalar a = true) -> cg_generate x numpy fuel c = Ok out -> rust_file (pe_uni x) (text odd out).
Proof.
  intros x numpy fuel l c out odd HU Ho Hw Hl Hc Hn Hs Hg. exists (tokens out). split; [exact (output_lexes x numpy fuel c out odd HU Hs Hg)|].
  exact (C69_tokens_partial x numpy fuel l c out HU Ho Hw Hl Hc Hn Hg).
Qed.
Print Assumptions C69_text_partial.
(** What [Codegen::build] leaves in the file *)
Theorem C69_build_partial : forall x numpy fuel h l c path r ev odd, uni_ok (pe_uni x) -> order_ok (pe_ord x) -> honest (pe_uni x) (pe_world x) -> asked_modules (pe_world x) l ->
  asks x fuel l cg_new = Ok c -> (forall ms m k, final_modules x fuel c = Ok ms -> In m ms -> within k m -> variables_named (pe_uni x) k) ->
  (forall a, odd a = true -> scalar a = true) -> (forall l, h_show h l = text odd l) -> cg_build x numpy fuel h c path = (Ok r, ev) ->
  exists written, ev = [EvWrite path written] /\ rust_file (pe_uni x) written.
Proof.
  intros x numpy fuel h l c path r ev odd HU Ho Hw Hl Hc Hn Hs Hh H. destruct (build_events _ _ _ _ _ _ _ _ H) as [(_ & _ & K) | (out & Hout & -> & _)]; [now destruct (K r)|].
  exists (h_show h out). split; [reflexivity|]. rewrite Hh. exact (C69_text_partial x numpy fuel l c out odd HU Ho Hw Hl Hc Hn Hs Hout).
Qed.
Print Assumptions C69_build_partial.
(** The command line tool hands the tokens to a parser for Rust and panics if that one fails (main.rs:23); it does not, provided that this parser takes what the grammar describes. *)
Theorem C69_command_line_partial : forall x numpy fuel h names c out dest, uni_ok (pe_uni x) -> order_ok (pe_ord x) -> honest (pe_uni x) (pe_world x) ->
  asks x fuel (map AddName names) cg_new = Ok c -> (forall ms m k, final_modules x fuel c = Ok ms -> In m ms -> within k m -> variables_named (pe_uni x) k) ->
  cg_generate x numpy fuel c = Ok out -> (forall l, is_a (pe_uni x) "File" (tokens l) -> h_pretty h l <> None) ->
  exists pretty, h_pretty h out = Some pretty /\ cli_main x numpy fuel h names dest = cli_output h dest pretty.
Proof.
  intros x numpy fuel h names c out dest HU Ho Hw Hc Hn Hg Hh.
  assert (Hl : asked_modules (pe_world x) (map AddName names)).
  { intros r o Hr K. apply in_map_iff in Hr as (n & <- & _). destruct K as [K|[]]. exact (proj2 (honest_named _ _ Hw) n o K). }
  pose proof (Hh out (C69_tokens_partial x numpy fuel _ c out HU Ho Hw Hl Hc Hn Hg)) as K. destruct (h_pretty h out) as [pretty|] eqn:E; [|now destruct K].
  exists pretty. split; [reflexivity|]. unfold cli_main. assert (B : cli_bindings x numpy fuel names = Ok out) by (apply cli_library; exists c; split; [exact Hc|exact Hg]).
  rewrite B. cbn [obind]. now rewrite E.
Qed.
Print Assumptions C69_command_line_partial.

(** [LIMIT] and a function [set_LIMIT]: the accessors get no code but their [pub] does *)
Theorem C69_dangling_pub_refuted : exists x l c out, uni_ok (pe_uni x) /\ order_ok (pe_ord x) /\ honest (pe_uni x) (pe_world x) /\ asked_modules (pe_world x) l /\
  asks x 5 l cg_new = Ok c /\ cg_generate x false 5 c = Ok out /\ ~ is_a (pe_uni x) "File" (tokens out).
Proof.
  exists ex_clash, ex_request, (the_codegen ex_clash ex_request), (the_output ex_clash ex_request).
  split; [exact uni_ascii_ok|]. split; [exact id_order_ok|]. split; [apply honestb_ok; vm_compute; reflexivity|].
  split; [intros r o [<-|[]] [E|[]]; injection E as <-; reflexivity|].
  do 2 (split; [vm_compute; reflexivity|]). change (pe_uni ex_clash) with uni_ascii. intros H. apply fileb_iff in H. vm_compute in H. discriminate.
Qed.
Print Assumptions C69_dangling_pub_refuted.
(** The command line tool panics on this package, although the engine reports success: for every parser that takes nothing but what the grammar describes. *)
Theorem C69_command_line_refuted : exists x names c out, honest (pe_uni x) (pe_world x) /\ asks x 5 (map AddName names) cg_new = Ok c /\ cg_generate x false 5 c = Ok out /\
  forall h dest, (forall l, h_pretty h l <> None -> is_a (pe_uni x) "File" (tokens l)) -> cli_main x false 5 h names dest = (Panic PUnwrap, []).
Proof.
  exists ex_clash, [u "pkg"], (the_codegen ex_clash ex_request), (the_output ex_clash ex_request).
  assert (Hc : asks ex_clash 5 (map AddName [u "pkg"]) cg_new = Ok (the_codegen ex_clash ex_request)) by (vm_compute; reflexivity).
  assert (Hg : cg_generate ex_clash false 5 (the_codegen ex_clash ex_request) = Ok (the_output ex_clash ex_request)) by (vm_compute; reflexivity).
  split; [apply honestb_ok; vm_compute; reflexivity|]. split; [exact Hc|]. split; [exact Hg|]. intros h dest Hh. unfold cli_main.
  assert (B : cli_bindings ex_clash false 5 [u "pkg"] = Ok (the_output ex_clash ex_request)) by (apply cli_library; exists (the_codegen ex_clash ex_request); split; [exact Hc|exact Hg]).
  rewrite B. cbn [obind]. destruct (h_pretty h _) as [t|] eqn:E; [exfalso|reflexivity].
  assert (K : is_a uni_ascii "File" (tokens (the_output ex_clash ex_request))) by (apply Hh; rewrite E; discriminate).
  apply fileb_iff in K. vm_compute in K. discriminate.
Qed.
Print Assumptions C69_command_line_refuted.

(** A package with a class, functions, a variable and a module of its own *)
Example C69_ex : uni_ok (pe_uni ex_env) /\ order_ok (pe_ord ex_env) /\ honest (pe_uni ex_env) (pe_world ex_env) /\ asked_modules (pe_world ex_env) ex_request /\
  asks ex_env 5 ex_request cg_new = Ok (the_codegen ex_env ex_request) /\
  (forall ms m k, final_modules ex_env 5 (the_codegen ex_env ex_request) = Ok ms -> In m ms -> within k m -> variables_named uni_ascii k) /\
  cg_generate ex_env false 5 (the_codegen ex_env ex_request) = Ok (the_output ex_env ex_request).
Proof.
  split; [exact uni_ascii_ok|]. split; [exact id_order_ok|]. split; [apply honestb_ok; vm_compute; reflexivity|].
  split; [intros r o [<-|[]] [E|[]]; injection E as <-; reflexivity|]. exact C31_ex.
Qed.
(** The code for parameters and members of every kind, decided by running the recogniser on it *)
Example C69_ex_kinds : length (tokens (fx_output (env_of w_checked) fx_pkg)) = N.to_nat 1871 /\ is_a uni_ascii "File" (tokens (fx_output (env_of w_checked) fx_pkg)).
Proof. split; [vm_compute; reflexivity|]. apply fileb_iff. vm_compute. reflexivity. Qed.
(** What the grammar takes and what it does not: one text of each pair differs from the other in one place. *)
Definition reads (s : String.string) : bool := match lex uni_ascii (u s) with Some l => fileb l | None => false end.
Example C69_ex_grammar : map (fun p => (reads (fst p), reads (snd p))) [
    ("pub mod a { pub fn f< 'py > (x: i64) -> ::pyo3::PyResult < () > { Ok(()) } }", "pub mod a { pub fn f< 'py > (x: i64) -> ::pyo3::PyResult < () > { Ok(()) } pub }");
    ("pub use super::super::b as c;", "pub use super::super::b as super;");
    ("pub type T = i64;", "pub type T = i64");
    ("impl C { pub fn f< 'py > (& 'py self, p: i64) -> i64 { p } }", "impl C { pub fn f< 'py > (& 'py self, p: i64) -> i64 }");
    ("fn f< 'py > () -> i64 { a.b() ? . c(x, &y) }", "fn f< 'py > () -> i64 { a.b() ? . c(x, &y)");
    ("fn f< 'py > () -> i64 { let r#fn = m!(x { y }); }", "fn f< 'py > () -> i64 { let fn = m!(x { y }); }");
    ("#[doc = ""x""] pub struct C(i64);", "#[doc = ""x""]")]%string =
  [(true, false); (true, false); (true, false); (true, false); (true, false); (true, false); (true, false)].
Proof. vm_compute. reflexivity. Qed.
