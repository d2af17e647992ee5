(** * Property theorems: documentation (C64) *)
From Verif Require Import Base Model_Ident Model_Path Model_Import Model_Text Model_Config Model_Type Model_IntoRs Model_World Model_Out Model_Function Model_Property
  Model_Class Model_Module Model_Parse Model_Codegen Spec_Path Spec_Names Spec_Items Spec_Tree Spec_Api Spec_Out Spec_Prop Spec_Attr Spec_Doc Example_World Example_Honest
  Proof_Base Proof_Ident Proof_Property Proof_Doc Prop_Items Prop_Forest Prop_Attr Prop_Shown Prop_Switch.

(** ** C64
    What is read is the documentation of the object; missing: an empty text and the text [None] count as no documentation. *)
Theorem C64_read_partial : forall w o r, none_prints w -> read_docstring w o = Ok r ->
  (forall s, r = Some s -> has_doc w o s) /\ (forall s, has_doc w o s -> s <> [] -> s <> u "None" -> r = Some s).
Proof.
  intros w o r Hn H. pose proof (read_doc_of w o r Hn H) as D. split; [intros s ->; exact D|]. intros s Hs H1 H2. destruct Hs as (d & E & _ & Es).
  assert (K : documented w o s). { split; [|now split]. unfold attr_text. rewrite E. cbn. now rewrite Es. }
  apply read_doc_some in K. congruence.
Qed.
Print Assumptions C64_read_partial.
(** In the output: the lines in front of each item, at every depth, are the documentation of the object that stands at the item's path;
    nothing is invented and nothing is left out. Missing: a property itself may be documented without a getter, see below. *)
Theorem C64_output_partial : forall x numpy fuel l c out, order_ok (pe_ord x) -> honest (pe_uni x) (pe_world x) -> none_prints (pe_world x) -> asked_modules (pe_world x) l ->
  asks x fuel l cg_new = Ok c -> cg_generate x numpy fuel c = Ok out ->
  forall ns k, at_path out ns k -> (forall t y, In (t, y) (described [] k) -> told x ns k t y) /\ (forall y, In y k -> leads y = false -> exists t, In (t, y) (described [] k)).
Proof.
  intros x numpy fuel l c out Ho Hw Hn Hl Hc Hout ns k Hk. split; [intros t y; exact (output_told x numpy fuel l c out Ho Hw Hn Hl Hc Hout ns k t y Hk)|].
  intros y Hy Hy'. exact (described_In k [] y Hy Hy').
Qed.
Print Assumptions C64_output_partial.
(** The final modules: each is documented as the Python module of its name. *)
Theorem C64_modules : forall x fuel l c ms, order_ok (pe_ord x) -> honest (pe_uni x) (pe_world x) -> none_prints (pe_world x) -> asked_modules (pe_world x) l ->
  asks x fuel l cg_new = Ok c -> final_modules x fuel c = Ok ms -> forall m k, In m ms -> within k m ->
  exists o, is_module (pe_world x) o /\ m_name k = path_from_py (pe_uni x) (w_name (pe_world x) o) /\ doc_of (pe_world x) o (m_doc k).
Proof.
  intros x fuel l c ms Ho Hw Hn Hl Hc Hf m k Hm Hk. destruct (final_sound_module x fuel l c ms Ho Hw Hl Hc Hf m k Hm Hk) as (o & H1 & H2 & H3).
  exists o. split; [exact H1|]. split; [exact H2|]. now apply read_doc_of.
Qed.
Print Assumptions C64_modules.
(** A module, a function, a class, a method and a property with documentation, and a function without *)
Definition w_described : world :=
  world_of [at_ "pkg" 2%N]
    [none_ob; str_ob "pkg"; documented_ob (module_ob "pkg" [at_ "f" 8%N; at_ "C" 9%N; at_ "g" 13%N] None []) 3;
     str_ob "The package."; str_ob "Does it."; str_ob "A class."; str_ob "A method."; str_ob "The size.";
     documented_ob (fn_ob 1 (sig [] None)) 4; documented_ob (class_ob 1 [at_ "m" 10%N; at_ "size" 11%N] [(u "m", StoredOther)]) 5;
     documented_ob (fn_ob 1 (sig [par "self" None] None)) 6; prop_ob [at_ "fget" 12%N]; documented_ob (fn_ob 1 (sig [par "self" None] None)) 7; fn_ob 1 (sig [] None)].
Definition lines (l : list frag) : list (list str) := map fst (described [] l).
Definition inside (l : list frag) : list frag := flat_map (fun f => match f with GMod _ b => b | _ => [] end) l.
Definition trait_impls (l : list frag) : list frag := flat_map (fun f => match f with GImplFor _ _ b => b | _ => [] end) l.
Example C64_ex : let x := env_of w_described in let out := fx_output x fx_pkg in
  order_ok (pe_ord x) /\ honest (pe_uni x) (pe_world x) /\ none_prints (pe_world x) /\ asked_modules (pe_world x) fx_pkg /\
  asks x 5 fx_pkg cg_new = Ok (fx_codegen x fx_pkg) /\ cg_generate x false 5 (fx_codegen x fx_pkg) = Ok out /\
  lines out = [[u " The package."]] /\
  lines (trait_impls (inside out)) = [[u " A method."]; [u " The size."]] /\
  nth 0 (lines (inside out)) [] = [u " A class."] /\ nth 5 (lines (inside out)) [] = [u " Does it."] /\ nth 6 (lines (inside out)) [] = [] /\ length (lines (inside out)) = 7.
Proof.
  cbv zeta. split; [exact ax_order_ok|]. split; [apply honestb_ok; vm_compute; reflexivity|].
  split; [intros d Hd; apply N.eqb_eq in Hd; subst d; reflexivity|]. split; [intros r o [<-|[]] [E|[]]; injection E as <-; reflexivity|].
  repeat split; vm_compute; reflexivity.
Qed.
(** The text [None] is dropped. *)
Definition w_none_text : world := w_pkg [at_ "f" 4%N] [] [] [str_ob "None"; documented_ob (fn_ob 1 (sig [] None)) 3].
Theorem C64_none_text_refuted : exists x o a m f, order_ok (pe_ord x) /\ honest (pe_uni x) (pe_world x) /\ none_prints (pe_world x) /\ generate_docs (pe_cfg x) = true /\
  w_getattr (pe_world x) o (u "f") = Some a /\ has_doc (pe_world x) a (u "None") /\ mod_parse x 5 o = Ok m /\ m_functions m = [f] /\ fn_doc f = None /\
  lines (inside (fx_output x fx_pkg)) = [[]].
Proof.
  set (m := match mod_parse (env_of w_none_text) 5 2 with Ok m => m | _ => ax_module end). set (f := hd (mk_func (mk_path false []) FFunction [] TUnknown None) (m_functions m)).
  exists (env_of w_none_text), 2%N, 4%N, m, f. split; [exact ax_order_ok|]. split; [apply honestb_ok; vm_compute; reflexivity|].
  split; [intros d Hd; apply N.eqb_eq in Hd; subst d; reflexivity|]. split; [reflexivity|]. split; [reflexivity|].
  split; [exists 3%N; repeat split; vm_compute; reflexivity|]. repeat split; vm_compute; reflexivity.
Qed.
Print Assumptions C64_none_text_refuted.
(** The documentation of a property that has no getter function (a slot, say) is dropped. *)
Definition w_slot : world := w_pkg [at_ "C" 4%N] [] [] [str_ob "The size."; class_ob 1 [at_ "size" 5%N] []; documented_ob (prop_ob []) 3].
Theorem C64_property_refuted : exists x o a b m c p, order_ok (pe_ord x) /\ honest (pe_uni x) (pe_world x) /\ none_prints (pe_world x) /\ generate_docs (pe_cfg x) = true /\
  w_getattr (pe_world x) o (u "C") = Some a /\ w_getattr (pe_world x) a (u "size") = Some b /\ has_doc (pe_world x) b (u "The size.") /\
  mod_parse x 5 o = Ok m /\ m_classes m = [c] /\ cl_props c = [p] /\ pr_doc p = None /\
  lines (trait_impls (inside (fx_output x fx_pkg))) = [[]].
Proof.
  set (m := match mod_parse (env_of w_slot) 5 2 with Ok m => m | _ => ax_module end). set (c := hd (mk_class (mk_path false []) [] [] None) (m_classes m)).
  set (p := hd (mk_property (mk_path false []) OwnerClass false TUnknown TUnknown None None) (cl_props c)).
  exists (env_of w_slot), 2%N, 4%N, 5%N, m, c, p. split; [exact ax_order_ok|]. split; [apply honestb_ok; vm_compute; reflexivity|].
  split; [intros d Hd; apply N.eqb_eq in Hd; subst d; reflexivity|]. split; [reflexivity|]. split; [reflexivity|]. split; [reflexivity|].
  split; [exists 3%N; repeat split; vm_compute; reflexivity|]. repeat split; vm_compute; reflexivity.
Qed.
Print Assumptions C64_property_refuted.
