(** * Property theorems: documentation text (C35-C37) *)
From Verif Require Import Base Model_Text Spec_Text Proof_Base Proof_Text.

(** ** C35 *)
(** The full claim is "no line of the emitted documentation starts a code block". The part that
    holds covers backtick fences, indented code, and any run of backticks; tilde fences are not
    handled by the code ([C35_tilde_fence_refuted]). *)
Theorem C35_no_code_block_partial : forall doc out, format_docstring doc = Ok out ->
  contains_str [96; 96]%N out = false /\
  (forall l, is_line l out -> opens_backtick_fence l = false /\ indented_code l = false).
Proof. exact format_no_code. Qed.
Print Assumptions C35_no_code_block_partial.

Theorem C35_tilde_fence_refuted : exists doc out l, format_docstring doc = Ok out /\
  is_line l out /\ opens_tilde_fence l = true.
Proof. exact tilde_fence_survives. Qed.
Print Assumptions C35_tilde_fence_refuted.

Example C35_ex :
  format_docstring (u "Adds." ++ [10; 10]%N ++ u "```" ++ [10]%N ++ u "    add(1)" ++ [10]%N ++ u "```") =
  Ok (u " Adds." ++ [10; 10]%N ++ u "`" ++ [10]%N ++ u "add(1)" ++ [10]%N ++ u "`" ++ [10]%N) /\
  is_line (u "```") (u "Adds." ++ [10; 10]%N ++ u "```" ++ [10]%N ++ u "    add(1)").
Proof.
  split; [vm_compute; reflexivity|]. split; [cbn; intuition discriminate|].
  exists (u "Adds." ++ [10; 10]%N), ([10]%N ++ u "    add(1)"). split; [reflexivity|]. split.
  - right. exists (u "Adds." ++ [10]%N). reflexivity.
  - right. eexists. reflexivity.
Qed.

(** ** C36 *)
Theorem C36_words_kept_up_to_trailing_slashes : forall doc out, format_docstring doc = Ok out ->
  exists k, words doc = words out ++ repeat 47%N k.
Proof. exact format_words. Qed.
Print Assumptions C36_words_kept_up_to_trailing_slashes.

Theorem C36_words_kept : forall doc out, format_docstring doc = Ok out ->
  (forall t w, blank w -> doc <> t ++ [47%N] ++ w) -> words out = words doc.
Proof. exact format_words_exact. Qed.
Print Assumptions C36_words_kept.

Example C36_ex :
  format_docstring (u "f(a, /)  adds" ++ [10]%N ++ u "   see a//b /") =
    Ok (u " f(a, /) adds" ++ [10]%N ++ u "see a//b" ++ [10]%N) /\
  format_docstring (u "see a//b") = Ok (u " see a//b").
Proof. split; vm_compute; reflexivity. Qed.

(** ** C37 *)
Theorem C37_always_terminates : forall doc, exists out, format_docstring doc = Ok out.
Proof. exact format_docstring_total. Qed.
Print Assumptions C37_always_terminates.

Theorem C37_shape : forall doc out, format_docstring doc = Ok out ->
  exists r, out = 32%N :: r /\
  (In 10%N r -> exists v, r = v ++ [10%N] /\ forall v', v <> v' ++ [10%N]) /\
  (~ blank doc -> forall r', r <> 10%N :: r').
Proof. exact format_shape. Qed.
Print Assumptions C37_shape.

(** A text of blank lines only formats to a blank line. *)
Theorem C37_blank_text_refuted : exists doc, blank doc /\ format_docstring doc = Ok [32; 10]%N.
Proof. exact blank_doc_blank_line. Qed.
Print Assumptions C37_blank_text_refuted.

Example C37_ex : ~ blank ([10]%N ++ u "a" ++ [10]%N ++ u "b" ++ [10; 10]%N) /\
  format_docstring ([10]%N ++ u "a" ++ [10]%N ++ u "b" ++ [10; 10]%N) = Ok (u " a" ++ [10]%N ++ u "b" ++ [10]%N).
Proof.
  split; [|vm_compute; reflexivity]. intros H. specialize (H (ch "a")).
  assert (is_ws (ch "a") = true) by (apply H; cbn; tauto). discriminate.
Qed.
