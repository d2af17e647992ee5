(** * C67: the text that is written reads back as the code that was generated *)
From Verif Require Import Base Spec_Lex Model_Ident Model_Path Model_Config Model_Type Model_IntoRs Model_World Model_Out Model_Function Model_Parse Model_Codegen Model_Build Model_Token Model_Print
  Spec_Type Spec_Items Spec_Print Proof_Base Proof_Io Proof_Lex Proof_Print Proof_Written Proof_Texts Example_World Example_Tests.

(** ** Tokens *)
Theorem C67_reads_back : forall x numpy fuel c out odd, uni_ok (pe_uni x) -> (forall a, odd a = true -> scalar a = true) -> cg_generate x numpy fuel c = Ok out ->
  lex (pe_uni x) (text odd out) = Some (tokens out).
Proof. exact output_lexes. Qed.
Print Assumptions C67_reads_back.
(** Every opened bracket is closed by its own kind. *)
Theorem C67_balanced : forall l, balanced (tokens l).
Proof. exact tokens_balanced. Qed.
Print Assumptions C67_balanced.

(** ** Texts: whatever Python says in documentation, sources and names of attributes ends up in string literals;
    other texts give the same code around them. *)
Theorem C67_texts : forall x numpy fuel c out odd f, uni_ok (pe_uni x) -> (forall a, odd a = true -> scalar a = true) -> cg_generate x numpy fuel c = Ok out ->
  let other := map (retext f) out in
  lex (pe_uni x) (text odd other) = Some (tokens other) /\ map blank (tokens other) = map blank (tokens out).
Proof.
  intros x numpy fuel c out odd f HU Ho H other. split; [|exact (tokens_same f out)]. apply lex_text; [exact HU|exact Ho|]. apply tokens_proper; [exact HU|].
  unfold other. rewrite retext_all_names. intros w Hw. apply segment_word; [exact HU|]. exact (output_segments x numpy fuel c out HU H w Hw).
Qed.
Print Assumptions C67_texts.

(** ** The file *)
Theorem C67_build : forall x numpy fuel h c path r ev odd, uni_ok (pe_uni x) -> (forall a, odd a = true -> scalar a = true) -> (forall l, h_show h l = text odd l) ->
  cg_build x numpy fuel h c path = (Ok r, ev) ->
  exists out written, cg_generate x numpy fuel c = Ok out /\ ev = [EvWrite path written] /\ lex (pe_uni x) written = Some (tokens out).
Proof.
  intros x numpy fuel h c path r ev odd HU Ho Hs H. destruct (build_events _ _ _ _ _ _ _ _ H) as [(_ & _ & K) | (out & Hout & -> & _)]; [now destruct (K r)|].
  exists out, (h_show h out). split; [exact Hout|]. split; [reflexivity|]. rewrite Hs. now apply (output_lexes x numpy fuel c).
Qed.
Print Assumptions C67_build.

(** ** The engine's own look at printed types (into_rs.rs:33, 82, 140: [to_string().contains("PyAny")]) *)
Theorem C67_printed_type : forall odd t, contains_str (u "PyAny") (text_of odd (ty_tokens t)) = mentions_pyany t.
Proof. exact pyany_text. Qed.
Print Assumptions C67_printed_type.

(** ** Cases *)
(** Documentation that tries to end its literal and to start a function *)
Definition evil : String.string := """] pub fn evil() {} #[doc = """.
Definition evil_text : str := u evil ++ [10; 9; 13; 92; 39; 0; 48; 0; 120; 8238; 128512]%N.
Definition evil_ob : ob := mk_ob [] evil_text (facts "str" false false false false false no_sub "<class 'str'>") None [] [] None [].
Definition evil_env : penv := made "m" [at_ "f" 4%N] [evil_ob; fn_at 1 3 (mk_signature [] None)].
Definition evil_out : outcome (list frag) := let! c := cg_module evil_env 2 2 cg_new in cg_generate evil_env false 2 c.
Definition two_odd (c : char) : bool := ((c =? 0) || (c =? 8238))%N.
Definition doc_lines (l : list tok) : list str := flat_map (fun t => match t with TLit s => [s] | _ => [] end) l.
Definition words_of (l : list tok) : list str := flat_map (fun t => match t with TWord s => [s] | _ => [] end) l.
Example C67_ex : uni_ok (pe_uni evil_env) /\ (forall a, two_odd a = true -> scalar a = true) /\
  (let! out := evil_out in Ok (option_map doc_lines (lex uni_ascii (text two_odd out)), mem_str (u "evil") (words_of (tokens out)), mem_str (u "f") (words_of (tokens out)))) =
    Ok (Some [u " " ++ u evil ++ [10; 92; 39; 0; 48; 0; 120; 8238; 128512; 10]%N; u "m"; u "f"], false, true).
Proof.
  split; [exact uni_ascii_ok|]. split; [|now vm_compute]. intros a H. unfold two_odd in H. apply orb_prop in H as [H | H]; apply N.eqb_eq in H as ->; reflexivity.
Qed.
