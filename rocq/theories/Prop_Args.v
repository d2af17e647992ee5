(** * Property theorems: the arguments of the command line tool and of the macro (C74) *)
From Verif Require Import Base Model_Ident Model_Path Model_Config Model_World Model_Out Model_Function Model_Module Model_Parse
  Model_Codegen Model_Build Model_Args Model_Token Spec_Lex Spec_Api Spec_Args Proof_Args Prop_Io.

(** ** C74: the tool runs exactly on what the arguments say *)
Theorem C74_understood : forall argv ns o, clap argv = CRun ns o <-> says (tl argv) ns (out_list o) /\ ns <> [].
Proof. exact clap_says. Qed.
Print Assumptions C74_understood.
Theorem C74_unambiguous : forall l ns o ns' o', ns <> [] -> ns' <> [] -> says l ns (out_list o) -> says l ns' (out_list o') -> ns = ns' /\ o = o'.
Proof. exact says_once. Qed.
Print Assumptions C74_unambiguous.
Theorem C74_all_names : forall ns, ns <> [] -> Forall value ns -> says (u "-m" :: ns) ns [].
Proof. exact names_said. Qed.
Print Assumptions C74_all_names.
Theorem C74_tool : forall x numpy fuel h argv ns o, says (tl argv) ns (out_list o) -> ns <> [] ->
  cli_tool x numpy fuel h argv = Some (cli_main x numpy fuel h ns o).
Proof. exact tool_runs. Qed.
Print Assumptions C74_tool.
(** If the tool succeeds, it has written the bindings of the modules that the arguments name, where they say. *)
Theorem C74_done : forall x numpy fuel h argv ev, cli_tool x numpy fuel h argv = Some (Ok tt, ev) ->
  exists ns o c toks text, says (tl argv) ns (out_list o) /\ ns <> [] /\ asks x fuel (map AddName ns) cg_new = Ok c /\ cg_generate x numpy fuel c = Ok toks /\
    h_pretty h toks = Some text /\ last ev (EvStdout []) = match o with Some p => EvWrite p text | None => EvStdout text end /\ forall e, In e ev -> h_ok h e = true.
Proof. exact tool_done. Qed.
Print Assumptions C74_done.

(** The tests of main.rs:52-105, and some more arguments *)
Definition given (l : list String.string) : cli_args := clap (map u l).
Example C74_ex_tests :
  given [""; "-m"; "os"; "--output"; "bindings.rs"]%string = CRun [u "os"] (Some (u "bindings.rs")) /\
  given [""; "-m"; "sys"]%string = CRun [u "sys"] None /\
  given [""; "--module-name"; "io"]%string = CRun [u "io"] None /\
  given [""; "-m"; "os"; "sys"; "--module-name"; "io"]%string = CRun [u "os"; u "sys"; u "io"] None.
Proof. repeat split; vm_compute; reflexivity. Qed.
Example C74_ex :
  given ["p"; "-o"; "a.rs"; "-mos"; "--module-name=os.path"; "-m"; "a"; "-"; ""; "--"]%string = CRun (map u ["os"; "os.path"; "a"; "-"; ""]%string) (Some (u "a.rs")) /\
  given ["p"; "-m=os"; "-oa"]%string = CRun [u "os"] (Some (u "a")) /\
  map given [["p"]; ["p"; "-m"]; ["p"; "os"]; ["p"; "-mos"; "sys"]; ["p"; "-m"; "os"; "-o"]; ["p"; "-m"; "os"; "-o"; "a"; "b"]; ["p"; "-m"; "os"; "-o"; "a"; "-o"; "b"];
             ["p"; "-m"; "os"; "--"; "sys"]; ["p"; "-m"; "--"; "os"]; ["p"; "--module"; "os"]; ["p"; "-m"; "-x"]; ["p"; "-m"; "os"; "--output="]]%string = repeat CRefuse 12 /\
  map given [["p"; "-h"]; ["p"; "-m"; "os"; "--version"]]%string = [CPrint; CPrint].
Proof. repeat split; vm_compute; reflexivity. Qed.
Example C74_ex_says : says (map u ["-o"; "a.rs"; "-mos"; "-m"; "a"; "b"]%string) (map u ["os"; "a"; "b"]%string) [u "a.rs"].
Proof. refine (proj1 (proj1 (C74_understood (map u ["p"; "-o"; "a.rs"; "-mos"; "-m"; "a"; "b"]%string) _ (Some (u "a.rs"))) _)). vm_compute. reflexivity. Qed.
Example C74_ex_tool :
  cli_tool ex_penv false 2 (ex_host true) (map u ["p"; "-m"; "m"; "-o"; "d/o.rs"]%string) = Some (Ok tt, [EvMkdir (u "d"); EvWrite (u "d/o.rs") (u "pretty")]) /\
  cli_tool ex_penv false 2 (ex_host true) (map u ["p"; "-m"; "m"; "nope"; "-o"; "d/o.rs"]%string) = Some (Panic PUnwrap, []) /\
  cli_tool ex_penv false 2 (ex_host true) (map u ["p"; "-o"; "d/o.rs"]%string) = None.
Proof. repeat split; vm_compute; reflexivity. Qed.

(** The macro accepts exactly one string literal, and generates for it what the tool generates for this name. *)
Theorem C74_macro : forall x numpy fuel input r, macro_tool x numpy fuel input = Some r <->
  exists name, lex (pe_uni x) input = Some [TLit name] /\ r = cli_bindings x numpy fuel [name].
Proof. exact macro_reads. Qed.
Print Assumptions C74_macro.
Theorem C74_macro_plain : forall x numpy fuel name, uni_ok (pe_uni x) -> Forall easy_char name ->
  macro_tool x numpy fuel (quoted name) = Some (cli_bindings x numpy fuel [name]).
Proof. exact macro_plain. Qed.
Print Assumptions C74_macro_plain.
(** Every string can be given, escaped as Rust prints it ([odd]: the characters that Rust does not print as they are). *)
Theorem C74_macro_escaped : forall x numpy fuel odd name, uni_ok (pe_uni x) -> (forall c, odd c = true -> scalar c = true) ->
  macro_tool x numpy fuel (quoted (escape odd name)) = Some (cli_bindings x numpy fuel [name]).
Proof. exact macro_escaped. Qed.
Print Assumptions C74_macro_escaped.
Definition expands (s : str) : bool := match macro_tool ex_penv false 2 s with Some (Ok _) => true | _ => false end.
Definition no_args (s : str) : bool := match macro_tool ex_penv false 2 s with None => true | Some _ => false end.
Example C74_ex_macro :
  map expands [quoted (u "m"); u " " ++ quoted (u "m") ++ u " "; quoted (u "\x6d"); quoted (u "\u{6D}"); quoted (u "nope")] = [true; true; true; true; false] /\
  map no_args [quoted (u "nope"); []; u "m"; quoted (u "m") ++ u ","; quoted (u "m") ++ quoted (u "m")] = [false; true; true; true; true].
Proof. split; vm_compute; reflexivity. Qed.
