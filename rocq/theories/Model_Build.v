(** * Model of the entry points: Codegen::build, the command line tool, the macro *)
From Verif Require Import Base Model_Ident Model_Path Model_Config Model_World Model_Out Model_Function Model_Module Model_Parse
  Model_Codegen.

(** What an entry point does to the outside, in order *)
Inductive event := EvMkdir (p : str) | EvWrite (p text : str) | EvStdout (text : str).

(** The operating system and the printers are left open: whether an operation succeeds, the parent of a path,
    [TokenStream::to_string], and [prettyplease::unparse] of [syn::parse2] ([None]: does not parse). *)
Record host := mk_host { h_ok : event -> bool; h_parent : str -> option str; h_show : list frag -> str;
                         h_pretty : list frag -> option str }.

Definition perform (h : host) (e : event) (fail : outcome unit) : outcome unit * list event :=
  (if h_ok h e then Ok tt else fail, [e]).

(** codegen.rs:167-169 *)
Definition cg_build (x : penv) (numpy : bool) (fuel : nat) (h : host) (c : codegen) (out : str) : outcome unit * list event :=
  match cg_generate x numpy fuel c with
  | Ok toks => perform h (EvWrite out (h_show h toks)) (Err EIo)
  | Err k => (Err k, [])
  | Panic k => (Panic k, [])
  | OutOfFuel => (OutOfFuel, [])
  end.

(** [unwrap_or_else(|err| panic!(..))] *)
Definition or_panic {A} (m : outcome A) : outcome A := match m with Err _ => Panic PUnwrap | _ => m end.

(** main.rs:10-20; [pe_cfg] is [Config::default()]. *)
Fixpoint cli_modules (x : penv) (fuel : nat) (names : list str) (c : codegen) : outcome codegen :=
  match names with
  | [] => Ok c
  | n :: r => let! c' := or_panic (cg_module_name x fuel n c) in cli_modules x fuel r c'
  end.
Definition cli_bindings (x : penv) (numpy : bool) (fuel : nat) (names : list str) : outcome (list frag) :=
  let! c := cli_modules x fuel names cg_new in or_panic (cg_generate x numpy fuel c).
(** main.rs:25-37 *)
Definition cli_output (h : host) (out : option str) (text : str) : outcome unit * list event :=
  match out with
  | None => perform h (EvStdout text) (Panic PUnwrap)
  | Some p =>
      let write := perform h (EvWrite p text) (Panic PUnwrap) in
      match h_parent h p with
      | None => write
      | Some d => match perform h (EvMkdir d) (Panic PUnwrap) with
                  | (Ok _, ev) => let '(r, ev') := write in (r, ev ++ ev')
                  | r => r
                  end
      end
  end.
(** main.rs:6-38 *)
Definition cli_main (x : penv) (numpy : bool) (fuel : nat) (h : host) (names : list str) (out : option str) : outcome unit * list event :=
  match (let! b := cli_bindings x numpy fuel names in unwrap PUnwrap (h_pretty h b)) with
  | Ok text => cli_output h out text
  | Err k => (Err k, [])
  | Panic k => (Panic k, [])
  | OutOfFuel => (OutOfFuel, [])
  end.

(** pyo3_bindgen_macros/src/lib.rs:39-61 *)
Definition macro_import (x : penv) (numpy : bool) (fuel : nat) (name : str) : outcome (list frag) :=
  let! c := or_panic (cg_module_name x fuel name cg_new) in or_panic (cg_generate x numpy fuel c).
