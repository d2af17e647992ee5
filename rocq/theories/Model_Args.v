(** * Model of the arguments of the command line tool and of the macro

    clap 4.5.21 and syn 2.0.87 are not in the repository; what they do with the declarations in main.rs:41-50
    and parser.rs:15-19 is taken from their documentation. *)
From Verif Require Import Base Model_Ident Model_Path Model_Config Model_World Model_Out Model_Function Model_Module Model_Parse
  Model_Codegen Model_Build Spec_Lex.

(** ** main.rs:40-50 ([#[derive(Parser)] struct Args]) *)
Inductive cli_opt := OModules | OOutput | OHelp | OVersion.
(** [long="module-name"], [long] of [output], and the two that clap adds; no abbreviations *)
Definition by_long (s : str) : option cli_opt :=
  if str_eqb s (u "module-name") then Some OModules else if str_eqb s (u "output") then Some OOutput
  else if str_eqb s (u "help") then Some OHelp else if str_eqb s (u "version") then Some OVersion else None.
(** [short='m'], [short] of [output], and the two that clap adds *)
Definition by_short (c : char) : option cli_opt :=
  if (c =? ch "m")%N then Some OModules else if (c =? ch "o")%N then Some OOutput
  else if (c =? ch "h")%N then Some OHelp else if (c =? ch "V")%N then Some OVersion else None.

(** What clap makes of the arguments: the fields of [Args]; a text that it prints, ending the process with status 0;
    or a complaint, ending the process with status 2. *)
Inductive cli_args := CRun (names : list str) (out : option str) | CPrint | CRefuse.

(** An option that still takes values: [-m] with the values so far, or [-o] *)
Inductive waiting := WNone | WNames (vs : list str) | WOutput.
Record clap_state := mk_clap { k_names : list str; k_out : option str; k_wait : waiting }.

(** [Vec<String>] appends *)
Definition add_names (vs : list str) (s : clap_state) : clap_state := mk_clap (k_names s ++ vs) (k_out s) WNone.
(** [Option<PathBuf>] is set once, and not to an empty path *)
Definition set_output (v : str) (s : clap_state) : option clap_state :=
  match v, k_out s with _ :: _, None => Some (mk_clap (k_names s) (Some v) WNone) | _, _ => None end.
(** An option is over: it must have its values ([num_args=1..]). *)
Definition flush (s : clap_state) : option clap_state :=
  match k_wait s with
  | WNone => Some s
  | WNames [] => None
  | WNames vs => Some (add_names vs s)
  | WOutput => None
  end.
(** [required=true] *)
Definition clap_end (s : clap_state) : cli_args :=
  match flush s with
  | Some (mk_clap (n :: ns) o _) => CRun (n :: ns) o
  | _ => CRefuse
  end.
(** [t.split_once('=')] *)
Fixpoint at_equals (t : str) : str * option str :=
  match t with
  | [] => ([], None)
  | c :: r => if (c =? ch "=")%N then ([], Some r) else let '(a, v) := at_equals r in (c :: a, v)
  end.
(** An option starts, perhaps with a value attached, which is then its only one. *)
Definition clap_opt (o : cli_opt) (v : option str) (s : clap_state) (k : clap_state -> cli_args) : cli_args :=
  match flush s with
  | None => CRefuse
  | Some s =>
      match o, v with
      | OModules, None => k (mk_clap (k_names s) (k_out s) (WNames []))
      | OModules, Some v => k (add_names [v] s)
      | OOutput, None => k (mk_clap (k_names s) (k_out s) WOutput)
      | OOutput, Some v => match set_output v s with Some s => k s | None => CRefuse end
      | OHelp, None | OVersion, None => CPrint
      | OHelp, Some _ | OVersion, Some _ => CRefuse
      end
  end.
Fixpoint clap_run (s : clap_state) (l : list str) : cli_args :=
  match l with
  | [] => clap_end s
  | a :: r =>
      if str_eqb a (u "--") then match r with [] => clap_end s | _ :: _ => CRefuse end
      else match strip_prefix (u "--") a with
      | Some t =>
          let '(name, v) := at_equals t in
          match by_long name with Some o => clap_opt o v s (fun s => clap_run s r) | None => CRefuse end
      | None =>
          match strip_prefix (u "-") a with
          | Some (c :: t) =>
              match by_short c with
              | Some OHelp | Some OVersion => clap_opt OHelp None s (fun s => clap_run s r)
              | Some o =>
                  let v := match t with [] => None | e :: w => Some (if (e =? ch "=")%N then w else t) end in
                  clap_opt o v s (fun s => clap_run s r)
              | None => CRefuse
              end
          | _ =>
              match k_wait s with
              | WNames vs => clap_run (mk_clap (k_names s) (k_out s) (WNames (vs ++ [a]))) r
              | WOutput => match set_output a s with Some s => clap_run s r | None => CRefuse end
              | WNone => CRefuse
              end
          end
      end
  end.
(** [Args::parse_from]: the first argument is the name of the program. *)
Definition clap (argv : list str) : cli_args := clap_run (mk_clap [] None WNone) (tl argv).

(** main.rs:6-38 with the arguments of the process; [None]: it ends before anything is done. *)
Definition cli_tool (x : penv) (numpy : bool) (fuel : nat) (h : host) (argv : list str) : option (outcome unit * list event) :=
  match clap argv with CRun names out => Some (cli_main x numpy fuel h names out) | CPrint | CRefuse => None end.

(** ** pyo3_bindgen_macros/src/parser.rs:14-20, lib.rs:39-42: one string literal and nothing else *)
Definition macro_args (l : list tok) : option str := match l with [TLit s] => Some s | _ => None end.
(** lib.rs:39-61, from the text between the brackets; [None]: an error at compile time.  lib.rs:44-50 (loading
    libpython) has no influence on the result. *)
Definition macro_tool (x : penv) (numpy : bool) (fuel : nat) (input : str) : option (outcome (list frag)) :=
  match lex (pe_uni x) input with
  | Some l => match macro_args l with Some name => Some (macro_import x numpy fuel name) | None => None end
  | None => None
  end.
