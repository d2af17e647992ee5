(** * Model of syntax/common/ident.rs *)
From Verif Require Import Base.

(** ident.rs:1-3.  [struct Ident(String)]: the wrapped string, which is the Rust spelling. *)
Notation ident := str.
Definition ident_eqb : ident -> ident -> bool := str_eqb.

(** ** The identifier grammar of syn/proc-macro2
    [syn::parse_str::<syn::Ident>] used in ident.rs:33,44,51.
    Written from the documented behaviour of the pinned versions in Cargo.lock (the crates'
    sources are not available here): proc-macro2 1.0.89 lexes an identifier as an optional
    [r#], then '_' or XID_Start, then XID_Continue; syn 2.0.87 rejects the keywords.
    Simplified: strings with white space or comments around the identifier (which syn skips)
    are treated as rejected; Python names contain neither. *)
Definition r_hash : str := [114; 35]%N.  (* "r#" *)

Definition lex_ident_plain (U : uni) (s : str) : bool :=
  match s with
  | [] => false
  | c :: t => ((c =? c_us)%N || xid_start U c) && forallb (xid_continue U) t
  end.

(** syn 2.0.87, [impl Parse for Ident] ([accept_as_ident]): tokens that are not identifiers. *)
Definition syn_keywords : list str :=
  map u ["_"; "abstract"; "as"; "async"; "await"; "become"; "box"; "break"; "const"; "continue";
         "crate"; "do"; "dyn"; "else"; "enum"; "extern"; "false"; "final"; "fn"; "for"; "if";
         "impl"; "in"; "let"; "loop"; "macro"; "match"; "mod"; "move"; "mut"; "override"; "priv";
         "pub"; "ref"; "return"; "Self"; "self"; "static"; "struct"; "super"; "trait"; "true";
         "try"; "type"; "typeof"; "unsafe"; "unsized"; "use"; "virtual"; "where"; "while";
         "yield"]%string.

(** proc-macro2 1.0.89: names that cannot be raw identifiers. *)
Definition never_raw : list str := map u ["_"; "super"; "self"; "Self"; "crate"]%string.

(** [syn::parse_str::<syn::Ident>(s).is_ok()] *)
Definition syn_ident_ok (U : uni) (s : str) : bool :=
  match strip_prefix r_hash s with
  | Some t => lex_ident_plain U t && negb (mem_str t never_raw)
  | None => lex_ident_plain U s && negb (mem_str s syn_keywords)
  end.

(** ident.rs:32-38 [py_to_rs] *)
Definition py_to_rs (U : uni) (s : str) : str :=
  if syn_ident_ok U s then s else r_hash ++ s.

(** ident.rs:28-30 [rs_as_py] *)
Definition rs_as_py (s : str) : str :=
  match strip_prefix r_hash s with Some t => t | None => s end.

(** ident.rs:6-9 [from_rs], 11-14 [from_py]; 16-22 [into_rs]/[as_rs]; 24-26 [as_py].
    The [debug_assert!]s on the empty string are made explicit in the [_chk] variants. *)
Definition ident_from_rs (s : str) : ident := s.
Definition ident_from_py (U : uni) (s : str) : ident := py_to_rs U s.
Definition as_rs (i : ident) : str := i.
Definition as_py (i : ident) : str := rs_as_py i.

(** ident.rs:11-14 with the debug assertion. *)
Definition ident_from_py_chk (dbg : bool) (U : uni) (s : str) : outcome ident :=
  match s with
  | [] => if dbg then Panic PDebugAssert else Ok (ident_from_py U s)
  | _ => Ok (ident_from_py U s)
  end.

(** ident.rs:41-53 [TryFrom<Ident> for syn::Ident]: [Err] is a [syn::Error]. *)
Definition ident_to_syn (U : uni) (i : ident) : outcome ident :=
  if syn_ident_ok U (as_rs i) then Ok i else Err ESyn.

(** ident.rs:61-65 [Ord for Ident] *)
Definition ident_cmp (a b : ident) : comparison := str_cmp (as_py a) (as_py b).
