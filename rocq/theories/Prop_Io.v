(** * Property theorems: output redirection and entry points (C44, C45, C52) *)
From Verif Require Import Base Model_Ident Model_Path Model_Config Model_World Model_Out Model_Function Model_Module Model_Parse
  Model_Codegen Model_Io Model_Build Spec_Api Spec_Io Proof_Io.

Definition ex_proc : proc := mk_proc (Some (OStream 1)) (Some (OStream 2)) [].
Definition ex_fail (p : proc) : outcome unit * proc := (Err EPy, p).

(** ** C44
    The full claim is about every outcome of the wrapped computation; it fails for all but [Ok]
    ([C44_left_suppressed_refuted]). *)
Theorem C44_restored_on_success_partial : forall T so se (f : proc -> outcome T * proc) p r q,
  with_suppressed so se f p = (Ok r, q) ->
  (so = true -> p_out q = p_out p) /\ (se = true -> p_err q = p_err p).
Proof. exact restored. Qed.
Print Assumptions C44_restored_on_success_partial.
Theorem C44_both_kept_partial : forall T so se (f : proc -> outcome T * proc) p r q, keeps_streams f ->
  with_suppressed so se f p = (Ok r, q) -> p_out q = p_out p /\ p_err q = p_err p.
Proof. exact restored_all. Qed.
Print Assumptions C44_both_kept_partial.
Theorem C44_nothing_to_suppress : forall T (f : proc -> outcome T * proc) p, with_suppressed false false f p = f p.
Proof. exact not_suppressed. Qed.
Print Assumptions C44_nothing_to_suppress.
Example C44_ex : keeps_streams (py_prints []) /\
  with_suppressed true true (fun p => (Ok 7, set_out None p)) ex_proc = (Ok 7, ex_proc).
Proof. split; [exact (print_streams [])|reflexivity]. Qed.

(** Whenever the wrapped computation fails, the streams stay replaced. *)
Theorem C44_left_suppressed_refuted : forall T so se (f : proc -> outcome T * proc) p e q, keeps_streams f ->
  p_out p <> None -> p_err p <> None -> so || se = true ->
  with_suppressed so se f p = (e, q) -> (forall r, e <> Ok r) ->
  p_out q = (if so then Some OFunction else p_out p) /\ p_err q = (if se then Some OFunction else p_err p).
Proof. exact not_restored. Qed.
Print Assumptions C44_left_suppressed_refuted.
Example C44_ex_refuted : keeps_streams ex_fail /\
  with_suppressed true true ex_fail ex_proc = (Err EPy, mk_proc (Some OFunction) (Some OFunction) []).
Proof. split; [intros p; split; reflexivity|reflexivity]. Qed.

(** ** C45
    Nothing leaks; but the first print raises, so "sees no error" fails. *)
Theorem C45_nothing_leaks_partial : forall l p r q,
  with_suppressed true true (py_prints l) p = (r, q) -> p_log q = p_log p.
Proof. exact nothing_leaks. Qed.
Print Assumptions C45_nothing_leaks_partial.
Theorem C45_same_result_partial : forall T so se (f : proc -> outcome T * proc) p r q,
  with_suppressed so se f p = (Ok r, q) -> exists p' q', f p' = (Ok r, q') /\ p_log q = p_log q' /\ p_log p' = p_log p /\
    (so = false -> p_out p' = p_out p /\ p_out q = p_out q') /\ (se = false -> p_err p' = p_err p /\ p_err q = p_err q').
Proof. exact same_result. Qed.
Print Assumptions C45_same_result_partial.
Theorem C45_print_fails_refuted : forall l p so se, p_out p <> None -> p_err p <> None ->
  (so = true /\ texts_to ToOut l <> []) \/ (se = true /\ texts_to ToErr l <> []) ->
  exists k, fst (with_suppressed so se (py_prints l) p) = Err k.
Proof. exact print_fails. Qed.
Print Assumptions C45_print_fails_refuted.
Example C45_ex :
  py_prints [(ToErr, u "warn"); (ToOut, u "hi")] ex_proc = (Ok tt, mk_proc (Some (OStream 1)) (Some (OStream 2)) [(2, u "warn"); (1, u "hi")]) /\
  fst (with_suppressed true true (py_prints [(ToOut, u "hi")]) ex_proc) = Err EPy /\
  with_suppressed true false (py_prints [(ToErr, u "warn")]) ex_proc = (Ok tt, mk_proc (Some (OStream 1)) (Some (OStream 2)) [(2, u "warn")]).
Proof. repeat split. Qed.

(** ** C52 *)
Theorem C52_build : forall x numpy fuel h c out r ev, cg_build x numpy fuel h c out = (r, ev) ->
  (ev = [] /\ (forall t, cg_generate x numpy fuel c <> Ok t) /\ (forall v, r <> Ok v)) \/
  (exists toks, cg_generate x numpy fuel c = Ok toks /\ ev = [EvWrite out (h_show h toks)] /\
     r = if h_ok h (EvWrite out (h_show h toks)) then Ok tt else Err EIo).
Proof. exact build_events. Qed.
Print Assumptions C52_build.
Theorem C52_command_line : forall x numpy fuel h names out r ev, cli_main x numpy fuel h names out = (r, ev) ->
  (ev = [] /\ r <> Ok tt /\ forall c toks, asks x fuel (map AddName names) cg_new = Ok c -> cg_generate x numpy fuel c = Ok toks ->
     h_pretty h toks = None) \/
  (exists c toks text, asks x fuel (map AddName names) cg_new = Ok c /\ cg_generate x numpy fuel c = Ok toks /\ h_pretty h toks = Some text /\
     match out with
     | None => ev = [EvStdout text]
     | Some p => match h_parent h p with
                 | None => ev = [EvWrite p text]
                 | Some d => ev = [EvMkdir d; EvWrite p text] \/ (ev = [EvMkdir d] /\ h_ok h (EvMkdir d) = false)
                 end
     end /\
     (r = Ok tt <-> forall e, In e ev -> h_ok h e = true)).
Proof. exact cli_events. Qed.
Print Assumptions C52_command_line.
(** The macro has no output but its expansion, which is what the library generates for this one module. *)
Theorem C52_macro : forall x numpy fuel name toks, macro_import x numpy fuel name = Ok toks <->
  exists c, asks x fuel [AddName name] cg_new = Ok c /\ cg_generate x numpy fuel c = Ok toks.
Proof. exact macro_library. Qed.
Print Assumptions C52_macro.

(** A world with one empty module [m] *)
Definition one_module : world :=
  mk_world (fun s => if str_eqb s (u "m") then Some 0%N else None)
    (fun _ a => if str_eqb a (u "__doc__") then Some 1%N else None) (fun _ => u "None") (fun _ => false)
    (fun _ => []) (fun _ => mk_type_facts [] None false false false false false (fun _ => false) [])
    (fun _ => None) (fun _ _ => None) (fun _ => u "m") (fun _ => None) (fun _ => []).
Definition ex_penv : penv := mk_penv (mk_env one_module false uni_ascii) default_config (mk_order (fun _ l => l)).
Definition ex_host (ok : bool) : host := mk_host (fun _ => ok) (fun _ => Some (u "d")) (fun _ => u "text") (fun _ => Some (u "pretty")).
Example C52_ex :
  cli_main ex_penv false 2 (ex_host true) [u "m"] (Some (u "d/o.rs")) = (Ok tt, [EvMkdir (u "d"); EvWrite (u "d/o.rs") (u "pretty")]) /\
  cli_main ex_penv false 2 (ex_host true) [u "nope"] (Some (u "d/o.rs")) = (Panic PUnwrap, []) /\
  cg_build ex_penv false 2 (ex_host true) cg_new (u "o.rs") = (Err ECodegen, []) /\
  (let! c := cg_module_name ex_penv 2 (u "m") cg_new in Ok (cg_build ex_penv false 2 (ex_host true) c (u "o.rs"))) =
    Ok (Ok tt, [EvWrite (u "o.rs") (u "text")]).
Proof. repeat split; vm_compute; reflexivity. Qed.
