(** * Model of utils/io.rs *)
From Verif Require Import Base.

(** What [sys.stdout] may refer to: an object with a [write] method, a function object, or [None]. *)
Inductive pyobj := OStream (n : nat) | OFunction | ONone.
(** The attributes of [sys] ([None]: deleted), and what was written to the streams so far *)
Record proc := mk_proc { p_out : option pyobj; p_err : option pyobj; p_log : list (nat * str) }.

(** io.rs:24: the evaluated text is [lambda: type(..)], so the object is the function, not the class it would make. *)
Definition suppressed_output : pyobj := OFunction.

Definition set_out (o : option pyobj) (p : proc) : proc := mk_proc o (p_err p) (p_log p).
Definition set_err (o : option pyobj) (p : proc) : proc := mk_proc (p_out p) o (p_log p).

(** io.rs:4-44. Importing [sys], evaluating the lambda and assigning to attributes of [sys] are taken to succeed. *)
Definition with_suppressed {T} (so se : bool) (f : proc -> outcome T * proc) (p : proc) : outcome T * proc :=
  if negb so && negb se then f p
  else
    match p_out p, p_err p with
    | Some oo, Some oe =>
        let p1 := if so then set_out (Some suppressed_output) p else p in
        let p2 := if se then set_err (Some suppressed_output) p1 else p1 in
        match f p2 with
        | (Ok r, q) =>
            let q1 := if so then set_out (Some oo) q else q in
            let q2 := if se then set_err (Some oe) q1 else q1 in
            (Ok r, q2)
        | (e, q) => (e, q)      (* line 33: [f()?] *)
        end
    | _, _ => (Err EPy, p)
    end.
