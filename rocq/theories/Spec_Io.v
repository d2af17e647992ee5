(** * What Python's [print] does, and well-behaved computations *)
From Verif Require Import Base Model_Io.

(** Does not assign [sys.stdout] or [sys.stderr] itself. *)
Definition keeps_streams {T} (f : proc -> outcome T * proc) : Prop :=
  forall p, p_out (snd (f p)) = p_out p /\ p_err (snd (f p)) = p_err p.

(** [print(text)]: [RuntimeError] if the attribute of [sys] is gone, silent if it is [None],
    [AttributeError] if the object has no [write]. *)
Definition py_write (o : option pyobj) (text : str) (p : proc) : outcome unit * proc :=
  match o with
  | Some (OStream n) => (Ok tt, mk_proc (p_out p) (p_err p) (p_log p ++ [(n, text)]))
  | Some ONone => (Ok tt, p)
  | Some OFunction | None => (Err EPy, p)
  end.
Inductive target := ToOut | ToErr.
Definition py_print (t : target) (text : str) (p : proc) : outcome unit * proc :=
  py_write (match t with ToOut => p_out p | ToErr => p_err p end) text p.
(** A module that prints these texts while it is being read, and stops at the first exception *)
Fixpoint py_prints (l : list (target * str)) (p : proc) : outcome unit * proc :=
  match l with
  | [] => (Ok tt, p)
  | (t, s) :: r => match py_print t s p with (Ok _, q) => py_prints r q | e => e end
  end.
(** What of that reaches the streams if it is not redirected: *)
Definition texts_to (t : target) (l : list (target * str)) : list str :=
  map snd (filter (fun e => match fst e, t with ToOut, ToOut | ToErr, ToErr => true | _, _ => false end) l).
