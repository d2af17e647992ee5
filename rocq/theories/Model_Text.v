(** * Model of utils/text.rs *)
From Verif Require Import Base.

(** [str::lines]: pieces terminated by '\n'; a '\r' right before the '\n' is dropped; no empty
    last piece. *)
Definition strip_cr (s : str) : str :=
  match strip_suffix [c_cr] s with Some t => t | None => s end.
Fixpoint lines_of (pieces : list str) : list str :=
  match pieces with
  | [] => []
  | [x] => match x with [] => [] | _ => [x] end      (* not terminated by '\n' *)
  | x :: t => strip_cr x :: lines_of t
  end.
Definition lines (s : str) : list str := lines_of (split_char c_nl s).

(** text.rs:10-14: [while docstring.ends_with('/') { pop(); truncate(trim_end().len()) }].
    The fuel bounds the number of iterations. *)
Fixpoint strip_slashes (fuel : nat) (s : str) : outcome str :=
  match fuel with
  | O => OutOfFuel
  | S f => match strip_suffix [c_slash] s with
           | Some t => strip_slashes f (trim_end t)
           | None => Ok s
           end
  end.

(** text.rs:41-52 [conditioned_dedup]: [String::retain] with the closure's state [previous]. *)
Fixpoint dedup_from (pred : char -> bool) (previous : option char) (s : str) : str :=
  match s with
  | [] => []
  | c :: t =>
      if pred c then
        if option_eqb N.eqb (Some c) previous then dedup_from pred (Some c) t
        else c :: dedup_from pred (Some c) t
      else c :: dedup_from pred None t
  end.
Definition conditioned_dedup (pred : char -> bool) (s : str) : str := dedup_from pred None s.

(** text.rs:25-27: [while starts_with('\n') { remove(0) }] *)
Definition drop_leading_nl (s : str) : str := drop_while (fun c => (c =? c_nl)%N) s.

(** text.rs:30-32: [while ends_with("\n\n") { pop() }], on the reversed string. *)
Fixpoint pop_nl_rev (r : str) : str :=
  match r with
  | a :: t => match t with
              | b :: _ => if ((a =? c_nl) && (b =? c_nl))%N then pop_nl_rev t else r
              | [] => r
              end
  | [] => []
  end.

(** text.rs:28-35 *)
Definition end_with_one_nl (s : str) : str :=
  if ends_with [c_nl] s then rev (pop_nl_rev (rev s)) else s ++ [c_nl].

(** text.rs:17 and 20: the two predicates *)
Definition pred_ws (c : char) : bool := is_ws c && negb (c =? c_nl)%N.
Definition pred_tick (c : char) : bool := (c =? c_tick)%N.

(** text.rs:2-39 [format_docstring] *)
Definition format_docstring (doc : str) : outcome str :=
  let s1 := join [c_nl] (map trim (lines doc)) in
  let! s2 := strip_slashes (S (length s1)) s1 in
  let s3 := conditioned_dedup pred_ws s2 in
  let s4 := conditioned_dedup pred_tick s3 in
  let s5 := if contains_char c_nl s4 then end_with_one_nl (drop_leading_nl s4) else s4 in
  Ok (c_sp :: s5).
