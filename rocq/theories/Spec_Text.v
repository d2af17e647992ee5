(** * What documentation readers rely on *)
From Verif Require Import Base.

(** Characters that carry the words: everything but white space and backticks. *)
Definition is_word_char (c : char) : bool := negb (is_ws c) && negb (c =? 96)%N.
Definition words (s : str) : str := filter is_word_char s.

(** The lines of a text, by position: [l] is a line of [s] if it is delimited by line breaks or
    the ends of the text and contains none. *)
Definition is_line (l s : str) : Prop :=
  ~ In 10%N l /\
  exists a b, s = a ++ l ++ b /\ (a = [] \/ exists a', a = a' ++ [10%N]) /\
              (b = [] \/ exists b', b = 10%N :: b').

(** CommonMark: a line that opens a fenced code block (at most three blanks, then three
    backticks or tildes), and a line of an indented code block (four blanks or a tab). *)
Fixpoint skip_blanks (n : nat) (s : str) : str :=
  match n, s with
  | S m, c :: t => if (c =? 32)%N then skip_blanks m t else s
  | _, _ => s
  end.
Definition opens_backtick_fence (l : str) : bool := starts_with [96; 96; 96]%N (skip_blanks 3 l).
Definition opens_tilde_fence (l : str) : bool := starts_with [126; 126; 126]%N (skip_blanks 3 l).
Definition indented_code (l : str) : bool :=
  starts_with [32; 32; 32; 32]%N l || starts_with [9]%N (skip_blanks 3 l).
Definition blank (s : str) : Prop := forall c, In c s -> is_ws c = true.
