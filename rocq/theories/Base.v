(** * Base: strings, outcomes and the Rust standard-library string functions

    A Rust [String]/[&str] is modelled by the list of its Unicode scalar values
    (code points).  Every string function used by the engine is character based,
    and byte-wise UTF-8 comparison coincides with code-point comparison, so no
    byte-level encoding is needed.  Panics are explicit [Panic] outcomes. *)
From Coq Require Export Ascii String.
From Coq Require Export List NArith ZArith Bool Lia.
From Coq Require Export ZifyBool ZifyNat ZifyN.
Export ListNotations.
#[global] Open Scope list_scope.

Notation char := N.
Notation str := (list N).

(** ASCII literal -> code points.  [u "abc"] *)
Definition u (s : string) : str := map N_of_ascii (list_ascii_of_string s).
(** The code point of a one-character literal. *)
Definition ch (a : ascii) : char := N_of_ascii a.
Definition c_dot   : char := 46%N.   (* '.' *)
Definition c_colon : char := 58%N.   (* ':' *)
Definition c_us    : char := 95%N.   (* '_' *)
Definition c_bar   : char := 124%N.  (* '|' *)
Definition c_comma : char := 44%N.   (* ',' *)
Definition c_lbr   : char := 91%N.   (* '[' *)
Definition c_rbr   : char := 93%N.   (* ']' *)
Definition c_nl    : char := 10%N.   (* '\n' *)
Definition c_cr    : char := 13%N.   (* '\r' *)
Definition c_sp    : char := 32%N.   (* ' ' *)
Definition c_slash : char := 47%N.   (* '/' *)
Definition c_tick  : char := 96%N.   (* '`' *)

Fixpoint str_eqb (a b : str) : bool :=
  match a, b with
  | [], [] => true
  | x :: a', y :: b' => N.eqb x y && str_eqb a' b'
  | _, _ => false
  end.

(** [slice::contains] for a list of strings. *)
Definition mem_str (s : str) (l : list str) : bool := existsb (str_eqb s) l.

(** ** Outcomes: [Result] plus the ways a call can fail to return *)
Inductive panic_kind :=
| PUnreachable      (* unreachable!() *)
| PUnwrap           (* Option/Result::unwrap() on None/Err *)
| PIndex            (* slice index / Vec::remove out of bounds *)
| POverflow         (* integer overflow, only with overflow checks *)
| PDebugAssert      (* debug_assert!, only with debug assertions *)
| PAssert.          (* assert!() *)

(** Engine errors: [PyBindgenError] in utils/error.rs:1-18.  The payloads are
    human-readable and not modelled, except for the variant itself. *)
Inductive error_kind := EIo | EPy | EDowncast | ESyn | EParse | ECodegen.

Inductive outcome (A : Type) : Type :=
| Ok (a : A)
| Err (e : error_kind)
| Panic (p : panic_kind)
| OutOfFuel.              (* the model ran out of recursion fuel: divergence *)
Arguments Ok {A} a.
Arguments Err {A} e.
Arguments Panic {A} p.
Arguments OutOfFuel {A}.

Definition obind {A B} (m : outcome A) (f : A -> outcome B) : outcome B :=
  match m with
  | Ok a => f a
  | Err e => Err e
  | Panic p => Panic p
  | OutOfFuel => OutOfFuel
  end.
Declare Scope outcome_scope.
Delimit Scope outcome_scope with outcome.
Notation "'let!' x ':=' m 'in' k" := (obind m (fun x => k))
  (at level 200, x pattern, m at level 100, k at level 200, right associativity) : outcome_scope.
#[global] Open Scope outcome_scope.

Definition omap {A B} (f : A -> B) (m : outcome A) : outcome B :=
  obind m (fun a => Ok (f a)).

(** [iter().map(f).collect::<Result<Vec<_>>>()]: stops at the first failure. *)
Section mapM.
  Context {A B : Type} (f : A -> outcome B).
  Fixpoint mapM (l : list A) : outcome (list B) :=
    match l with
    | [] => Ok []
    | x :: t => let! y := f x in let! ys := mapM t in Ok (y :: ys)
    end.
End mapM.

(** [Option::unwrap] / [Option::unwrap_or_else(|| unreachable!())] *)
Definition unwrap {A} (p : panic_kind) (o : option A) : outcome A :=
  match o with Some a => Ok a | None => Panic p end.

(** ** str methods *)

(** [str::strip_prefix] *)
Fixpoint strip_prefix (p s : str) : option str :=
  match p with
  | [] => Some s
  | x :: p' => match s with
               | y :: s' => if N.eqb x y then strip_prefix p' s' else None
               | [] => None
               end
  end.

(** [str::starts_with] *)
Definition starts_with (p s : str) : bool :=
  match strip_prefix p s with Some _ => true | None => false end.

(** [str::strip_suffix] and [str::ends_with] *)
Definition strip_suffix (p s : str) : option str :=
  match strip_prefix (rev p) (rev s) with Some t => Some (rev t) | None => None end.
Definition ends_with (p s : str) : bool :=
  match strip_suffix p s with Some _ => true | None => false end.

(** [str::split(char)]: always yields at least one piece. *)
Fixpoint split_char (c : char) (s : str) : list str :=
  match s with
  | [] => [[]]
  | x :: t => if N.eqb x c then [] :: split_char c t
              else match split_char c t with
                   | p :: ps => (x :: p) :: ps
                   | [] => [[x]]          (* unreachable: split never yields [] *)
                   end
  end.

(** [str::split("::")]: two-character pattern, matched left to right without overlap. *)
Fixpoint split_colons (s : str) : list str :=
  match s with
  | [] => [[]]
  | x :: t =>
      match t with
      | y :: t' =>
          if N.eqb x c_colon && N.eqb y c_colon then [] :: split_colons t'
          else match split_colons t with
               | p :: ps => (x :: p) :: ps
               | [] => [[x]]
               end
      | [] => [[x]]
      end
  end.

(** [[String]::join(sep)] *)
Fixpoint join (sep : str) (l : list str) : str :=
  match l with
  | [] => []
  | [x] => x
  | x :: t => x ++ sep ++ join sep t
  end.

(** [str::matches(char).count()] *)
Fixpoint count_char (c : char) (s : str) : N :=
  match s with
  | [] => 0%N
  | x :: t => ((if N.eqb x c then 1 else 0) + count_char c t)%N
  end.

(** [str::matches("...").count()]: non-overlapping, left to right.  [fuel] only
    bounds the scan and is instantiated with the length of the string. *)
Fixpoint count_str_fuel (fuel : nat) (p s : str) : N :=
  match fuel with
  | O => 0%N
  | S f =>
      match strip_prefix p s with
      | Some r => (1 + count_str_fuel f p r)%N
      | None => match s with [] => 0%N | _ :: t => count_str_fuel f p t end
      end
  end.
Definition count_str (p s : str) : N := count_str_fuel (S (length s)) p s.

(** [str::contains(&str)] *)
Fixpoint contains_str (p s : str) : bool :=
  starts_with p s || match s with [] => false | _ :: t => contains_str p t end.

(** [str::contains(char)] *)
Definition contains_char (c : char) (s : str) : bool := existsb (N.eqb c) s.

(** [char::is_whitespace]: the 25 code points with property White_Space. *)
Definition is_ws (c : char) : bool :=
  ((9 <=? c) && (c <=? 13) || (c =? 32) || (c =? 133) || (c =? 160) || (c =? 5760)
   || ((8192 <=? c) && (c <=? 8202)) || (c =? 8232) || (c =? 8233) || (c =? 8239)
   || (c =? 8287) || (c =? 12288))%N.

Fixpoint drop_while (f : char -> bool) (s : str) : str :=
  match s with [] => [] | x :: t => if f x then drop_while f t else s end.
Definition trim_start (s : str) : str := drop_while is_ws s.
Definition trim_end (s : str) : str := rev (drop_while is_ws (rev s)).
(** [str::trim] *)
Definition trim (s : str) : str := trim_end (trim_start s).

(** Lexicographic comparison of [&str]. *)
Fixpoint str_cmp (a b : str) : comparison :=
  match a, b with
  | [], [] => Eq
  | [], _ :: _ => Lt
  | _ :: _, [] => Gt
  | x :: a', y :: b' => match N.compare x y with Eq => str_cmp a' b' | r => r end
  end.

(** [usize::to_string] (decimal, no leading zeros). *)
Fixpoint dec_digits (fuel : nat) (n : N) (acc : str) : str :=
  match fuel with
  | O => acc
  | S f => let acc' := ((48 + n mod 10)%N) :: acc in
           if (n <? 10)%N then acc' else dec_digits f (n / 10)%N acc'
  end.
Definition dec (n : N) : str := dec_digits (S (N.to_nat (N.log2 n))) n [].

(** [Itertools::unique()]: keep the first occurrence of every element. *)
Section unique.
  Context {A : Type} (eqb : A -> A -> bool).
  Fixpoint unique_from (seen l : list A) : list A :=
    match l with
    | [] => []
    | x :: t => if existsb (eqb x) seen then unique_from seen t
                else x :: unique_from (x :: seen) t
    end.
  Definition unique (l : list A) : list A := unique_from [] l.
End unique.

(** Element-wise list equality, prefix test on slices ([[T]::starts_with]). *)
Section leqb.
  Context {A : Type} (eqb : A -> A -> bool).
  Fixpoint list_eqb (a b : list A) : bool :=
    match a, b with
    | [], [] => true
    | x :: a', y :: b' => eqb x y && list_eqb a' b'
    | _, _ => false
    end.
  Fixpoint slice_starts_with (p l : list A) : bool :=
    match p, l with
    | [], _ => true
    | x :: p', y :: l' => eqb x y && slice_starts_with p' l'
    | _ :: _, [] => false
    end.
End leqb.

Definition option_eqb {A} (eqb : A -> A -> bool) (a b : option A) : bool :=
  match a, b with
  | Some x, Some y => eqb x y
  | None, None => true
  | _, _ => false
  end.

(** The Unicode tables used by rustc/syn ([unicode_ident]) and [char::is_alphanumeric]
    are far too large to copy; they are a parameter of the model.  [uni_ok] is the only
    thing ever assumed about them: agreement with the ASCII part of the tables, and
    that XID_Start is included in XID_Continue. *)
Record uni := mk_uni {
  xid_start : char -> bool;
  xid_continue : char -> bool;
  alphanumeric : char -> bool
}.

Definition ascii_letter (c : char) : bool :=
  ((65 <=? c) && (c <=? 90) || (97 <=? c) && (c <=? 122))%N.
Definition ascii_digit (c : char) : bool := ((48 <=? c) && (c <=? 57))%N.

Definition uni_ok (U : uni) : Prop :=
  (forall c, (c < 128)%N -> xid_start U c = ascii_letter c) /\
  (forall c, (c < 128)%N -> xid_continue U c = (ascii_letter c || ascii_digit c || (c =? 95)%N)) /\
  (forall c, (c < 128)%N -> alphanumeric U c = (ascii_letter c || ascii_digit c)) /\
  (forall c, xid_start U c = true -> xid_continue U c = true).

(** A concrete instance: plain ASCII. Used to run the model on examples. *)
Definition uni_ascii : uni := {|
  xid_start := fun c => ascii_letter c && (c <? 128)%N;
  xid_continue := fun c => (ascii_letter c || ascii_digit c || (c =? 95)%N) && (c <? 128)%N;
  alphanumeric := fun c => (ascii_letter c || ascii_digit c) && (c <? 128)%N |}.
