(** * Rust's lexical structure (C67)

    The Rust reference, chapter "Lexical structure", as far as generated code needs it, and
    proc_macro2 1.0.89 ([TokenStream::from_str], fallback implementation, from its documentation):
    a machine that reads a text character by character.  Left out, and rejected: comments, character,
    byte and raw string literals, floating-point numbers, and string literals that contain a bare
    carriage return or a line continuation. *)
From Coq Require Import HexadecimalN.
From Verif Require Import Base.

Inductive delim := Paren | Bracket | Brace.
(** A punctuation character is joint if the next token is one, too, and follows at once. *)
Inductive tok :=
| TWord (s : str)                       (* identifier (also raw), keyword, _ *)
| TPunct (c : char) (joint : bool)
| TNum (s : str)
| TLit (s : str)                        (* the string that the literal stands for *)
| TOpen (d : delim)
| TClose (d : delim).

Definition punct_chars : str := u "~!@#$%^&*-=+|;:,<.>/?'".
Definition is_punct (c : char) : bool := existsb (N.eqb c) punct_chars.
Definition is_space (c : char) : bool := existsb (N.eqb c) [32; 10; 13; 9]%N.
Definition word_start (U : uni) (c : char) : bool := (c =? c_us)%N || xid_start U c.
Definition c_quote : char := ch """".
Definition c_tick' : char := ch "'".
Definition c_back : char := ch "\".
Definition c_hash : char := ch "#".

(** Hexadecimal digits *)
Definition hex_digit (c : char) : option (Hexadecimal.uint -> Hexadecimal.uint) :=
  if (c =? ch "0")%N then Some Hexadecimal.D0 else if (c =? ch "1")%N then Some Hexadecimal.D1
  else if (c =? ch "2")%N then Some Hexadecimal.D2 else if (c =? ch "3")%N then Some Hexadecimal.D3
  else if (c =? ch "4")%N then Some Hexadecimal.D4 else if (c =? ch "5")%N then Some Hexadecimal.D5
  else if (c =? ch "6")%N then Some Hexadecimal.D6 else if (c =? ch "7")%N then Some Hexadecimal.D7
  else if (c =? ch "8")%N then Some Hexadecimal.D8 else if (c =? ch "9")%N then Some Hexadecimal.D9
  else if (c =? ch "a")%N || (c =? ch "A")%N then Some Hexadecimal.Da else if (c =? ch "b")%N || (c =? ch "B")%N then Some Hexadecimal.Db
  else if (c =? ch "c")%N || (c =? ch "C")%N then Some Hexadecimal.Dc else if (c =? ch "d")%N || (c =? ch "D")%N then Some Hexadecimal.Dd
  else if (c =? ch "e")%N || (c =? ch "E")%N then Some Hexadecimal.De else if (c =? ch "f")%N || (c =? ch "F")%N then Some Hexadecimal.Df
  else None.
Fixpoint read_hex (s : str) : option Hexadecimal.uint :=
  match s with
  | [] => Some Hexadecimal.Nil
  | c :: r => match hex_digit c, read_hex r with Some d, Some n => Some (d n) | _, _ => None end
  end.
Definition hex_value (s : str) : option N := option_map N.of_hex_uint (read_hex s).
(** Unicode scalar values *)
Definition scalar (c : N) : bool := (c <? 55296)%N || ((57343 <? c) && (c <? 1114112))%N.

(** ** The machine *)
Inductive lex_state :=
| LStart
| LWord (s : str)                       (* in a word *)
| LRaw                                  (* after r# *)
| LNum (s : str)
| LPunct (c : char)
| LTick                                 (* after ' *)
| LLife (s : str)                       (* in the name of a lifetime *)
| LString (s : str)                     (* in a string literal; what it stands for so far *)
| LEscape (s : str)                     (* after \ *)
| LHex (s h : str)                      (* after \x *)
| LOpenU (s : str)                      (* after \u *)
| LUni (s h : str).                     (* in \u{..} *)

Definition lex_start (U : uni) (c : char) : option (list tok * lex_state) :=
  if is_space c then Some ([], LStart)
  else if word_start U c then Some ([], LWord [c])
  else if ascii_digit c then Some ([], LNum [c])
  else if (c =? c_quote)%N then Some ([], LString [])
  else if (c =? c_tick')%N then Some ([], LTick)
  else if (c =? c_slash)%N then None
  else if is_punct c then Some ([], LPunct c)
  else if (c =? ch "(")%N then Some ([TOpen Paren], LStart) else if (c =? ch ")")%N then Some ([TClose Paren], LStart)
  else if (c =? ch "[")%N then Some ([TOpen Bracket], LStart) else if (c =? ch "]")%N then Some ([TClose Bracket], LStart)
  else if (c =? ch "{")%N then Some ([TOpen Brace], LStart) else if (c =? ch "}")%N then Some ([TClose Brace], LStart)
  else None.
(** The token [t] is complete, and [c] comes next. *)
Definition lex_after (U : uni) (t : tok) (c : char) : option (list tok * lex_state) :=
  match lex_start U c with Some (l, s) => Some (t :: l, s) | None => None end.
Definition simple_escape (c : char) : option char :=
  if (c =? ch "0")%N then Some 0%N else if (c =? ch "t")%N then Some 9%N else if (c =? ch "n")%N then Some 10%N else if (c =? ch "r")%N then Some 13%N
  else if (c =? c_quote)%N || (c =? c_tick')%N || (c =? c_back)%N then Some c else None.
Definition lex_step (U : uni) (st : lex_state) (c : char) : option (list tok * lex_state) :=
  match st with
  | LStart => lex_start U c
  | LWord s =>
      if xid_continue U c then Some ([], LWord (s ++ [c]))
      else if (c =? c_hash)%N && str_eqb s (u "r") then Some ([], LRaw)
      else if (c =? c_quote)%N || (c =? c_tick')%N || (c =? c_hash)%N then None      (* reserved prefixes *)
      else lex_after U (TWord s) c
  | LRaw => if word_start U c then Some ([], LWord (u "r#" ++ [c])) else None
  | LNum s =>
      if xid_continue U c then Some ([], LNum (s ++ [c]))
      else if (c =? c_quote)%N || (c =? c_tick')%N || (c =? c_hash)%N || (c =? c_dot)%N then None
      else lex_after U (TNum s) c
  | LPunct p => lex_after U (TPunct p (is_punct c)) c
  | LTick => if word_start U c then Some ([TPunct c_tick' true], LLife [c]) else None
  | LLife s =>
      if xid_continue U c then Some ([], LLife (s ++ [c]))
      else if (c =? c_quote)%N || (c =? c_tick')%N || (c =? c_hash)%N then None
      else lex_after U (TWord s) c
  | LString s =>
      if (c =? c_quote)%N then Some ([TLit s], LStart)
      else if (c =? c_back)%N then Some ([], LEscape s)
      else if (c =? c_cr)%N then None
      else Some ([], LString (s ++ [c]))
  | LEscape s =>
      match simple_escape c with
      | Some d => Some ([], LString (s ++ [d]))
      | None => if (c =? ch "x")%N then Some ([], LHex s []) else if (c =? ch "u")%N then Some ([], LOpenU s) else None
      end
  | LHex s [] => Some ([], LHex s [c])
  | LHex s h => match hex_value (h ++ [c]) with Some n => if (n <? 128)%N then Some ([], LString (s ++ [n])) else None | None => None end
  | LOpenU s => if (c =? ch "{")%N then Some ([], LUni s []) else None
  | LUni s h =>
      if (c =? ch "}")%N then match h, hex_value h with _ :: _, Some n => if scalar n then Some ([], LString (s ++ [n])) else None | _, _ => None end
      else Some ([], LUni s (h ++ [c]))
  end.
Fixpoint lex_run (U : uni) (st : lex_state) (s : str) : option (list tok) :=
  match s with
  | [] => match st with
          | LStart => Some []
          | LWord s | LLife s => Some [TWord s]
          | LNum s => Some [TNum s]
          | LPunct c => Some [TPunct c false]
          | _ => None
          end
  | c :: r => match lex_step U st c with Some (l, st') => option_map (app l) (lex_run U st' r) | None => None end
  end.
Definition lex (U : uni) (s : str) : option (list tok) := lex_run U LStart s.

(** ** Brackets match *)
Definition delim_eqb (a b : delim) : bool := match a, b with Paren, Paren | Bracket, Bracket | Brace, Brace => true | _, _ => false end.
Fixpoint closes (st : list delim) (l : list tok) : option (list delim) :=
  match l with
  | [] => Some st
  | TOpen d :: r => closes (d :: st) r
  | TClose d :: r => match st with e :: st' => if delim_eqb d e then closes st' r else None | [] => None end
  | _ :: r => closes st r
  end.
Definition balanced (l : list tok) : Prop := forall st, closes st l = Some st.
