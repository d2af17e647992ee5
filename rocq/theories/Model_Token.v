(** * Token streams as text

    [proc_macro2::TokenStream::to_string] (proc_macro2 1.0.89, fallback implementation, from its documentation):
    a stream is flat here, with opening and closing delimiters. *)
From Coq Require Import HexadecimalN.
From Verif Require Import Base Spec_Lex.

(** ** String literals: [Literal::string]
    [quote::ToTokens for str] makes such a literal.  It uses [char::escape_debug], but leaves ['] alone, and writes the null
    character as [\0], or as [\x00] in front of an octal digit. [odd c] says that [c] is written as [\u{..}]: characters that
    cannot be printed or that extend a grapheme; Unicode data, kept abstract. *)
Fixpoint hex_str (n : Hexadecimal.uint) : str :=
  match n with
  | Hexadecimal.Nil => []
  | Hexadecimal.D0 n => ch "0" :: hex_str n | Hexadecimal.D1 n => ch "1" :: hex_str n | Hexadecimal.D2 n => ch "2" :: hex_str n
  | Hexadecimal.D3 n => ch "3" :: hex_str n | Hexadecimal.D4 n => ch "4" :: hex_str n | Hexadecimal.D5 n => ch "5" :: hex_str n
  | Hexadecimal.D6 n => ch "6" :: hex_str n | Hexadecimal.D7 n => ch "7" :: hex_str n | Hexadecimal.D8 n => ch "8" :: hex_str n
  | Hexadecimal.D9 n => ch "9" :: hex_str n | Hexadecimal.Da n => ch "a" :: hex_str n | Hexadecimal.Db n => ch "b" :: hex_str n
  | Hexadecimal.Dc n => ch "c" :: hex_str n | Hexadecimal.Dd n => ch "d" :: hex_str n | Hexadecimal.De n => ch "e" :: hex_str n
  | Hexadecimal.Df n => ch "f" :: hex_str n
  end.
Definition escape_char (odd : char -> bool) (c : char) : str :=
  if (c =? 9)%N then u "\t" else if (c =? 10)%N then u "\n" else if (c =? 13)%N then u "\r"
  else if (c =? c_quote)%N then [c_back; c_quote] else if (c =? c_back)%N then [c_back; c_back]
  else if (c =? c_tick')%N then [c]
  else if odd c then u "\u{" ++ hex_str (N.to_hex_uint c) ++ u "}" else [c].
Definition octal (s : str) : bool := match s with c :: _ => (ch "0" <=? c)%N && (c <=? ch "7")%N | [] => false end.
Fixpoint escape (odd : char -> bool) (s : str) : str :=
  match s with
  | [] => []
  | c :: r => (if (c =? 0)%N then (if octal r then u "\x00" else u "\0") else escape_char odd c) ++ escape odd r
  end.

(** ** [Display for TokenStream] and [Display for Group] *)
Definition open_char (d : delim) : char := match d with Paren => ch "(" | Bracket => ch "[" | Brace => ch "{" end.
Definition close_char (d : delim) : char := match d with Paren => ch ")" | Bracket => ch "]" | Brace => ch "}" end.
Definition tok_text (odd : char -> bool) (t : tok) : str :=
  match t with
  | TWord s | TNum s => s
  | TPunct c _ => [c]
  | TLit s => c_quote :: escape odd s ++ [c_quote]
  | TOpen d => [open_char d]
  | TClose d => [close_char d]
  end.
(** What stands between two tokens *)
Definition gap (a b : tok) : str :=
  match a, b with
  | TOpen Brace, _ | _, TClose Brace => [c_sp]
  | TOpen _, _ | _, TClose _ => []
  | TPunct _ true, _ => []
  | _, _ => [c_sp]
  end.
Fixpoint text_from (odd : char -> bool) (a : tok) (l : list tok) : str :=
  match l with [] => [] | b :: r => gap a b ++ tok_text odd b ++ text_from odd b r end.
Definition text_of (odd : char -> bool) (l : list tok) : str :=
  match l with [] => [] | a :: r => tok_text odd a ++ text_from odd a r end.

(** ** Templates: the tokens of a piece of Rust code in [quote!]
    Only the characters of an operator are joint, e.g. not the two in [<::]. *)
Definition operators : list str := map u ["::"; "->"; ">>"; ".."; "=>"; "=="; "&&"; "||"]%string.
Fixpoint quoted (l : list tok) : list tok :=
  match l with
  | TPunct c true :: (TPunct d _ :: r) as l' =>
      if (c =? c_tick')%N then TPunct c true :: quoted l'
      else if mem_str [c; d] operators then TPunct c true :: TPunct d false :: quoted r
      else TPunct c false :: quoted l'
  | t :: r => t :: quoted r
  | [] => []
  end.
(** A text that does not lex gives a token that no text has. *)
Definition rs (s : string) : list tok := match lex uni_ascii (u s) with Some l => quoted l | None => [TPunct 0%N true] end.
