(** * Lemmas: the text of a token stream lexes to the stream (C67) *)
From Coq Require Import HexadecimalN HexadecimalFacts.
From Verif Require Import Base Spec_Lex Model_Ident Model_Token Proof_Base.

(** ** Proper token streams *)
Definition plain_word (U : uni) (s : str) : bool := lex_ident_plain U s.
Definition word_ok (U : uni) (s : str) : bool :=
  plain_word U s || match strip_prefix r_hash s with Some t => plain_word U t | None => false end.
Definition num_ok (U : uni) (s : str) : bool := match s with c :: r => ascii_digit c && forallb (xid_continue U) r | [] => false end.
Definition op_char (c : char) : bool := is_punct c && negb (c =? c_tick')%N && negb (c =? c_slash)%N.
(** Every joint character is followed by one, and ['] by a word. *)
Fixpoint proper (U : uni) (l : list tok) : bool :=
  match l with
  | [] => true
  | TWord s :: r => word_ok U s && proper U r
  | TNum s :: r => num_ok U s && proper U r
  | TPunct c false :: r => op_char c && proper U r
  | TPunct c true :: r =>
      if (c =? c_tick')%N then match r with TWord s :: r' => plain_word U s && proper U r' | _ => false end
      else op_char c && match r with TPunct _ _ :: _ => proper U r | _ => false end
  | _ :: r => proper U r
  end.

Lemma len_ind : forall P : list tok -> Prop, (forall l, (forall r, length r < length l -> P r) -> P l) -> forall l, P l.
Proof.
  intros P H. enough (E : forall n l, length l < n -> P l) by (intros l; apply (E (S (length l))); lia).
  induction n as [|n IH]; intros l Hl; [lia|]. apply H. intros r Hr. apply IH. lia.
Qed.

Lemma proper_app : forall U a b, proper U a = true -> proper U b = true -> proper U (a ++ b) = true.
Proof.
  intros U a b. revert a. induction a as [a IH0] using len_ind. intros Ha Hb.
  assert (IH : forall r, length r < length a -> proper U r = true -> proper U (r ++ b) = true) by (intros; now apply IH0). clear IH0. destruct a as [|t r]; [easy|].
  destruct t as [s|c j|s|s|d|d]; cbn [proper app] in *;
    try (apply andb_prop in Ha as [H1 H2]; rewrite H1; cbn [andb]; apply IH; [cbn; lia|easy]); try (apply IH; [cbn; lia|easy]).
  destruct j.
  - destruct (c =? c_tick')%N.
    + destruct r as [|[s| | | | |] r']; try easy. cbn [app]. apply andb_prop in Ha as [H1 H2]. rewrite H1. cbn [andb]. apply IH; [cbn; lia|easy].
    + apply andb_prop in Ha as [H1 H2]. rewrite H1. cbn [andb]. destruct r as [|[ |c' j'| | | |] r']; try easy.
      apply (IH (TPunct c' j' :: r')); [cbn; lia|easy].
  - apply andb_prop in Ha as [H1 H2]. rewrite H1. cbn [andb]. apply IH; [cbn; lia|easy].
Qed.

(** ** More identifiers with a larger Unicode table *)
Definition uni_le (U V : uni) : Prop := (forall c, xid_start U c = true -> xid_start V c = true) /\ (forall c, xid_continue U c = true -> xid_continue V c = true).
Lemma ascii_le : forall U, uni_ok U -> uni_le uni_ascii U.
Proof.
  intros U (H1 & H2 & _). split; intros c H; cbn in H; apply andb_prop in H as [H H']; apply N.ltb_lt in H'.
  - now rewrite H1.
  - now rewrite H2.
Qed.
Lemma plain_le : forall U V s, uni_le U V -> plain_word U s = true -> plain_word V s = true.
Proof.
  intros U V [|c s] [H1 H2] H; [easy|]. cbn in *. apply andb_prop in H as [Ha Hb].
  replace (forallb (xid_continue V) s) with true.
  - rewrite andb_true_r. apply orb_prop in Ha as [-> | Ha]; [easy|]. rewrite (H1 _ Ha). apply orb_true_r.
  - symmetry. rewrite forallb_forall in *. intros; apply H2; now apply Hb.
Qed.
Lemma proper_le : forall U V, uni_le U V -> forall l, proper U l = true -> proper V l = true.
Proof.
  intros U V HU. induction l as [l IH] using len_ind. intros H. destruct l as [|t r]; [easy|].
  destruct t as [s|c j|s|s|d|d]; cbn [proper] in *; try (apply IH; [cbn; lia|easy]).
  - apply andb_prop in H as [H1 H2]. rewrite (IH r) by (easy || (cbn; lia)). rewrite andb_true_r. unfold word_ok in *. apply orb_prop in H1 as [H1 | H1].
    + rewrite (plain_le U V) by easy. easy.
    + destruct (strip_prefix r_hash s); [|easy]. rewrite (plain_le U V _ HU H1). apply orb_true_r.
  - destruct j.
    + destruct (c =? c_tick')%N.
      * destruct r as [|[s| | | | |] r']; try easy. apply andb_prop in H as [H1 H2]. rewrite (plain_le U V _ HU H1). cbn [andb]. apply IH; [cbn; lia|easy].
      * apply andb_prop in H as [H1 H2]. rewrite H1. cbn [andb]. destruct r as [|[ |c' j'| | | |] r']; try easy. apply (IH (TPunct c' j' :: r')); [cbn; lia|easy].
    + apply andb_prop in H as [H1 H2]. rewrite H1. cbn [andb]. apply IH; [cbn; lia|easy].
  - apply andb_prop in H as [H1 H2]. rewrite (IH r) by (easy || (cbn; lia)). rewrite andb_true_r. destruct s as [|c s]; [easy|]. cbn in *.
    apply andb_prop in H1 as [-> H1]. cbn. rewrite forallb_forall in *. intros; apply HU; now apply H1.
Qed.

Section lexing.
  Variable U : uni.
  Hypothesis HU : uni_ok U.
  Let Hs : forall c, (c < 128)%N -> xid_start U c = ascii_letter c. Proof. apply HU. Qed.
  Let Hc : forall c, (c < 128)%N -> xid_continue U c = (ascii_letter c || ascii_digit c || (c =? 95)%N). Proof. apply HU. Qed.
  Let Hsc : forall c, xid_start U c = true -> xid_continue U c = true. Proof. apply HU. Qed.
  Notation run := (lex_run U).

  Lemma start_continue : forall c, word_start U c = true -> xid_continue U c = true.
  Proof.
    intros c H. apply orb_prop in H as [H | H]; [|now apply Hsc]. apply N.eqb_eq in H as ->. rewrite Hc by reflexivity. reflexivity.
  Qed.

  (** Concrete characters *)
  Lemma small_word : forall c, (c < 128)%N -> word_start U c = ((c =? c_us)%N || ascii_letter c).
  Proof. intros c H. unfold word_start. now rewrite Hs. Qed.

  Lemma word_char : forall c, word_start U c = true -> lex_start U c = Some ([], LWord [c]).
  Proof.
    intros c H. unfold lex_start. rewrite H. replace (is_space c) with false; [easy|]. symmetry.
    destruct (is_space c) eqn:E; [|easy]. exfalso. unfold is_space in E. cbn in E.
    assert (Hlt : (c < 128)%N) by lia. rewrite small_word in H by easy. unfold c_us, ascii_letter in H. lia.
  Qed.

  (** The character [c] ends a word or number. *)
  Definition ends (c : char) : bool := is_space c || (c =? ch ")")%N || (c =? ch "]")%N.
  Lemma ends_stop : forall c, ends c = true -> xid_continue U c = false /\ (c =? c_quote)%N || (c =? c_tick')%N || (c =? c_hash)%N = false /\ (c =? c_hash)%N = false /\ (c =? c_dot)%N = false /\ is_punct c = false.
  Proof.
    intros c H. assert (Hv : In c [32; 10; 13; 9; 41; 93]%N).
    { unfold ends, is_space in H. cbn in H. unfold In. rewrite !orb_true_iff, !N.eqb_eq in H. intuition congruence. }
    assert (Hlt : (c < 128)%N) by (cbn in Hv; lia). rewrite Hc by easy.
    cbn in Hv. repeat (destruct Hv as [<- | Hv]; [repeat split; reflexivity|]). easy.
  Qed.
  Definition ended (k : str) : Prop := match k with [] => True | c :: _ => ends c = true end.

  Lemma run_after : forall t c r, match lex_after U t c with Some (l, st) => option_map (app l) (run st r) | None => None end
                               = option_map (cons t) (match lex_start U c with Some (l, st) => option_map (app l) (run st r) | None => None end).
  Proof. intros t c r. unfold lex_after. destruct (lex_start U c) as [[l st]|]; [|easy]. cbn. now destruct (run st r). Qed.

  Lemma run_word : forall s k acc, forallb (xid_continue U) s = true -> ended k ->
    run (LWord acc) (s ++ k) = option_map (cons (TWord (acc ++ s))) (run LStart k).
  Proof.
    induction s as [|c s IH]; intros k acc Hk He; cbn [app].
    - rewrite app_nil_r. destruct k as [|c k]; [easy|]. destruct (ends_stop c He) as (E1 & E2 & E3 & _).
      cbn [lex_run lex_step]. rewrite E1, E2, E3. cbn. apply run_after.
    - cbn in Hk. apply andb_prop in Hk as [H1 H2]. cbn [lex_run lex_step]. rewrite H1. rewrite IH by easy.
      rewrite <- app_assoc. cbn. now destruct (run LStart k).
  Qed.
  Lemma run_life : forall s k acc, forallb (xid_continue U) s = true -> (ended k \/ exists c r, k = c :: r /\ (c = ch ">" \/ c = c_comma)) ->
    run (LLife acc) (s ++ k) = option_map (cons (TWord (acc ++ s))) (run LStart k).
  Proof.
    induction s as [|c s IH]; intros k acc Hk He; cbn [app].
    - rewrite app_nil_r. destruct k as [|c k]; [easy|].
      assert (E : xid_continue U c = false /\ (c =? c_quote)%N || (c =? c_tick')%N || (c =? c_hash)%N = false).
      { destruct He as [He | (c' & r & E & [-> | ->])]; [destruct (ends_stop c He) as (E1 & E2 & _); easy| |]; injection E as -> ->;
          rewrite Hc by reflexivity; now split. }
      destruct E as [E1 E2]. cbn [lex_run lex_step]. rewrite E1, E2. apply run_after.
    - cbn in Hk. apply andb_prop in Hk as [H1 H2]. cbn [lex_run lex_step]. rewrite H1. rewrite IH by easy.
      rewrite <- app_assoc. cbn. now destruct (run LStart k).
  Qed.
  Lemma run_num : forall s k acc, forallb (xid_continue U) s = true -> ended k ->
    run (LNum acc) (s ++ k) = option_map (cons (TNum (acc ++ s))) (run LStart k).
  Proof.
    induction s as [|c s IH]; intros k acc Hk He; cbn [app].
    - rewrite app_nil_r. destruct k as [|c k]; [easy|]. destruct (ends_stop c He) as (E1 & E2 & E3 & E4 & _).
      cbn [lex_run lex_step]. rewrite E1, E2, E4. cbn. apply run_after.
    - cbn in Hk. apply andb_prop in Hk as [H1 H2]. cbn [lex_run lex_step]. rewrite H1. rewrite IH by easy.
      rewrite <- app_assoc. cbn. now destruct (run LStart k).
  Qed.

  (** ** String literals *)
  Variable odd : char -> bool.
  Hypothesis Hodd : forall c, odd c = true -> scalar c = true.

  Lemma read_hex_str : forall n, read_hex (hex_str n) = Some n.
  Proof. induction n; cbn; try easy; now rewrite IHn. Qed.
  Lemma hex_value_str : forall c, hex_value (hex_str (N.to_hex_uint c)) = Some c.
  Proof. intros. unfold hex_value. rewrite read_hex_str. cbn. now rewrite Unsigned.of_to. Qed.
  Lemma hex_no_brace : forall n, forallb (fun c => negb (c =? ch "}")%N) (hex_str n) = true.
  Proof. induction n; cbn; easy. Qed.
  Lemma hex_nonempty : forall c, hex_str (N.to_hex_uint c) <> [].
  Proof.
    intros c H. assert (E : N.to_hex_uint c = Hexadecimal.Nil) by (now destruct (N.to_hex_uint c)).
    pose proof (Unsigned.of_to c) as E'. rewrite E in E'. cbn in E'. subst c. discriminate E.
  Qed.
  Lemma run_uni : forall h s acc k, forallb (fun c => negb (c =? ch "}")%N) h = true -> acc ++ h <> [] ->
    run (LUni s acc) (h ++ ch "}" :: k) =
    match hex_value (acc ++ h) with Some n => if scalar n then run (LString (s ++ [n])) k else None | None => None end.
  Proof.
    induction h as [|c h IH]; intros s acc k H Hn; cbn [app].
    - rewrite app_nil_r in *. cbn [lex_run lex_step]. rewrite N.eqb_refl. destruct acc as [|c acc]; [easy|].
      destruct (hex_value (c :: acc)) as [n|]; [|easy]. destruct (scalar n); [|easy]. now destruct (run (LString (s ++ [n])) k).
    - cbn in H. apply andb_prop in H as [H1 H2]. cbn [lex_run lex_step]. change (negb (c =? ch "}")%N = true) in H1. apply negb_true_iff in H1. rewrite H1.
      rewrite IH by (easy || (rewrite <- app_assoc; cbn; now destruct acc)). rewrite <- app_assoc. cbn [app].
      destruct (hex_value (acc ++ c :: h)) as [n|]; [|easy]. destruct (scalar n); [|easy]. now destruct (run (LString (s ++ [n])) k).
  Qed.
  Lemma nil_app : forall {A} (o : option (list A)), option_map (app []) o = o.
  Proof. now intros A [|]. Qed.
  Lemma run_char : forall c s k, c <> 0%N -> run (LString s) (escape_char odd c ++ k) = run (LString (s ++ [c])) k.
  Proof.
    intros c s k H0. unfold escape_char.
    destruct (N.eqb_spec c 9) as [-> | ]; [cbn; now rewrite !nil_app|].
    destruct (N.eqb_spec c 10) as [-> | ]; [cbn; now rewrite !nil_app|].
    destruct (N.eqb_spec c 13) as [-> | ]; [cbn; now rewrite !nil_app|].
    destruct (N.eqb_spec c c_quote) as [-> | Hq]; [cbn; now rewrite !nil_app|].
    destruct (N.eqb_spec c c_back) as [-> | Hb]; [cbn; now rewrite !nil_app|].
    assert (Hplain : run (LString s) ([c] ++ k) = run (LString (s ++ [c])) k).
    { cbn [app lex_run lex_step]. rewrite (proj2 (N.eqb_neq c c_quote)), (proj2 (N.eqb_neq c c_back)), (proj2 (N.eqb_neq c c_cr)) by easy. apply nil_app. }
    destruct (c =? c_tick')%N; [easy|]. destruct (odd c) eqn:Eo; [|easy].
    rewrite <- !app_assoc. change (u "\u{" ++ hex_str (N.to_hex_uint c) ++ u "}" ++ k) with (c_back :: ch "u" :: ch "{" :: hex_str (N.to_hex_uint c) ++ ch "}" :: k).
    replace (run (LString s) (c_back :: ch "u" :: ch "{" :: hex_str (N.to_hex_uint c) ++ ch "}" :: k)) with (run (LUni s []) (hex_str (N.to_hex_uint c) ++ ch "}" :: k)).
    2: { symmetry. cbn [lex_run lex_step]. cbn -[lex_run]. now rewrite !nil_app. }
    rewrite run_uni by (apply hex_no_brace || apply hex_nonempty). cbn [app]. rewrite hex_value_str. now rewrite (Hodd _ Eo).
  Qed.
  Lemma run_escape : forall s acc k, run (LString acc) (escape odd s ++ c_quote :: k) = option_map (cons (TLit (acc ++ s))) (run LStart k).
  Proof.
    induction s as [|c s IH]; intros acc k.
    - cbn [escape app]. rewrite app_nil_r. cbn [lex_run lex_step]. rewrite N.eqb_refl. reflexivity.
    - cbn [escape]. rewrite <- app_assoc. destruct (N.eqb_spec c 0) as [-> | H0].
      + destruct (octal s).
        * change (u "\x00" ++ escape odd s ++ c_quote :: k) with (c_back :: ch "x" :: ch "0" :: ch "0" :: (escape odd s ++ c_quote :: k)).
          cbn [lex_run lex_step]. cbn -[lex_run escape]. rewrite !nil_app, IH, <- app_assoc. reflexivity.
        * change (u "\0" ++ escape odd s ++ c_quote :: k) with (c_back :: ch "0" :: (escape odd s ++ c_quote :: k)).
          cbn [lex_run lex_step]. cbn -[lex_run escape]. rewrite !nil_app, IH, <- app_assoc. reflexivity.
      + rewrite run_char by easy. rewrite IH, <- app_assoc. reflexivity.
  Qed.

  (** ** Tokens *)
  Lemma gap_run : forall a b r, run LStart (gap a b ++ r) = run LStart r.
  Proof.
    intros a b r. assert (E : gap a b = [] \/ gap a b = [c_sp]) by (destruct a as [|? []| | |[]|], b as [| | | | |[]]; cbn; auto).
    destruct E as [-> | ->]; [easy|]. cbn [app lex_run]. change (lex_step U LStart c_sp) with (Some ([] : list tok, LStart)). cbv iota. now rewrite nil_app.
  Qed.
  (** What comes after a word, a number or a lone character *)
  Lemma gap_ended : forall a l, (match a with TWord _ | TNum _ | TPunct _ false => True | _ => False end) -> ended (text_from odd a l).
  Proof. intros a [|b l] H; [easy|]. destruct a as [|? []| | |[]|], b as [| | | | |[]]; easy. Qed.

  Lemma op_start : forall c, op_char c = true -> lex_start U c = Some ([], LPunct c) /\ is_punct c = true.
  Proof.
    intros c H. apply andb_prop in H as [H Hsl]. apply andb_prop in H as [H Ht]. split; [|easy].
    assert (Hv : In c punct_chars).
    { unfold is_punct in H. apply existsb_exists in H as (d & Hd & E). apply N.eqb_eq in E. now subst. }
    assert (Hlt : (c < 128)%N) by (cbn in Hv; intuition; subst; reflexivity).
    unfold lex_start. rewrite small_word by easy. cbn in Hv.
    repeat (destruct Hv as [<- | Hv]; [first [reflexivity | discriminate]|]). easy.
  Qed.

  Lemma lex_word : forall s k, word_ok U s = true -> ended k -> run LStart (s ++ k) = option_map (cons (TWord s)) (run LStart k).
  Proof.
    intros s k H He. assert (Hp : forall s, plain_word U s = true -> run LStart (s ++ k) = option_map (cons (TWord s)) (run LStart k)).
    { intros [|c t] Ht; [easy|]. cbn in Ht. apply andb_prop in Ht as [H1 H2]. cbn [app lex_run lex_step].
      rewrite word_char by easy. rewrite nil_app. now rewrite run_word. }
    unfold word_ok in H. apply orb_prop in H as [H | H]; [now apply Hp|].
    destruct (strip_prefix r_hash s) as [t|] eqn:E; [|easy]. apply strip_prefix_Some in E as ->.
    destruct t as [|c t]; [easy|]. cbn in H. apply andb_prop in H as [H1 H2].
    change ((r_hash ++ c :: t) ++ k) with (ch "r" :: c_hash :: c :: (t ++ k)).
    cbn [lex_run lex_step]. rewrite word_char by (rewrite small_word; reflexivity). rewrite nil_app.
    cbn [lex_run lex_step]. rewrite Hc by reflexivity. change (ascii_letter c_hash || ascii_digit c_hash || (c_hash =? 95)%N) with false. cbv iota.
    change ((c_hash =? c_hash)%N && str_eqb [ch "r"] (u "r")) with true. cbv iota. rewrite nil_app.
    cbn [lex_run lex_step]. unfold word_start. rewrite H1. rewrite nil_app. rewrite run_word by easy. reflexivity.
  Qed.
  Lemma lex_num : forall s k, num_ok U s = true -> ended k -> run LStart (s ++ k) = option_map (cons (TNum s)) (run LStart k).
  Proof.
    intros [|c t] k H He; [easy|]. cbn in H. apply andb_prop in H as [H1 H2]. cbn [app lex_run lex_step].
    assert (E : lex_start U c = Some ([], LNum [c])).
    { assert (Hlt : (c < 128)%N) by (unfold ascii_digit in H1; lia). unfold lex_start. rewrite small_word by easy. rewrite H1.
      replace (is_space c) with false by (unfold is_space, ascii_digit in *; cbn; lia).
      replace ((c =? c_us)%N || ascii_letter c) with false by (unfold c_us, ascii_letter, ascii_digit in *; lia). reflexivity. }
    rewrite E, nil_app. now rewrite run_num.
  Qed.

  Theorem lex_text_from : forall l, proper U l = true -> (forall a, run LStart (text_from odd a l) = Some l) /\ run LStart (text_of odd l) = Some l.
  Proof.
    enough (H : forall l, proper U l = true -> run LStart (text_of odd l) = Some l).
    { intros l Hl. split; [|now apply H]. intros a. destruct l as [|b r]; [easy|]. cbn [text_from]. rewrite gap_run. apply (H (b :: r) Hl). }
    induction l as [l IH] using len_ind. intros H.
    assert (Hgo : forall a r, proper U r = true -> run LStart (text_of odd r) = Some r -> run LStart (text_from odd a r) = Some r).
    { intros a [|b r] Hr E; [easy|]. cbn [text_from]. now rewrite gap_run. }
    destruct l as [|t r]; [easy|]. destruct t as [s|c j|s|s|d|d]; cbn [proper text_of tok_text] in *.
    - apply andb_prop in H as [H1 H2]. rewrite lex_word by (easy || now apply gap_ended). rewrite Hgo by (easy || (apply IH; [cbn; lia|easy])). reflexivity.
    - destruct j.
      + destruct (N.eqb_spec c c_tick') as [-> | Hc'].
        * destruct r as [|[s| | | | |] r']; try easy. apply andb_prop in H as [H1 H2]. cbn [text_from gap tok_text app].
          destruct s as [|c s]; [easy|]. cbn in H1. apply andb_prop in H1 as [H1 H3]. cbn [app lex_run lex_step].
          assert (E : lex_start U c_tick' = Some ([], LTick)).
          { unfold lex_start. rewrite small_word by reflexivity. reflexivity. }
          rewrite E, nil_app. cbn [lex_run lex_step]. unfold word_start. rewrite H1.
          rewrite run_life by (easy || (left; now apply gap_ended)). rewrite Hgo by (easy || (apply IH; [cbn; lia|easy])). reflexivity.
        * apply andb_prop in H as [H1 H2]. destruct r as [|[ |c' j'| | | |] r']; try easy. destruct (op_start c H1) as [E _].
          assert (Er : run LStart (text_of odd (TPunct c' j' :: r')) = Some (TPunct c' j' :: r')) by ((apply IH; [cbn; lia|easy])).
          cbn [text_from gap tok_text app] in *. cbn [text_of tok_text app] in Er. cbn [lex_run lex_step] in *. rewrite E, nil_app.
          cbn [lex_run lex_step]. rewrite run_after, Er. cbn. do 3 f_equal.
          clear - H2. cbn [proper] in H2. destruct j'.
          -- destruct (N.eqb_spec c' c_tick') as [-> | _]; [easy|]. apply andb_prop in H2 as [H2 _]. apply andb_prop in H2 as [H2 _]. now apply andb_prop in H2.
          -- apply andb_prop in H2 as [H2 _]. apply andb_prop in H2 as [H2 _]. now apply andb_prop in H2.
      + apply andb_prop in H as [H1 H2]. destruct (op_start c H1) as [E _]. cbn [app lex_run lex_step]. rewrite E, nil_app.
        pose proof (Hgo (TPunct c false) r H2 (IH r (Nat.lt_succ_diag_r _) H2)) as Er. pose proof (gap_ended (TPunct c false) r I) as He.
        destruct (text_from odd (TPunct c false) r) as [|c' k].
        * cbn in Er. injection Er as <-. reflexivity.
        * destruct (ends_stop c' He) as (_ & _ & _ & _ & Ep). cbn [lex_run lex_step] in *. rewrite run_after, Er, Ep. reflexivity.
    - apply andb_prop in H as [H1 H2]. rewrite lex_num by (easy || now apply gap_ended). rewrite Hgo by (easy || (apply IH; [cbn; lia|easy])). reflexivity.
    - cbn [app]. cbn [lex_run lex_step]. assert (E : lex_start U c_quote = Some ([], LString [])).
      { unfold lex_start. rewrite small_word by reflexivity. reflexivity. }
      rewrite E, nil_app, <- app_assoc. cbn [app]. rewrite run_escape. rewrite Hgo by (easy || (apply IH; [cbn; lia|easy])). reflexivity.
    - cbn [app lex_run lex_step]. assert (E : lex_start U (open_char d) = Some ([TOpen d], LStart)).
      { destruct d; unfold lex_start; rewrite small_word by reflexivity; reflexivity. }
      rewrite E. rewrite Hgo by (easy || (apply IH; [cbn; lia|easy])). reflexivity.
    - cbn [app lex_run lex_step]. assert (E : lex_start U (close_char d) = Some ([TClose d], LStart)).
      { destruct d; unfold lex_start; rewrite small_word by reflexivity; reflexivity. }
      rewrite E. rewrite Hgo by (easy || (apply IH; [cbn; lia|easy])). reflexivity.
  Qed.
  Theorem lex_text : forall l, proper U l = true -> lex U (text_of odd l) = Some l.
  Proof. intros l H. now apply lex_text_from. Qed.
End lexing.
