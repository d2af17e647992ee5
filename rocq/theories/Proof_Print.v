(** * Lemmas: the text of generated code (C67) *)
From Verif Require Import Base Spec_Lex Model_Ident Model_Path Model_Import Model_Text Model_Config Model_Type Model_IntoRs Model_World Model_Token Model_Out Model_Print Spec_Path Spec_Items Spec_Print
  Proof_Base Proof_Ident Proof_Lex.

(** ** Words *)
Lemma segment_word : forall U w, uni_ok U -> path_segment U w -> word_ok U w = true.
Proof.
  intros U w HU H. assert (Hp : forall s, py_identifier U s -> plain_word U s = true).
  { intros s (c & t & -> & Hc & Ht). cbn. replace (forallb (xid_continue U) t) with true by (symmetry; now apply forallb_forall).
    rewrite andb_true_r. destruct Hc as [-> | ->]; [reflexivity|apply orb_true_r]. }
  unfold word_ok. destruct H as [[[H _] | (t & -> & H & _)] | H].
  - now rewrite Hp.
  - change (u "r#") with r_hash. rewrite strip_prefix_app, (Hp _ H). apply orb_true_r.
  - rewrite (plain_le uni_ascii U w (ascii_le U HU)); [reflexivity|]. unfold path_kw in H. apply mem_str_In in H. cbn in H. repeat (destruct H as [<- | H]; [reflexivity|]). easy.
Qed.

(** ** Templates *)
Section templates.
  Variable U : uni.
  Hypothesis HU : uni_ok U.
  Notation ok l := (proper U l = true).

  Lemma rs_proper : forall s, proper uni_ascii (rs s) = true -> ok (rs s).
  Proof. intros s. apply proper_le. now apply ascii_le. Qed.
  Lemma word_proper : forall s, word_ok U s = true -> ok (word s).
  Proof. intros s H. cbn. now rewrite H. Qed.
  Lemma lit_proper : forall s, ok (lit s). Proof. easy. Qed.
  Lemma comma_proper : ok comma. Proof. easy. Qed.
  Lemma each_proper : forall {A} (f : A -> list tok) l, (forall a, In a l -> ok (f a)) -> ok (each f l).
  Proof.
    intros A f l H. induction l as [|a l IH]; [easy|]. cbn. apply proper_app; [apply H; now left|apply IH; intros; apply H; now right].
  Qed.
  Lemma sep_proper : forall s l, ok s -> (forall x, In x l -> ok x) -> ok (sep_by s l).
  Proof.
    intros s l Hs H. induction l as [|a l IH]; [easy|]. destruct l as [|b l]; [apply H; now left|].
    change (sep_by s (a :: b :: l)) with (a ++ s ++ sep_by s (b :: l)). apply proper_app; [apply H; now left|]. apply proper_app; [easy|].
    apply IH. intros; apply H; now right.
  Qed.
  Lemma dec_digits_ok : forall fuel n acc, forallb ascii_digit acc = true -> (n < 10 ^ N.of_nat fuel)%N -> match dec_digits fuel n acc with [] => fuel = 0 /\ acc = [] | _ => True end /\ forallb ascii_digit (dec_digits fuel n acc) = true.
  Proof.
    induction fuel as [|f IH]; intros n acc Ha Hn; cbn [dec_digits]; [split; [now destruct acc|easy]|].
    assert (Hd : ascii_digit (48 + n mod 10)%N = true) by (unfold ascii_digit; pose proof (N.mod_lt n 10); lia).
    destruct (n <? 10)%N; [cbn [forallb]; now rewrite Hd|].
    assert (Ha' : forallb ascii_digit ((48 + n mod 10)%N :: acc) = true) by (cbn [forallb]; now rewrite Hd).
    destruct (IH (n / 10)%N _ Ha') as [H1 H2].
    - rewrite Nat2N.inj_succ, N.pow_succ_r' in Hn. apply N.div_lt_upper_bound; lia.
    - split; [|easy]. destruct (dec_digits f (n / 10) _); [now destruct H1|easy].
  Qed.
  Lemma dec_ok : forall n, exists c r, dec n = c :: r /\ ascii_digit c = true /\ forallb ascii_digit r = true.
  Proof.
    intros n. unfold dec. destruct (dec_digits_ok (S (N.to_nat (N.log2 n))) n []) as [H1 H2]; [easy| |].
    - destruct (N.eq_dec n 0) as [-> | Hn]; [easy|]. rewrite Nat2N.inj_succ, N2Nat.id.
      destruct (N.log2_spec n) as [_ H]; [lia|]. eapply N.lt_le_trans; [exact H|]. apply N.pow_le_mono_l. lia.
    - destruct (dec_digits _ n []) as [|c r]; [now destruct H1|]. cbn in H2. apply andb_prop in H2 as [H2 H3]. now exists c, r.
  Qed.
  Lemma num_proper : forall n, ok [TNum (dec n ++ u "usize")].
  Proof.
    intros n. destruct (dec_ok n) as (c & r & -> & Hc & Hr). destruct HU as (_ & H2 & _).
    assert (Hu : forallb (xid_continue U) (u "usize") = true).
    { apply forallb_forall. intros d Hd. cbn in Hd. rewrite H2 by (intuition; subst; reflexivity).
      repeat (destruct Hd as [<- | Hd]; [reflexivity|]). easy. }
    assert (Hd : forallb (xid_continue U) r = true).
    { rewrite forallb_forall in *. intros d Hd. specialize (Hr d Hd). rewrite H2 by (unfold ascii_digit in Hr; lia). rewrite Hr. now rewrite orb_true_r. }
    cbn [proper app num_ok]. rewrite Hc, forallb_app, Hu, Hd. reflexivity.
  Qed.

  Notation words l := (forall w, In w l -> word_ok U w = true).
  Ltac piece := match goal with
    | |- ok (rs _) => apply rs_proper; vm_compute; reflexivity
    | |- ok (lit _) => apply lit_proper
    | |- ok comma => apply comma_proper
    | |- ok [] => reflexivity
    end.
  Ltac pieces := repeat match goal with |- ok (_ ++ _) => apply proper_app end; try piece.

  Lemma abs_proper : forall p, words p -> ok (abs_path p).
  Proof. intros p H. apply each_proper. intros s Hs. pieces. now apply word_proper, H. Qed.
  Lemma local_proper : forall p, words p -> ok (local_path p).
  Proof. intros p H. apply sep_proper; [piece|]. intros x Hx. apply in_map_iff in Hx as (s & <- & Hs). now apply word_proper, H. Qed.
  Lemma list_proper : forall (l : list rty), (forall t, In t l -> ok (ty_tokens t)) -> ok (match l with [] => [] | _ => rs "<" ++ sep_by comma (map ty_tokens l) ++ rs ">" end).
  Proof.
    intros l H. assert (Hs : ok (sep_by comma (map ty_tokens l))).
    { apply sep_proper; [piece|]. intros x Hx. apply in_map_iff in Hx as (t & <- & Ht). now apply H. }
    destruct l; pieces. exact Hs.
  Qed.
  Lemma trailing_proper : forall t, ok (trailing t).
  Proof. intros []; try easy. destruct args as [|? [|? []]]; easy. Qed.
  Lemma ty_proper : forall t, words (ty_names t) -> ok (ty_tokens t).
  Proof.
    assert (Hall : forall (l : list rty), (forall t, In t l -> words (ty_names t) -> ok (ty_tokens t)) -> words (flat_map ty_names l) -> forall t, In t l -> ok (ty_tokens t)).
    { intros l H Hw t Ht. apply H; [easy|]. intros w Hw'. apply Hw. apply in_flat_map. now exists t. }
    fix IH 1. intros t H. assert (HL : forall l, (forall t : rty, In t l -> words (ty_names t) -> ok (ty_tokens t)) -> words (flat_map ty_names l) -> ok (match l with [] => [] | _ => rs "<" ++ sep_by comma (map ty_tokens l) ++ rs ">" end)).
    { intros l Hl Hw. apply list_proper. now apply Hall. }
    destruct t as [s|t|t|t|l|p l|t|p|p l]; cbn [ty_tokens ty_names] in *.
    - apply word_proper, H. now left.
    - pieces. now apply IH.
    - pieces. now apply IH.
    - pieces. now apply IH.
    - pieces. apply sep_proper; [piece|]. intros x Hx. apply in_map_iff in Hx as (t & <- & Ht). revert t Ht. apply Hall; [|easy].
      clear H. induction l as [|a l IHl]; intros t Ht; [destruct Ht|]. destruct Ht as [<- | Ht]; [apply IH|now apply IHl].
    - apply proper_app; [apply abs_proper; intros; apply H; apply in_or_app; now left|]. apply HL; [|intros; apply H; apply in_or_app; now right].
      clear H. induction l as [|a l IHl]; intros t Ht; [destruct Ht|]. destruct Ht as [<- | Ht]; [apply IH|now apply IHl].
    - pieces; [now apply IH|apply trailing_proper].
    - pieces; [destruct (leading_colon p); piece|now apply local_proper].
    - assert (Hp : ok (abs_path p)) by (apply abs_proper; intros; apply H; apply in_or_app; now left).
      assert (Hgen : ok (rs "impl" ++ abs_path p ++ match l with [] => [] | _ => rs "<" ++ sep_by comma (map ty_tokens l) ++ rs ">" end)).
      { pieces; [exact Hp|]. apply HL; [|intros; apply H; apply in_or_app; now right].
        clear H Hp. induction l as [|a l IHl]; intros t Ht; [destruct Ht|]. destruct Ht as [<- | Ht]; [apply IH|now apply IHl]. }
      destruct l as [|a [|b l]]; [exact Hgen| |destruct a as [| | | | |? [|? []]| | |]; exact Hgen].
      destruct a as [| | | | |q [|t [|]]| | |]; try exact Hgen. pieces; [exact Hp| |].
      + apply abs_proper. intros w Hw. apply H. apply in_or_app. right. cbn. apply in_or_app. left. apply in_or_app. now left.
      + apply IH. intros w Hw. apply H. apply in_or_app. right. cbn. rewrite !app_nil_r. apply in_or_app. now right.
  Qed.

  Lemma prep_proper : forall a, word_ok U (fst a) = true -> ok (prep_tokens a).
  Proof. intros [n p] H. cbn in H. unfold prep_tokens. cbn [fst snd]. destruct p; pieces; now apply word_proper. Qed.
  Lemma contract_proper : forall k, words (contract_names k) -> ok (contract_tokens k).
  Proof.
    intros k H. unfold contract_tokens, contract_names in *. pieces.
    - apply word_proper, H. now left.
    - destruct (k_self k); piece.
    - apply sep_proper; [piece|]. intros x Hx. apply in_map_iff in Hx as ((n & t) & <- & Hn). unfold param_tokens. cbn [fst snd]. pieces.
      + apply word_proper, H. right. apply in_or_app. left. apply in_flat_map. exists (n, t). split; [easy|now left].
      + apply ty_proper. intros w Hw. apply H. right. apply in_or_app. left. apply in_flat_map. exists (n, t). split; [easy|now right].
    - destruct (k_ret k); piece.
    - destruct (k_ret k) as [t| |]; unfold ret_tokens; pieces. apply ty_proper. intros w Hw. apply H. right. apply in_or_app. now right.
  Qed.
  Lemma lookup_proper : forall l, ok (lookup_tokens l).
  Proof.
    intros [i l]. unfold lookup_tokens. cbn [lk_import lk_attrs].
    assert (H0 : ok (rs "py.import_bound(::pyo3::intern!(py, " ++ lit i ++ rs "))?")) by pieces.
    revert H0. generalize (rs "py.import_bound(::pyo3::intern!(py, " ++ lit i ++ rs "))?").
    induction l as [|a l IH]; intros acc H; [easy|]. cbn [fold_left]. apply IH. pieces. exact H.
  Qed.
  Lemma disp_proper : forall d, ok (disp_tokens d).
  Proof. intros []; [apply rs_proper; vm_compute; reflexivity|apply lookup_proper]. Qed.
  Lemma pos_proper : forall a, words (pos_names a) -> ok (pos_tokens a).
  Proof.
    assert (Ho : forall l, words l -> ok (each object_tokens l)).
    { intros l H. apply each_proper. intros i Hi. unfold object_tokens. pieces. now apply word_proper, H. }
    intros [|v|l|l v] H; cbn [pos_tokens pos_names] in *; pieces; try (apply word_proper, H; now left); try (apply num_proper).
    - now apply Ho.
    - apply Ho. intros; apply H; now right.
  Qed.
  Lemma items_proper : forall l, words (map snd l) -> ok (each item_tokens l).
  Proof. intros l H. apply each_proper. intros e He. unfold item_tokens. pieces. apply word_proper, H. now apply in_map. Qed.
  Lemma kw_proper : forall a, words (kw_names a) -> ok (kw_tokens a).
  Proof.
    intros [v|v l| |l] H; cbn [kw_tokens kw_names] in *; pieces; try (apply word_proper, H; now left).
    - apply items_proper. intros; apply H; now right.
    - now apply items_proper.
  Qed.
  Lemma body_proper : forall d b, words (body_names b) -> ok (body_tokens d b).
  Proof.
    intros d b H. pose proof (disp_proper d) as Hd.
    assert (Ha : forall p k, words (pos_names p ++ kw_names k) -> ok (pos_tokens p) /\ ok (kw_tokens k)).
    { intros p k Hw. split; [apply pos_proper|apply kw_proper]; intros; apply Hw; apply in_or_app; [now left|now right]. }
    destruct b as [a|m a|n|n v]; cbn [body_tokens body_names] in *.
    - destruct a as [p k|p|]; cbn [call_tokens args_names] in *; pieces; try easy; try (now apply (Ha p k)). now apply pos_proper.
    - destruct a as [p k|p|]; cbn [call_method_tokens args_names] in *; pieces; try easy; try (now apply (Ha p k)). now apply pos_proper.
    - pieces; [easy|]. destruct d; piece.
    - pieces; [easy|]. apply word_proper, H. now left.
  Qed.
  Lemma fn_proper : forall f, words (fn_names f) -> ok (fn_tokens f).
  Proof.
    intros f H. unfold fn_tokens, fn_names in *. pieces.
    - apply contract_proper. intros; apply H; apply in_or_app; now left.
    - destruct (f_let_py f); piece.
    - apply each_proper. intros a Ha. apply prep_proper, H. apply in_or_app. right. apply in_or_app. left. now apply in_map.
    - apply body_proper. intros; apply H; apply in_or_app; right; apply in_or_app; now right.
  Qed.
  Lemma frag_proper : forall x, words (frag_names x) -> ok (frag_tokens x).
  Proof.
    fix IH 1. intros x.
    assert (HL : forall l, (forall y, In y l -> words (frag_names y) -> ok (frag_tokens y)) -> words (flat_map frag_names l) -> ok (each frag_tokens l)).
    { intros l Hl H. apply each_proper. intros y Hy. apply Hl; [easy|]. intros w Hw. apply H. apply in_flat_map. now exists y. }
    destruct x as [|s|a|f|k|i|l|n|n|n s|n l|n l|t n l|n l|m fl s]; intros H; cbn [frag_tokens frag_names] in *.
    - piece.
    - pieces.
    - destruct a; cbn [attr_tokens]; pieces.
    - now apply fn_proper.
    - pieces. now apply contract_proper.
    - unfold use_tokens. pieces.
      + apply local_proper. intros; apply H; apply in_or_app; now left.
      + destruct (use_alias i); [|piece]. pieces. apply word_proper, H. apply in_or_app. right. now left.
    - pieces. apply each_proper. intros i Hi. pieces. now apply word_proper, H.
    - pieces. apply word_proper, H. now left.
    - pieces. apply word_proper, H. now left.
    - pieces; apply word_proper, H; now left.
    - pieces; [apply word_proper, H; now left|]. apply HL; [|intros; apply H; now right].
      clear H HL. induction l as [|a l IHl]; intros y Hy; [destruct Hy|]. destruct Hy as [<- | Hy]; [apply IH|now apply IHl].
    - pieces; [apply word_proper, H; now left|]. apply HL; [|intros; apply H; now right].
      clear H HL. induction l as [|a l IHl]; intros y Hy; [destruct Hy|]. destruct Hy as [<- | Hy]; [apply IH|now apply IHl].
    - pieces; [apply word_proper, H; now left|apply word_proper, H; right; now left|]. apply HL; [|intros; apply H; right; now right].
      clear H HL. induction l as [|a l IHl]; intros y Hy; [destruct Hy|]. destruct Hy as [<- | Hy]; [apply IH|now apply IHl].
    - pieces; [apply word_proper, H; now left|]. apply HL; [|intros; apply H; now right].
      clear H HL. induction l as [|a l IHl]; intros y Hy; [destruct Hy|]. destruct Hy as [<- | Hy]; [apply IH|now apply IHl].
    - unfold embed_tokens. pieces.
  Qed.
  Theorem tokens_proper : forall l, words (flat_map frag_names l) -> ok (tokens l).
  Proof. intros l H. apply each_proper. intros y Hy. apply frag_proper. intros w Hw. apply H. apply in_flat_map. now exists y. Qed.
End templates.

(** ** Brackets *)
Lemma closes_app : forall a b st, closes st (a ++ b) = match closes st a with Some st' => closes st' b | None => None end.
Proof.
  induction a as [|t a IH]; intros b st; [easy|]. destruct t as [| | | |d|d]; cbn [closes app]; try apply IH.
  destruct st as [|e st]; [easy|]. destruct (delim_eqb d e); [apply IH|easy].
Qed.
Lemma balanced_app : forall a b, balanced a -> balanced b -> balanced (a ++ b).
Proof. intros a b Ha Hb st. now rewrite closes_app, Ha. Qed.
Lemma balanced_each : forall {A} (f : A -> list tok) l, (forall a, In a l -> balanced (f a)) -> balanced (each f l).
Proof.
  intros A f l H. induction l as [|a l IH]; [easy|]. cbn. apply balanced_app; [apply H; now left|apply IH; intros; apply H; now right].
Qed.
Lemma balanced_sep : forall s l, balanced s -> (forall x, In x l -> balanced x) -> balanced (sep_by s l).
Proof.
  intros s l Hs H. induction l as [|a l IH]; [easy|]. destruct l as [|b l]; [apply H; now left|].
  change (sep_by s (a :: b :: l)) with (a ++ s ++ sep_by s (b :: l)). apply balanced_app; [apply H; now left|]. apply balanced_app; [easy|].
  apply IH. intros; apply H; now right.
Qed.
Lemma balanced_comma : balanced comma. Proof. easy. Qed.
Ltac bal := intros st; repeat (rewrite closes_app || match goal with
  | |- context [closes ?s (rs ?t)] => let v := eval vm_compute in (rs t) in change (closes s (rs t)) with (closes s v); cbn [closes delim_eqb]
  | |- context [closes ?s (word _)] => unfold word; cbn [closes]
  | |- context [closes ?s (lit _)] => unfold lit; cbn [closes]
  | |- context [closes ?s [_]] => cbn [closes]
  | |- context [closes ?s comma] => rewrite (balanced_comma s)
  | |- context [closes ?s []] => cbn [closes]
  | H : balanced ?l |- context [closes ?s ?l] => rewrite (H s)
  end); reflexivity.

Lemma abs_balanced : forall p, balanced (abs_path p).
Proof. intros p. apply balanced_each. intros s _. bal. Qed.
Lemma colons_balanced : balanced (rs "::"). Proof. bal. Qed.
Lemma local_balanced : forall p, balanced (local_path p).
Proof. intros p. apply balanced_sep; [exact colons_balanced|]. intros x Hx. apply in_map_iff in Hx as (s & <- & _). bal. Qed.
Lemma args_balanced : forall (l : list rty), (forall t, In t l -> balanced (ty_tokens t)) -> balanced (match l with [] => [] | _ => rs "<" ++ sep_by comma (map ty_tokens l) ++ rs ">" end).
Proof.
  intros l H. assert (Hs : balanced (sep_by comma (map ty_tokens l))).
  { apply balanced_sep; [easy|]. intros x Hx. apply in_map_iff in Hx as (t & <- & Ht). now apply H. }
  destruct l; bal.
Qed.
Lemma impl_balanced : forall p l, (forall t, In t l -> balanced (ty_tokens t)) -> balanced (ty_tokens (RImpl p l)).
Proof.
  intros p l Hall. pose proof (abs_balanced p) as Hp. pose proof (args_balanced l Hall) as Hl.
  assert (Hgen : balanced (rs "impl" ++ abs_path p ++ match l with [] => [] | _ => rs "<" ++ sep_by comma (map ty_tokens l) ++ rs ">" end)).
  { intros st. rewrite closes_app. change (rs "impl") with [TWord (u "impl")]. cbn [closes]. rewrite closes_app, Hp. apply Hl. }
  cbn [ty_tokens]. destruct l as [|a [|b l]]; [exact Hgen| |destruct a as [| | | | |? [|? []]| | |]; exact Hgen].
  destruct a as [| | | | |q [|t [|]]| | |]; try exact Hgen. clear Hgen. pose proof (abs_balanced q) as Hq.
  assert (Ht : balanced (ty_tokens t)); [|bal]. intros st. pose proof (Hall _ (or_introl eq_refl) st) as H. cbn [ty_tokens map sep_by] in H.
  rewrite closes_app, Hq, closes_app in H. change (rs "<") with [TPunct 60%N false] in H. cbn [closes] in H. rewrite closes_app in H.
  destruct (closes st (ty_tokens t)); [exact H|easy].
Qed.
Lemma ty_balanced : forall t, balanced (ty_tokens t).
Proof.
  fix IH 1. intros t. destruct t as [s|t|t|t|l|p l|t|p|p l]; cbn [ty_tokens].
  - easy.
  - pose proof (IH t). bal.
  - pose proof (IH t). bal.
  - pose proof (IH t). bal.
  - assert (balanced (sep_by comma (map ty_tokens l))); [|bal]. apply balanced_sep; [easy|]. intros x Hx. apply in_map_iff in Hx as (t & <- & Ht). revert t Ht.
    induction l as [|a l IHl]; intros t Ht; [destruct Ht|]. destruct Ht as [<- | Ht]; [apply IH|now apply IHl].
  - apply balanced_app; [apply abs_balanced|]. apply args_balanced. induction l as [|a l IHl]; intros t Ht; [destruct Ht|]. destruct Ht as [<- | Ht]; [apply IH|now apply IHl].
  - pose proof (IH t). assert (balanced (trailing t)) by (destruct t as [| | | | |? [|? [|? []]]| | |]; easy). bal.
  - pose proof (local_balanced (segs p)). destruct (leading_colon p); bal.
  - assert (Hall : forall t, In t l -> balanced (ty_tokens t)).
    { induction l as [|a l IHl]; intros t Ht; [destruct Ht|]. destruct Ht as [<- | Ht]; [apply IH|now apply IHl]. }
    now apply impl_balanced.
Qed.
Lemma contract_balanced : forall k, balanced (contract_tokens k).
Proof.
  intros k. unfold contract_tokens.
  assert (Hp : balanced (sep_by comma (map param_tokens (k_params k)))).
  { apply balanced_sep; [easy|]. intros x Hx. apply in_map_iff in Hx as ((n & t) & <- & _). unfold param_tokens. cbn [fst snd]. pose proof (ty_balanced t). bal. }
  assert (Hr : balanced (ret_tokens (k_ret k))) by (destruct (k_ret k) as [t| |]; unfold ret_tokens; [pose proof (ty_balanced t)| |]; bal).
  assert (Hc : balanced (match k_ret k with RetUnit => comma | _ => [] end)) by (now destruct (k_ret k)).
  destruct (k_self k); bal.
Qed.
Lemma prep_balanced : forall a, balanced (prep_tokens a).
Proof. intros [n []]; unfold prep_tokens; cbn [fst snd]; bal. Qed.
Lemma disp_balanced : forall d, balanced (disp_tokens d).
Proof.
  intros [|[i l]]; [unfold disp_tokens; bal|]. cbn [disp_tokens]. unfold lookup_tokens. cbn [lk_import lk_attrs].
  assert (H0 : balanced (rs "py.import_bound(::pyo3::intern!(py, " ++ lit i ++ rs "))?")) by bal.
  revert H0. generalize (rs "py.import_bound(::pyo3::intern!(py, " ++ lit i ++ rs "))?").
  induction l as [|a l IH]; intros acc H; [easy|]. cbn [fold_left]. apply IH. bal.
Qed.
Lemma objects_balanced : forall l, balanced (each object_tokens l).
Proof. intros l. apply balanced_each. intros i _. unfold object_tokens. bal. Qed.
Lemma items_balanced : forall l, balanced (each item_tokens l).
Proof. intros l. apply balanced_each. intros i _. unfold item_tokens. bal. Qed.
Lemma pos_balanced : forall a, balanced (pos_tokens a).
Proof. intros [|v|l|l v]; cbn [pos_tokens]; try pose proof (objects_balanced l); bal. Qed.
Lemma kw_balanced : forall a, balanced (kw_tokens a).
Proof. intros [v|v l| |l]; cbn [kw_tokens]; try pose proof (items_balanced l); bal. Qed.
Lemma body_balanced : forall d b, balanced (body_tokens d b).
Proof.
  intros d b. pose proof (disp_balanced d). destruct b as [[p k|p|]|m [p k|p|]|n|n v]; cbn [body_tokens call_tokens call_method_tokens];
    try pose proof (pos_balanced p); try pose proof (kw_balanced k); try bal.
  destruct d; bal.
Qed.
Lemma fn_balanced : forall f, balanced (fn_tokens f).
Proof.
  intros f. unfold fn_tokens. pose proof (contract_balanced (f_contract f)). pose proof (body_balanced (f_disp f) (f_body f)).
  assert (balanced (each prep_tokens (f_prep f))) by (apply balanced_each; intros; apply prep_balanced). destruct (f_let_py f); bal.
Qed.
Lemma frag_balanced : forall x, balanced (frag_tokens x).
Proof.
  fix IH 1. intros x.
  destruct x as [|s|a|f|k|i|l|n|n|n s|n l|n l|t n l|n l|m fl s]; cbn [frag_tokens]; try bal.
  - destruct a; cbn [attr_tokens]; bal.
  - apply fn_balanced.
  - pose proof (contract_balanced k). bal.
  - unfold use_tokens. pose proof (local_balanced (use_path i)). destruct (use_alias i); bal.
  - assert (balanced (each (fun i => word i ++ comma) l)); [|bal]. apply balanced_each. intros a _. bal.
  - assert (balanced (each frag_tokens l)); [|bal]. apply balanced_each. induction l as [|a l IHl]; intros y Hy; [destruct Hy|]. destruct Hy as [<- | Hy]; [apply IH|now apply IHl].
  - assert (balanced (each frag_tokens l)); [|bal]. apply balanced_each. induction l as [|a l IHl]; intros y Hy; [destruct Hy|]. destruct Hy as [<- | Hy]; [apply IH|now apply IHl].
  - assert (balanced (each frag_tokens l)); [|bal]. apply balanced_each. induction l as [|a l IHl]; intros y Hy; [destruct Hy|]. destruct Hy as [<- | Hy]; [apply IH|now apply IHl].
  - assert (balanced (each frag_tokens l)); [|bal]. apply balanced_each. induction l as [|a l IHl]; intros y Hy; [destruct Hy|]. destruct Hy as [<- | Hy]; [apply IH|now apply IHl].
Qed.
Theorem tokens_balanced : forall l, balanced (tokens l).
Proof. intros l. apply balanced_each. intros; apply frag_balanced. Qed.
