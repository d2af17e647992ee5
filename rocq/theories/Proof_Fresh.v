From Verif Require Import Base Model_Ident Model_Path Model_Import Model_Text Model_Config Model_Type Model_IntoRs Model_World Model_Out Model_Function
  Spec_Path Spec_Call Proof_Base Proof_Ident Proof_Path Proof_IntoRs.
From Coq Require Import Lia.

(** ** Decimal numerals *)
Definition undec_step (a c : N) : N := (a * 10 + (c - 48))%N.
Definition undec (s : str) : N := fold_left undec_step s 0%N.

Lemma undec_digits : forall f n acc, (n < 10 ^ N.of_nat f)%N -> fold_left undec_step (dec_digits f n acc) 0%N = fold_left undec_step acc n.
Proof.
  induction f as [|f IH]; intros n acc H.
  - cbn in H. replace n with 0%N by lia. reflexivity.
  - cbn [dec_digits]. destruct (n <? 10)%N eqn:E.
    + apply N.ltb_lt in E. cbn [fold_left]. f_equal. unfold undec_step. rewrite N.mod_small by easy. lia.
    + rewrite IH.
      * cbn [fold_left]. f_equal. unfold undec_step. rewrite (N.div_mod n 10) at 3 by easy. lia.
      * apply N.div_lt_upper_bound; [easy|]. rewrite <- N.pow_succ_r'. rewrite <- Nat2N.inj_succ. exact H.
Qed.
Lemma undec_dec : forall n, undec (dec n) = n.
Proof.
  intros n. unfold undec, dec. rewrite undec_digits; [reflexivity|].
  rewrite Nat2N.inj_succ, N2Nat.id. destruct (N.eq_dec n 0) as [->|Hn]; [reflexivity|].
  apply N.lt_le_trans with (2 ^ N.succ (N.log2 n))%N; [apply N.log2_spec; lia|]. apply N.pow_le_mono_l. lia.
Qed.
Lemma dec_inj : forall a b, dec a = dec b -> a = b.
Proof. intros a b H. now rewrite <- (undec_dec a), H, undec_dec. Qed.
Lemma dec_digits_only : forall f n acc c, In c (dec_digits f n acc) -> In c acc \/ (48 <= c <= 57)%N.
Proof.
  induction f as [|f IH]; intros n acc c H; [now left|]. cbn [dec_digits] in H.
  assert (Hm : (n mod 10 < 10)%N) by (now apply N.mod_lt).
  destruct (n <? 10)%N.
  - destruct H as [<-|H]; [right; lia|now left].
  - apply IH in H as [[<-|H]|H]; [right; lia|now left|now right].
Qed.
Lemma dec_nonempty : forall n, dec n <> [].
Proof.
  intros n H. unfold dec in H. assert (Hl : forall f m acc, acc <> [] -> dec_digits f m acc <> []).
  { induction f as [|f IH]; intros m acc Ha; [easy|]. cbn [dec_digits]. destruct (m <? 10)%N; [easy|]. now apply IH. }
  cbn [dec_digits] in H. destruct (n <? 10)%N; [easy|]. revert H. now apply Hl.
Qed.

(** ** Candidates *)
Definition suffix_of (i : nat) : str := match i with O => [] | _ => dec (N.of_nat i) end.
Lemma suffix_inj : forall i j, suffix_of i = suffix_of j -> i = j.
Proof.
  intros [|i] [|j] H; cbn [suffix_of] in H; try easy.
  - symmetry in H. now apply dec_nonempty in H.
  - now apply dec_nonempty in H.
  - apply dec_inj in H. now apply Nat2N.inj in H.
Qed.
(** The base names in use: not raw, all lower-case ASCII, not a keyword with any number appended. *)
Lemma candidate_inj : forall U base i j, (forall s, starts_with r_hash (u base ++ s) = false) ->
  candidate U base i = candidate U base j -> i = j.
Proof.
  intros U base i j Hb H. unfold candidate in H. fold (suffix_of i) in H. fold (suffix_of j) in H.
  apply from_py_inj in H; [|apply Hb|apply Hb]. apply app_inv_head in H. now apply suffix_inj.
Qed.
Lemma first_free_spec : forall U base taken fuel i c, first_free U base taken fuel i = Ok c ->
  exists j, i <= j < i + fuel /\ c = candidate U base j /\ taken c = false /\ forall k, i <= k < j -> taken (candidate U base k) = true.
Proof.
  induction fuel as [|f IH]; intros i c H; [easy|]. cbn [first_free] in H. destruct (taken (candidate U base i)) eqn:E.
  - apply IH in H as (j & Hj & Hc & Ht & Hk). exists j. repeat split; try lia; try easy.
    intros k Hk'. destruct (Nat.eq_dec k i) as [->|]; [easy|]. apply Hk. lia.
  - injection H as <-. exists i. repeat split; try lia; try easy. 
Qed.
Lemma first_free_fuel : forall U base taken fuel i, first_free U base taken fuel i <> OutOfFuel \/
  (forall k, i <= k < i + fuel -> taken (candidate U base k) = true).
Proof.
  induction fuel as [|f IH]; intros i; [right; lia|]. cbn [first_free]. destruct (taken (candidate U base i)) eqn:E; [|now left].
  destruct (IH (S i)) as [H|H]; [now left|]. right. intros k Hk. destruct (Nat.eq_dec k i) as [->|]; [easy|]. apply H. lia.
Qed.
Lemma first_free_res : forall U base taken fuel i, first_free U base taken fuel i = OutOfFuel \/ exists c, first_free U base taken fuel i = Ok c.
Proof.
  induction fuel as [|f IH]; intros i; [now left|]. cbn [first_free]. destruct (taken _); [apply IH|]. right. eexists. reflexivity.
Qed.

Lemma nodup_map : forall {A B} (f : A -> B) l, (forall a b, f a = f b -> a = b) -> NoDup l -> NoDup (map f l).
Proof.
  intros A B f l Hf H. induction H as [|x l Hx H IH]; cbn [map]; constructor; [|easy].
  intros Hi. apply in_map_iff in Hi as (y & E & Hy). apply Hf in E. now subst.
Qed.
Lemma fresh_ok : forall U base scope, (forall s, starts_with r_hash (u base ++ s) = false) -> exists c, fresh U base scope = Ok c.
Proof.
  intros U base scope Hb. unfold fresh. destruct (first_free_res U base (fun c => mem_str c scope) (S (length scope)) 0) as [H|H]; [|exact H].
  exfalso. destruct (first_free_fuel U base (fun c => mem_str c scope) (S (length scope)) 0) as [H'|H']; [easy|].
  assert (Hn : NoDup (map (candidate U base) (seq 0 (S (length scope))))).
  { apply nodup_map; [|apply seq_NoDup]. intros a b E. now apply (candidate_inj U base). }
  assert (Hi : incl (map (candidate U base) (seq 0 (S (length scope)))) scope).
  { intros c Hc. apply in_map_iff in Hc as (k & <- & Hk). apply in_seq in Hk. apply mem_str_In. apply H'. lia. }
  assert (Hlen := NoDup_incl_length Hn Hi). rewrite map_length, seq_length in Hlen. lia.
Qed.
Lemma fresh_spec : forall U base scope c, fresh U base scope = Ok c ->
  exists j, c = candidate U base j /\ ~ In c scope /\ forall k, k < j -> In (candidate U base k) scope.
Proof.
  intros U base scope c H. apply first_free_spec in H as (j & _ & Hc & Ht & Hk). exists j. split; [easy|]. split.
  - intros Hi. apply mem_str_In in Hi. congruence.
  - intros k Hk'. apply mem_str_In. apply Hk. lia.
Qed.

(** A base of lower-case letters with digits appended is a plain identifier. *)
Lemma digits_continue : forall U i c, uni_ok U -> In c (suffix_of i) -> xid_continue U c = true.
Proof.
  intros U i c (_ & Hc & _) H. destruct i as [|i]; [easy|]. cbn [suffix_of] in H. unfold dec in H.
  apply dec_digits_only in H as [[]|H]. rewrite Hc by lia. unfold ascii_digit.
  assert ((48 <=? c)%N = true) as -> by (apply N.leb_le; lia). assert ((c <=? 57)%N = true) as -> by (apply N.leb_le; lia).
  cbn. now rewrite orb_true_r.
Qed.
Lemma candidate_plain : forall U base i, uni_ok U -> py_identifier U (u base) -> starts_with r_hash (u base ++ suffix_of i) = false ->
  mem_str (u base ++ suffix_of i) syn_keywords = false ->
  candidate U base i = u base ++ suffix_of i /\ syn_ident_ok U (candidate U base i) = true.
Proof.
  intros U base i HU (c & t & E & Hc & Ht) Hr Hk. unfold candidate. fold (suffix_of i).
  assert (Hid : py_identifier U (u base ++ suffix_of i)).
  { rewrite E. exists c, (t ++ suffix_of i). split; [easy|]. split; [easy|]. intros x Hx. apply in_app_or in Hx as [Hx|Hx]; [auto|].
    now apply (digits_continue U i). }
  assert (Hnk : ~ rust_keyword (u base ++ suffix_of i)).
  { intros H. apply syn_keywords_iff in H. apply mem_str_In in H. congruence. }
  rewrite from_py_plain by easy. split; [easy|]. now apply syn_ident_ok_plain.
Qed.
