From Verif Require Import Base Model_Ident Model_Path Spec_Path Spec_Names Proof_Base Proof_Ident Proof_Path.

Lemma prefixes_length : forall m q, In q (prefixes m) -> length q <= length m.
Proof.
  intros m q H. unfold prefixes in H. apply in_map_iff in H as (k & <- & Hk).
  rewrite firstn_length. lia.
Qed.

Lemma py_getattrs_fresh : forall V st k l m,
  (forall q, In q st -> length q <= k) -> k <= length m ->
  py_getattrs V st m l = forallb (fun j => match nth_error l j with
                                            | Some x => uv_attr V (m ++ firstn j l) x
                                            | None => false end) (seq 0 (length l)).
Proof.
  intros V st k. induction l as [|x l IH]; intros m Hst Hm; [easy|].
  cbn [py_getattrs length seq forallb nth_error firstn]. rewrite app_nil_r.
  assert (Hg : py_getattr V st m x = uv_attr V m x).
  { unfold py_getattr. destruct (existsb (list_eqb str_eqb (m ++ [x])) st) eqn:E; [|now rewrite andb_false_r, orb_false_r].
    apply existsb_exists in E as (q & Hq & E). apply (list_eqb_eq str_eqb str_eqb_eq) in E. subst q.
    apply Hst in Hq. rewrite app_length in Hq. cbn in Hq. lia. }
  rewrite Hg. f_equal. rewrite (IH (m ++ [x])); [|easy|rewrite app_length; cbn; lia].
  rewrite <- seq_shift.
  clear. induction (seq 0 (length l)) as [|j s IHs]; [easy|].
  cbn [map forallb nth_error firstn]. rewrite IHs. f_equal.
  destruct (nth_error l j); [|easy]. now rewrite <- app_assoc.
Qed.

Lemma map_firstn' : forall {A B} (f : A -> B) n l, map f (firstn n l) = firstn n (map f l).
Proof. induction n; intros [|x l]; cbn; congruence. Qed.
Lemma map_skipn' : forall {A B} (f : A -> B) n l, map f (skipn n l) = skipn n (map f l).
Proof. induction n; intros [|x l]; cbn; congruence. Qed.

Lemma lookup_iff : forall V imp p lk,
  (forall i, In i (segs p) -> import_name i) ->
  import_quote imp p = Ok lk ->
  exists k, 1 <= k <= length (segs p) /\ (k < length (segs p) \/ length (segs p) = 1) /\
    split_char c_dot (lk_import lk) = firstn k (map as_py (segs p)) /\
    lk_attrs lk = skipn k (map as_py (segs p)) /\
    (oracle_agrees V imp -> forall j, k < j < length (segs p) ->
       forallb (uv_module V) (prefixes (firstn j (map as_py (segs p)))) = false) /\
    (lookup_succeeds V (split_char c_dot (lk_import lk)) (lk_attrs lk) = true <->
     forallb (uv_module V) (prefixes (firstn k (map as_py (segs p)))) = true /\
     forall j x, k <= j -> nth_error (map as_py (segs p)) j = Some x ->
       uv_attr V (firstn j (map as_py (segs p))) x = true).
Proof.
  intros V imp p lk Hn H. apply import_quote_spec in H as (k & Hk & Hi & Ha & Hk2 & Hj & Hk3).
  exists k. split; [easy|]. split; [easy|].
  assert (Hsub : forall j s, In s (firstn j (segs p)) -> import_name s).
  { intros j s Hs. apply Hn. rewrite <- (firstn_skipn j (segs p)). apply in_or_app. now left. }
  assert (Hto : forall j, to_py (path_of_segs (firstn j (segs p))) = join [c_dot] (firstn j (map as_py (segs p)))).
  { intros j. rewrite to_py_no_super; [now rewrite map_firstn'|]. intros s Hs. now apply (Hsub j). }
  assert (Hne : forall j, 1 <= j -> segs p <> [] -> firstn j (map as_py (segs p)) <> []).
  { intros j Hj1 Hj2. destruct j; [lia|]. destruct (segs p); easy. }
  assert (Hsp : segs p <> []) by (destruct (segs p); [cbn in Hk; lia|easy]).
  assert (Hcomp : forall j s, In s (firstn j (map as_py (segs p))) -> s <> [] /\ ~ In c_dot s).
  { intros j s Hs. rewrite <- map_firstn' in Hs. apply in_map_iff in Hs as (i & <- & Hi').
    destruct (Hsub j i Hi') as (H1 & H2 & _). easy. }
  assert (Hspl : split_char c_dot (lk_import lk) = firstn k (map as_py (segs p))).
  { rewrite Hi, Hto. apply split_char_join; [apply Hne; [lia|easy]|]. intros s Hs. now apply (Hcomp k). }
  assert (Hat : lk_attrs lk = skipn k (map as_py (segs p))) by (rewrite Ha; apply map_skipn').
  split; [easy|]. split; [easy|]. split.
  { intros Ho j Hjj. specialize (Hj j Hjj). rewrite Hto in Hj.
    rewrite <- Ho; [easy|apply Hne; [lia|easy]|]. intros s Hs. now apply (Hcomp j). }
  rewrite Hspl, Hat. set (L := map as_py (segs p)) in *.
  assert (HL : length L = length (segs p)) by apply map_length.
  unfold lookup_succeeds, py_import.
  destruct (firstn k L) as [|h t] eqn:Ef; [exfalso; now apply (Hne k)|]. rewrite <- Ef.
  destruct (forallb (uv_module V) (prefixes (firstn k L))) eqn:Em; [|split; [easy|intros [H _]; easy]].
  rewrite (py_getattrs_fresh V _ k).
  2:{ intros q Hq. rewrite app_nil_r in Hq. apply prefixes_length in Hq. rewrite firstn_length in Hq. lia. }
  2:{ rewrite firstn_length. lia. }
  assert (Hcat : forall j, firstn k L ++ firstn j (skipn k L) = firstn (k + j) L).
  { intros j. rewrite <- (firstn_skipn k L) at 3. rewrite firstn_app.
    rewrite firstn_length. replace (k + j - Nat.min k (length L)) with j by lia.
    f_equal. rewrite firstn_firstn. now replace (Nat.min (k + j) k) with k by lia. }
  assert (Hnth : forall j, nth_error (skipn k L) j = nth_error L (k + j)).
  { intros j. rewrite <- (firstn_skipn k L) at 2. rewrite nth_error_app2 by (rewrite firstn_length; lia).
    rewrite firstn_length. f_equal. lia. }
  rewrite forallb_forall. split.
  - intros H. split; [easy|]. intros j x Hjk Hx.
    specialize (H (j - k)). rewrite Hnth, Hcat in H. replace (k + (j - k)) with j in H by lia.
    rewrite Hx in H. apply H. apply in_seq. rewrite skipn_length.
    assert (j < length L) by (apply nth_error_Some; congruence). lia.
  - intros [_ H] j Hjin. apply in_seq in Hjin. rewrite skipn_length in Hjin.
    rewrite Hnth, Hcat. destruct (nth_error L (k + j)) as [x|] eqn:Ex.
    + apply H; [lia|easy].
    + apply nth_error_None in Ex. lia.
Qed.

(** Witness against the unrestricted claim: a package [html] whose initialisation does not bind
    its submodule [parser]. *)
Definition html_universe : universe := {|
  uv_module := fun m => list_eqb str_eqb m [u "html"] || list_eqb str_eqb m [u "html"; u "parser"];
  uv_attr := fun m x => (list_eqb str_eqb m [u "html"] && str_eqb x (u "escape")) ||
                        (list_eqb str_eqb m [u "html"; u "parser"] && str_eqb x (u "HTMLParser")) |}.
Definition html_oracle (s : str) : bool :=
  str_eqb s (u "html") || str_eqb s (u "html.parser").
