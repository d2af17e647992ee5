From Verif Require Import Base Model_Ident Spec_Path Proof_Base.

Lemma ident_eqb_eq : forall a b, ident_eqb a b = true <-> a = b.
Proof. apply str_eqb_eq. Qed.
Lemma ident_eqb_refl : forall a, ident_eqb a a = true.
Proof. apply str_eqb_refl. Qed.

Lemma rs_as_py_raw : forall s, rs_as_py (r_hash ++ s) = s.
Proof. intros. unfold rs_as_py. now rewrite strip_prefix_app. Qed.

Lemma rs_as_py_id : forall s, starts_with r_hash s = false -> rs_as_py s = s.
Proof. intros s H. unfold rs_as_py, starts_with in *. destruct (strip_prefix r_hash s); easy. Qed.

Lemma as_py_from_py : forall U s, starts_with r_hash s = false -> as_py (ident_from_py U s) = s.
Proof.
  intros U s H. unfold as_py, ident_from_py, py_to_rs.
  destruct (syn_ident_ok U s); [now apply rs_as_py_id | apply rs_as_py_raw].
Qed.

Lemma as_py_from_py_iff : forall U s,
  as_py (ident_from_py U s) = s <-> ~ (starts_with r_hash s = true /\ syn_ident_ok U s = true).
Proof.
  intros U s. unfold as_py, ident_from_py, py_to_rs.
  destruct (syn_ident_ok U s) eqn:E.
  - unfold rs_as_py, starts_with. destruct (strip_prefix r_hash s) as [t|] eqn:E'.
    + apply strip_prefix_Some in E'. split; [|intros H; exfalso; now apply H].
      intros ->. exfalso. apply (f_equal (@length N)) in E'. rewrite app_length in E'. cbn in E'. lia.
    + split; [intros _ [H _]; easy|easy].
  - rewrite rs_as_py_raw. split; [intros _ [_ H]; easy|easy].
Qed.

Lemma py_identifier_no_raw : forall U s, uni_ok U -> py_identifier U s -> starts_with r_hash s = false.
Proof.
  intros U s HU (c & t & -> & Hc & Ht).
  destruct (starts_with r_hash (c :: t)) eqn:E; [|easy]. exfalso.
  apply starts_with_iff in E as [r Hr]. cbn in Hr. injection Hr as -> ->.
  destruct HU as (_ & HU & _).
  specialize (Ht 35%N (or_introl eq_refl)). rewrite HU in Ht by lia. easy.
Qed.

Lemma lex_ident_plain_iff : forall U s, lex_ident_plain U s = true <-> py_identifier U s.
Proof.
  intros U s. unfold lex_ident_plain, py_identifier. destruct s as [|c t].
  - split; [easy|]. intros (c & t & H & _). easy.
  - rewrite andb_true_iff, orb_true_iff, forallb_forall, N.eqb_eq. split.
    + intros [Hc Ht]. exists c, t. auto.
    + intros (c' & t' & H & Hc & Ht). injection H as <- <-. auto.
Qed.

Lemma syn_keywords_iff : forall s, In s syn_keywords <-> rust_keyword s.
Proof.
  intros s.
  assert (H1 : forallb (fun k => mem_str k (map u
   ["as"; "break"; "const"; "continue"; "crate"; "else"; "enum"; "extern"; "false"; "fn"; "for";
    "if"; "impl"; "in"; "let"; "loop"; "match"; "mod"; "move"; "mut"; "pub"; "ref"; "return";
    "self"; "Self"; "static"; "struct"; "super"; "trait"; "true"; "type"; "unsafe"; "use";
    "where"; "while"; "async"; "await"; "dyn";
    "abstract"; "become"; "box"; "do"; "final"; "macro"; "override"; "priv"; "typeof";
    "unsized"; "virtual"; "yield"; "try"; "_"]%string)) syn_keywords = true) by now vm_compute.
  assert (H2 : forallb (fun k => mem_str k syn_keywords) (map u
   ["as"; "break"; "const"; "continue"; "crate"; "else"; "enum"; "extern"; "false"; "fn"; "for";
    "if"; "impl"; "in"; "let"; "loop"; "match"; "mod"; "move"; "mut"; "pub"; "ref"; "return";
    "self"; "Self"; "static"; "struct"; "super"; "trait"; "true"; "type"; "unsafe"; "use";
    "where"; "while"; "async"; "await"; "dyn";
    "abstract"; "become"; "box"; "do"; "final"; "macro"; "override"; "priv"; "typeof";
    "unsized"; "virtual"; "yield"; "try"; "_"]%string) = true) by now vm_compute.
  rewrite forallb_forall in H1, H2. unfold rust_keyword. split; intros H.
  - apply mem_str_In. now apply H1.
  - apply mem_str_In. now apply H2.
Qed.

Lemma never_raw_iff : forall s, In s never_raw <-> rust_unspellable s.
Proof. intros s. unfold never_raw, rust_unspellable. cbn. tauto. Qed.

Lemma unspellable_keyword : forall s, rust_unspellable s -> rust_keyword s.
Proof.
  intros s H. apply syn_keywords_iff. apply never_raw_iff in H.
  assert (H1 : forallb (fun k => mem_str k syn_keywords) never_raw = true) by now vm_compute.
  rewrite forallb_forall in H1. apply mem_str_In. now apply H1.
Qed.

Lemma syn_ident_ok_plain : forall U s, uni_ok U -> py_identifier U s ->
  (syn_ident_ok U s = true <-> ~ rust_keyword s).
Proof.
  intros U s HU Hs. pose proof (py_identifier_no_raw U s HU Hs) as Hr.
  unfold syn_ident_ok, starts_with in *. destruct (strip_prefix r_hash s); [easy|].
  rewrite (proj2 (lex_ident_plain_iff U s) Hs). cbn [andb].
  rewrite negb_true_iff, mem_str_notIn, syn_keywords_iff. easy.
Qed.

Lemma syn_ident_ok_raw : forall U s, py_identifier U s ->
  (syn_ident_ok U (r_hash ++ s) = true <-> ~ rust_unspellable s).
Proof.
  intros U s Hs. unfold syn_ident_ok. rewrite strip_prefix_app.
  rewrite (proj2 (lex_ident_plain_iff U s) Hs). cbn [andb].
  rewrite negb_true_iff, mem_str_notIn, never_raw_iff. easy.
Qed.

Lemma rust_keyword_dec : forall s, rust_keyword s \/ ~ rust_keyword s.
Proof.
  intros s. destruct (mem_str s syn_keywords) eqn:E.
  - left. apply syn_keywords_iff. now apply mem_str_In.
  - right. rewrite <- syn_keywords_iff. now apply mem_str_notIn.
Qed.

Lemma from_py_plain : forall U s, uni_ok U -> py_identifier U s -> ~ rust_keyword s ->
  ident_from_py U s = s.
Proof.
  intros U s HU Hs Hk. unfold ident_from_py, py_to_rs.
  now rewrite (proj2 (syn_ident_ok_plain U s HU Hs) Hk).
Qed.

Lemma from_py_keyword : forall U s, uni_ok U -> py_identifier U s -> rust_keyword s ->
  ident_from_py U s = r_hash ++ s.
Proof.
  intros U s HU Hs Hk. unfold ident_from_py, py_to_rs.
  destruct (syn_ident_ok U s) eqn:E; [|easy].
  apply (syn_ident_ok_plain U s HU Hs) in E. easy.
Qed.

Lemma from_py_valid_iff : forall U s, uni_ok U -> py_identifier U s ->
  (syn_ident_ok U (ident_from_py U s) = true <-> ~ rust_unspellable s).
Proof.
  intros U s HU Hs. destruct (rust_keyword_dec s) as [Hk|Hk].
  - rewrite from_py_keyword by easy. now apply syn_ident_ok_raw.
  - rewrite from_py_plain by easy. rewrite syn_ident_ok_plain by easy.
    split; [intros _ H; apply Hk; now apply unspellable_keyword | easy].
Qed.

Lemma syn_ident_ok_inv : forall U s, syn_ident_ok U s = true ->
  (py_identifier U s /\ ~ rust_keyword s) \/
  (exists t, s = r_hash ++ t /\ py_identifier U t /\ ~ rust_unspellable t).
Proof.
  intros U s H. unfold syn_ident_ok in H. destruct (strip_prefix r_hash s) as [t|] eqn:E.
  - right. apply strip_prefix_Some in E. exists t. apply andb_prop in H as [H1 H2].
    split; [easy|]. split; [now apply lex_ident_plain_iff|].
    rewrite <- never_raw_iff. apply mem_str_notIn. now apply negb_true_iff.
  - left. apply andb_prop in H as [H1 H2]. split; [now apply lex_ident_plain_iff|].
    rewrite <- syn_keywords_iff. apply mem_str_notIn. now apply negb_true_iff.
Qed.

(** Path keywords are never produced by [from_py]. *)
Lemma from_py_not_kw : forall U s k, syn_ident_ok U k = false -> starts_with r_hash k = false ->
  ident_from_py U s <> k.
Proof.
  intros U s k Hk Hr E. unfold ident_from_py, py_to_rs in E. destruct (syn_ident_ok U s) eqn:E'.
  - subst. congruence.
  - subst. now rewrite starts_with_app in Hr.
Qed.

Lemma kw_not_ok : forall U k, In k syn_keywords -> syn_ident_ok U k = false.
Proof.
  intros U k H. unfold syn_ident_ok.
  assert (Hr : strip_prefix r_hash k = None).
  { assert (HH : forallb (fun k => negb (starts_with r_hash k)) syn_keywords = true) by now vm_compute.
    rewrite forallb_forall in HH. apply HH in H. apply negb_true_iff in H.
    unfold starts_with in H. destruct (strip_prefix r_hash k); easy. }
  rewrite Hr. apply mem_str_In in H. rewrite H. now rewrite andb_false_r.
Qed.

Lemma from_py_not_path_kw : forall U s, path_kw (ident_from_py U s) = false.
Proof.
  intros U s. destruct (path_kw (ident_from_py U s)) eqn:E; [|easy]. exfalso.
  unfold path_kw in E. apply mem_str_In in E.
  refine (from_py_not_kw U s (ident_from_py U s) _ _ eq_refl).
  - apply kw_not_ok. apply mem_str_In.
    assert (HH : forallb (fun k => mem_str k syn_keywords) (map u ["self"; "super"; "crate"; "Self"]%string) = true) by now vm_compute.
    rewrite forallb_forall in HH. now apply HH.
  - assert (HH : forallb (fun k => negb (starts_with r_hash k)) (map u ["self"; "super"; "crate"; "Self"]%string) = true) by now vm_compute.
    rewrite forallb_forall in HH. apply HH in E. now apply negb_true_iff.
Qed.

Lemma from_py_inj : forall U a b,
  starts_with r_hash a = false -> starts_with r_hash b = false ->
  ident_from_py U a = ident_from_py U b -> a = b.
Proof.
  intros U a b Ha Hb H. rewrite <- (as_py_from_py U a Ha), <- (as_py_from_py U b Hb). congruence.
Qed.

Lemma ident_cmp_refl : forall a, ident_cmp a a = Eq.
Proof. intros; apply str_cmp_refl. Qed.
Lemma ident_cmp_antisym : forall a b, ident_cmp b a = CompOpp (ident_cmp a b).
Proof. intros; apply str_cmp_antisym. Qed.
Lemma ident_cmp_trans : forall a b c, ident_cmp a b = Lt -> ident_cmp b c = Lt -> ident_cmp a c = Lt.
Proof. intros a b c; apply str_cmp_lt_trans. Qed.
Lemma ident_cmp_eq_from_py : forall U a b,
  starts_with r_hash a = false -> starts_with r_hash b = false ->
  (ident_cmp (ident_from_py U a) (ident_from_py U b) = Eq <-> ident_from_py U a = ident_from_py U b).
Proof.
  intros U a b Ha Hb. unfold ident_cmp. rewrite str_cmp_eq.
  rewrite !as_py_from_py by easy. split; [congruence|now apply from_py_inj].
Qed.
