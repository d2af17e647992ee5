From Verif Require Import Base Model_Config Model_Type Spec_Type Proof_Base Proof_Repair.

(** ** The measure *)
Lemma measure_app : forall a b, str_measure (a ++ b) = str_measure a + str_measure b.
Proof. intros. unfold str_measure. rewrite app_length, count_char_app. lia. Qed.
Lemma measure_cons : forall c s, str_measure (c :: s) = str_measure [c] + str_measure s.
Proof. intros. apply (measure_app [c] s). Qed.
Lemma measure_char : forall c, str_measure [c] >= 1.
Proof. intros. unfold str_measure. cbn. lia. Qed.
Lemma measure_bar : str_measure [c_bar] = 2.
Proof. easy. Qed.
Lemma measure_comma : str_measure [c_comma] = 1.
Proof. easy. Qed.

Lemma measure_trim : forall s, str_measure (trim s) <= str_measure s.
Proof.
  intros s. destruct (trim_decomp s) as (p & q & Hs & _). rewrite Hs at 2. rewrite !measure_app. lia.
Qed.

Lemma measure_in_join : forall sep l x, In x l -> str_measure x <= str_measure (join sep l).
Proof.
  induction l as [|y l IH]; intros x H; [easy|]. destruct l as [|z l].
  - destruct H as [->|[]]. easy.
  - rewrite join_cons, !measure_app. destruct H as [->|H]; [lia|]. apply IH in H. lia.
Qed.

Lemma measure_join_trim : forall c l, l <> [] ->
  str_measure (join [c_comma] (map trim l)) + (length l - 1) * (str_measure [c] - 1) <= str_measure (join [c] l).
Proof.
  intros c. induction l as [|x l IH]; intros H; [easy|]. destruct l as [|y l].
  - cbn [map join length]. pose proof (measure_trim x). lia.
  - cbn [map]. rewrite !join_cons, !measure_app, measure_comma. cbn [map length] in IH.
    specialize (IH ltac:(easy)). pose proof (measure_trim x). pose proof (measure_char c). cbn [length].
    replace (S (S (length l)) - 1) with (S (S (length l) - 1)) by lia. cbn [Nat.mul]. lia.
Qed.

Lemma repair_measure : forall dbg c s pieces x, repair dbg c_comma (split_trim c s) = Ok pieces -> In x pieces ->
  str_measure x + (length (split_char c s) - 1) * (str_measure [c] - 1) <= str_measure s.
Proof.
  intros dbg c s pieces x H Hx. apply repair_text_kept in H.
  pose proof (measure_in_join [c_comma] pieces x Hx) as H1. rewrite H in H1.
  pose proof (measure_join_trim c (split_char c s) (split_char_nonnil c s)) as H2.
  rewrite join_split_char in H2. unfold split_trim in H1. lia.
Qed.

Lemma split_char_two : forall c s, In c s -> length (split_char c s) >= 2.
Proof.
  induction s as [|x s IH]; intros H; [easy|]. cbn [split_char].
  destruct (split_char_cons c s) as (p & ps & E). destruct (N.eqb_spec x c) as [->|Hx].
  - rewrite E. cbn. lia.
  - destruct H as [->|H]; [easy|]. specialize (IH H). rewrite E in *. cbn in *. lia.
Qed.

Lemma delimited_Some : forall pre suf s m, delimited pre suf s = Some m ->
  (exists t, s = pre ++ t) /\ (exists t, s = t ++ suf) /\
  (m = Panic PUnreachable \/ exists x, m = Ok x /\ s = pre ++ x ++ suf).
Proof.
  intros pre suf s m H. unfold delimited in H. destruct (starts_with pre s) eqn:E1; [|easy].
  destruct (ends_with suf s) eqn:E2; [|easy]. cbn [andb] in H. injection H as <-.
  apply starts_with_iff in E1. apply ends_with_iff in E2. split; [easy|]. split; [easy|].
  destruct (strip_prefix pre s) as [t|] eqn:E3; cbn [unwrap obind]; [|now left].
  apply strip_prefix_Some in E3. destruct (strip_suffix suf t) as [x|] eqn:E4; cbn [unwrap]; [|now left].
  right. exists x. split; [easy|]. apply strip_suffix_Some in E4. now subst.
Qed.

Lemma delimited_mk : forall pre suf x, delimited pre suf (pre ++ x ++ suf) = Some (Ok x).
Proof.
  intros. unfold delimited. rewrite starts_with_app. rewrite app_assoc, ends_with_app. cbn [andb].
  rewrite <- app_assoc, strip_prefix_app. cbn [unwrap obind].
  replace (strip_suffix suf (x ++ suf)) with (Some x); [easy|]. symmetry. now apply strip_suffix_Some.
Qed.

(** ** One unfolding, abstractly: the recursive calls are made on texts of smaller measure *)
Definition nobad {A} (m : outcome A) : Prop := m <> OutOfFuel /\ forall e, m <> Err e.

Lemma nobad_ok : forall {A} (a : A), nobad (Ok a).
Proof. easy. Qed.
Lemma nobad_panic : forall {A} p, nobad (@Panic A p).
Proof. easy. Qed.
Lemma nobad_bind : forall {A B} (m : outcome A) (f : A -> outcome B),
  nobad m -> (forall a, m = Ok a -> nobad (f a)) -> nobad (obind m f).
Proof. intros A B m f [H1 H2] Hf. destruct m; cbn; [now apply Hf|now destruct (H2 e)|easy|easy]. Qed.
Lemma nobad_omap : forall {A B} (f : A -> B) m, nobad m -> nobad (omap f m).
Proof. intros. apply nobad_bind; easy. Qed.
Lemma nobad_unwrap : forall {A} p (o : option A), nobad (unwrap p o).
Proof. intros A p [a|]; easy. Qed.
Lemma nobad_mapM : forall {A B} (f : A -> outcome B) l, (forall x, In x l -> nobad (f x)) -> nobad (mapM f l).
Proof.
  induction l as [|x l IH]; intros H; [easy|]. cbn [mapM]. apply nobad_bind; [apply H; now left|].
  intros a _. apply nobad_bind; [|easy]. apply IH. intros y Hy. apply H. now right.
Qed.
Lemma nobad_repair : forall dbg sep seq, nobad (repair dbg sep seq).
Proof.
  intros dbg sep seq. unfold repair. destruct seq as [|x l]; [destruct dbg; easy|].
  destruct (repair_loop_total dbg sep (2 * length (x :: l)) (x :: l)) as (A & B & _); [easy|lia|]. now split.
Qed.
Lemma nobad_mk_function : forall l, nobad (mk_function l).
Proof. intros l. unfold mk_function. destruct (rev l); easy. Qed.
Lemma nobad_delimited : forall pre suf s m, delimited pre suf s = Some m -> nobad m.
Proof. intros pre suf s m H. apply delimited_Some in H as (_ & _ & [->|(x & -> & _)]); easy. Qed.

Lemma delimited_measure : forall pre suf s m x, pre <> [] -> delimited pre suf s = Some m -> m = Ok x ->
  str_measure x < str_measure s.
Proof.
  intros pre suf s m x Hp H ->. apply delimited_Some in H as (_ & _ & [H|(y & H & ->)]); [easy|].
  injection H as <-. rewrite !measure_app. destruct pre as [|c pre]; [easy|].
  rewrite (measure_cons c pre). pose proof (measure_char c). lia.
Qed.

Lemma prefixed_measure : forall pre s x, pre <> [] -> prefixed pre s = Some x -> str_measure x < str_measure s.
Proof.
  intros pre s x Hp H. unfold prefixed in H. apply strip_prefix_Some in H. subst s. rewrite measure_app.
  destruct pre as [|c pre]; [easy|]. rewrite (measure_cons c pre). pose proof (measure_char c). lia.
Qed.

Lemma nobad_parse_args : forall dbg rec s, (forall x, str_measure x <= str_measure s -> nobad (rec x)) ->
  nobad (parse_args dbg rec s).
Proof.
  intros dbg rec s H. unfold parse_args. apply nobad_bind; [apply nobad_repair|].
  intros pieces Hp. apply nobad_mapM. intros x Hx. apply H.
  pose proof (repair_measure _ _ _ _ _ Hp Hx) as Hm. rewrite measure_comma in Hm. lia.
Qed.

Lemma find_In : forall {A} (f : A -> bool) l x, find f l = Some x -> In x l /\ f x = true.
Proof. intros A f l x H. now apply find_some in H. Qed.

Ltac nobad_step H :=
  match goal with
  | |- nobad (match ?x with _ => _ end) => destruct x eqn:?
  | |- nobad (if ?x then _ else _) => destruct x eqn:?
  | |- nobad (Ok _) => apply nobad_ok
  | |- nobad (obind _ _) => apply nobad_bind; [|intros ? ?]
  | |- nobad (omap _ _) => apply nobad_omap
  | |- nobad (unwrap _ _) => apply nobad_unwrap
  | |- nobad (index _ _) => apply nobad_unwrap
  | |- nobad (mk_function _) => apply nobad_mk_function
  | E : delimited _ _ _ = Some ?m |- nobad ?m => eapply nobad_delimited; exact E
  | E : delimited _ _ _ = Some ?m, E2 : ?m = Ok ?x |- nobad (_ ?x) => apply H; refine (delimited_measure _ _ _ _ _ _ E E2); discriminate
  | E : prefixed _ _ = Some ?x |- nobad (_ ?x) => apply H; refine (prefixed_measure _ _ _ _ E); discriminate
  | E : delimited _ _ _ = Some ?m, E2 : ?m = Ok ?x |- nobad (parse_args _ _ ?x) =>
      apply nobad_parse_args; intros; apply H; eapply Nat.le_lt_trans; [eassumption|refine (delimited_measure _ _ _ _ _ _ E E2); discriminate]
  end.

Lemma body_nobad : forall dbg rec s, (forall x, str_measure x < str_measure s -> nobad (rec x)) ->
  nobad (from_str_body dbg rec s).
Proof.
  intros dbg rec s H. unfold from_str_body. destruct (lookup_lit s lits_prim); [easy|].
  destruct ((count_char c_bar s =? 1) && (count_str (u "None") s =? 1))%N eqn:Eo.
  - unfold from_optional. apply nobad_bind; [apply nobad_unwrap|]. intros x Hx. apply nobad_omap. apply H.
    destruct (find _ (split_trim c_bar s)) as [y|] eqn:Ef; [|easy]. injection Hx as ->. apply find_In in Ef as [Ef _].
    unfold split_trim in Ef. apply in_map_iff in Ef as (y & <- & Hy).
    pose proof (measure_trim y). pose proof (join_length_ge [c_bar] _ _ Hy) as Hj. rewrite join_split_char in Hj.
    (* the piece has no bar, the text has one *)
    apply split_char_no_sep in Hy. apply count_char_0 in Hy. unfold str_measure in *.
    apply andb_prop in Eo as [Eo _]. apply N.eqb_eq in Eo.  lia.
  - destruct (contains_char c_bar s) eqn:Eb.
    + unfold from_union. apply nobad_bind; [apply nobad_repair|]. intros pieces Hp. apply nobad_omap.
      apply nobad_mapM. intros x Hx. apply H.
      pose proof (repair_measure _ _ _ _ _ Hp Hx) as Hm. apply contains_char_In in Eb.
      pose proof (split_char_two _ _ Eb). rewrite measure_bar in Hm. lia.
    + unfold from_colls, from_colls2, from_mid, from_wrapped. repeat (nobad_step H).
Qed.

Lemma from_str_fuel_nobad : forall dbg n s, str_measure s < n -> nobad (from_str_fuel dbg n s).
Proof.
  intros dbg. induction n as [|n IH]; intros s H; [lia|]. cbn [from_str_fuel]. apply body_nobad.
  intros x Hx. apply IH. lia.
Qed.

Lemma from_str_nobad : forall dbg s, nobad (from_str dbg s).
Proof. intros. apply from_str_fuel_nobad. lia. Qed.

(** ** More fuel does not change the answer *)
Definition le_out {A} (a b : outcome A) : Prop := a = OutOfFuel \/ a = b.
Lemma le_refl_out : forall {A} (a : outcome A), le_out a a.
Proof. now right. Qed.
Lemma le_bind : forall {A B} (m m' : outcome A) (f f' : A -> outcome B),
  le_out m m' -> (forall a, le_out (f a) (f' a)) -> le_out (obind m f) (obind m' f').
Proof. intros A B m m' f f' [->| ->] Hf; [now left|]. destruct m'; cbn; [apply Hf|apply le_refl_out..]. Qed.
Lemma le_mapM : forall {A B} (f f' : A -> outcome B) l, (forall a, le_out (f a) (f' a)) -> le_out (mapM f l) (mapM f' l).
Proof.
  intros A B f f' l H. induction l as [|x l IH]; [apply le_refl_out|]. cbn [mapM]. apply le_bind; [apply H|].
  intros a. apply le_bind; [apply IH|]. intros. apply le_refl_out.
Qed.

Lemma body_mono : forall dbg rec rec' s, (forall x, le_out (rec x) (rec' x)) ->
  le_out (from_str_body dbg rec s) (from_str_body dbg rec' s).
Proof.
  intros dbg rec rec' s H.
  unfold from_str_body, from_optional, from_union, from_colls, from_colls2, from_mid, from_wrapped, parse_args, omap.
  repeat match goal with
  | |- le_out (match ?x with _ => _ end) (match ?x with _ => _ end) => destruct x
  | |- le_out (obind _ _) (obind _ _) => apply le_bind; [|intros ?]
  | |- le_out (rec _) (rec' _) => apply H
  | |- le_out (mapM rec _) (mapM rec' _) => apply le_mapM; apply H
  | |- le_out ?a ?a => apply le_refl_out
  end.
Qed.

Lemma fuel_mono : forall dbg n s, le_out (from_str_fuel dbg n s) (from_str_fuel dbg (S n) s).
Proof.
  intros dbg. induction n as [|n IH]; intros s; [now left|]. 
  change (le_out (from_str_body dbg (from_str_fuel dbg n) s) (from_str_body dbg (from_str_fuel dbg (S n)) s)).
  apply body_mono. apply IH.
Qed.

Lemma fuel_enough : forall dbg n s, str_measure s < n -> from_str_fuel dbg n s = from_str dbg s.
Proof.
  intros dbg n s H. unfold from_str.
  assert (forall k, from_str_fuel dbg (k + S (str_measure s)) s = from_str_fuel dbg (S (str_measure s)) s).
  { induction k as [|k IH]; [easy|]. change (S k + S (str_measure s)) with (S (k + S (str_measure s))).
    destruct (fuel_mono dbg (k + S (str_measure s)) s) as [E|E]; [|congruence].
    exfalso. apply (proj1 (from_str_fuel_nobad dbg (k + S (str_measure s)) s ltac:(lia))). easy. }
  replace n with ((n - S (str_measure s)) + S (str_measure s)) by lia. apply H0.
Qed.

(** The defining equation of [from_str]: the recursion is on [from_str] itself. *)
Lemma body_ext : forall dbg rec rec' s, (forall x, str_measure x < str_measure s -> rec x = rec' x) ->
  (forall x, str_measure x < str_measure s -> nobad (rec x)) ->
  from_str_body dbg rec s = from_str_body dbg rec' s.
Proof.
  intros dbg rec rec' s H Hn.
  set (r0 := fun x => if str_measure x <? str_measure s then rec x else OutOfFuel).
  assert (H0 : nobad (from_str_body dbg r0 s)).
  { apply body_nobad. intros x Hx. unfold r0. apply Nat.ltb_lt in Hx as Hx'. rewrite Hx'. now apply Hn. }
  assert (H1 : le_out (from_str_body dbg r0 s) (from_str_body dbg rec s)).
  { apply body_mono. intros x. unfold r0. destruct (_ <? _); [now right|now left]. }
  assert (H2 : le_out (from_str_body dbg r0 s) (from_str_body dbg rec' s)).
  { apply body_mono. intros x. unfold r0. destruct (Nat.ltb_spec (str_measure x) (str_measure s)); [right; now apply H|now left]. }
  destruct H1 as [H1|H1]; [now destruct H0|]. destruct H2 as [H2|H2]; [now destruct H0|]. congruence.
Qed.

Lemma from_str_eq : forall dbg s, from_str dbg s = from_str_body dbg (from_str dbg) s.
Proof.
  intros dbg s. unfold from_str at 1. cbn [from_str_fuel]. apply body_ext.
  - intros x Hx. apply fuel_enough. lia.
  - intros x Hx. apply from_str_fuel_nobad. lia.
Qed.
