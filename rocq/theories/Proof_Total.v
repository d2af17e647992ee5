From Verif Require Import Base Model_Config Model_Type Spec_Type Proof_Base Proof_Repair Proof_Type Proof_Ann Proof_Union.

(** ** C11: texts without the critical substrings are always converted *)
Definition fine {A} (m : outcome A) : Prop := exists a, m = Ok a.

Lemma contains_skip : forall k a c b, k <> [] -> ~ In c k -> contains_str k a = false ->
  contains_str k (a ++ c :: b) = contains_str k b.
Proof.
  intros k a c b Hk Hc. induction a as [|d a IH]; intros Ha.
  - cbn [app contains_str]. cbn [contains_str] in Ha. rewrite orb_false_r in Ha.
    unfold starts_with at 1. now rewrite (strip_prefix_skip k [] c b Ha Hc : strip_prefix k (c :: b) = None).
  - assert (Hs : starts_with k (d :: a) = false) by (cbn [contains_str] in Ha; now apply orb_false_iff in Ha).
    pose proof (strip_prefix_skip k (d :: a) c b Hs Hc) as E. cbn [app] in *. cbn [contains_str].
    unfold starts_with at 1. rewrite E. cbn [orb]. apply IH. now apply contains_tail in Ha.
Qed.
Lemma contains_mid : forall k p x q, contains_str k (p ++ x ++ q) = false -> contains_str k x = false.
Proof.
  intros k p x q H. destruct (contains_str k x) eqn:E; [|easy]. apply contains_str_iff in E as (a & b & ->).
  rewrite <- H. symmetry. apply contains_str_iff. exists (p ++ a), (b ++ q). now rewrite <- !app_assoc.
Qed.
Lemma contains_join : forall k c l, k <> [] -> ~ In c k -> (forall x, In x l -> contains_str k x = false) ->
  contains_str k (join [c] l) = false.
Proof.
  intros k c l Hk Hc. induction l as [|x l IH]; intros H.
  - destruct k; easy.
  - destruct l as [|y l]; [cbn; apply H; now left|]. rewrite join_cons. cbn [app].
    rewrite contains_skip; [|easy|easy|apply H; now left]. apply IH. intros z Hz. apply H. now right.
Qed.
Lemma in_join : forall (sep : str) l x, In x l -> exists p q, join sep l = p ++ x ++ q.
Proof.
  intros sep l x. induction l as [|y l IH]; intros H; [easy|]. destruct l as [|z l].
  - destruct H as [->|[]]. exists [], []. cbn. now rewrite app_nil_r.
  - rewrite join_cons. destruct H as [->|H].
    + exists [], (sep ++ join sep (z :: l)). easy.
    + destruct (IH H) as (p & q & E). exists (y ++ sep ++ p), q. rewrite E. now rewrite <- !app_assoc.
Qed.

(** What makes a text safe: none of the three critical substrings, and for a debug build no
    closing bracket (so that the bracket counter cannot underflow). *)
Definition safe (dbg : bool) (s : str) : Prop :=
  (forall k, In k (map u ["dict["; "<class '>"; "<enum '>"]%string) -> contains_str k s = false) /\
  (dbg = false \/ ~ In c_rbr s).

Lemma safe_mid : forall dbg p x q, safe dbg (p ++ x ++ q) -> safe dbg x.
Proof.
  intros dbg p x q [H1 H2]. split.
  - intros k Hk. apply (contains_mid k p x q). now apply H1.
  - destruct H2 as [H2|H2]; [now left|right]. intros Hi. apply H2. apply in_or_app. right. apply in_or_app. now left.
Qed.
Lemma safe_trim : forall dbg s, safe dbg s -> safe dbg (trim s).
Proof. intros dbg s H. destruct (trim_decomp s) as (p & q & Hs & _). rewrite Hs in H. now apply safe_mid in H. Qed.
Lemma safe_split : forall dbg c s x, safe dbg s -> In x (split_trim c s) -> safe dbg x.
Proof.
  intros dbg c s x H Hx. unfold split_trim in Hx. apply in_map_iff in Hx as (y & <- & Hy). apply safe_trim.
  rewrite <- (join_split_char c s) in H. destruct (in_join [c] _ _ Hy) as (p & q & E). rewrite E in H. now apply safe_mid in H.
Qed.
Lemma safe_pieces : forall dbg c s l x, safe dbg s -> repair dbg c_comma (split_trim c s) = Ok l -> In x l -> safe dbg x.
Proof.
  intros dbg c s l x H Hr Hx. apply repair_text_kept in Hr. destruct (in_join [c_comma] _ _ Hx) as (p & q & E).
  rewrite Hr in E. apply (safe_mid dbg p x q). rewrite <- E. split.
  - intros k Hk. apply contains_join.
    + now destruct Hk as [<-|[<-|[<-|[]]]].
    + destruct Hk as [<-|[<-|[<-|[]]]]; comma_const.
    + intros y Hy. now apply (safe_split dbg c s y H Hy).
  - destruct H as [H [H2|H2]]; [now left|right]. apply join_no_char; [easy || (intros [?|[]]; easy)|].
    intros y Hy. destruct (safe_split dbg c s y) as [_ [Hd|Hd]]; [split; [easy|now right]|easy| |easy].
    subst dbg. intros Hi. apply H2. rewrite <- (join_split_char c s).
    unfold split_trim in Hy. apply in_map_iff in Hy as (z & <- & Hz). destruct (in_join [c] _ _ Hz) as (p' & q' & E').
    rewrite E'. apply in_or_app. right. apply in_or_app. left.
    destruct (trim_decomp z) as (a & b & Hz' & _). rewrite Hz'. apply in_or_app. right. apply in_or_app. now left.
Qed.

Lemma find_close_noclose : forall dbg sep rest n acc p, (0 <= n)%Z -> (forall x, In x rest -> n_close x = 0%Z) ->
  fine (find_close dbg sep n acc p rest).
Proof.
  intros dbg sep. induction rest as [|x rest IH]; intros n acc p Hn H; [eexists; reflexivity|].
  cbn [find_close]. rewrite (H x (or_introl eq_refl)). pose proof (n_open_nonneg x). rewrite usize_sub_ok by lia. cbn [obind].
  destruct (n + n_open x - 0 =? 0)%Z; [eexists; reflexivity|]. apply IH; [lia|]. intros y Hy. apply H. now right.
Qed.
Lemma n_close_0 : forall s, ~ In c_rbr s -> n_close s = 0%Z.
Proof. intros s H. unfold n_close. apply count_char_0 in H. now rewrite H. Qed.
Lemma repair_loop_noclose : forall sep fuel seq, (length seq <= fuel)%nat -> seq <> [] -> bal [sep] = 0%Z ->
  (forall x, In x seq -> ~ In c_rbr x) -> sep <> c_rbr -> fine (repair_loop true sep fuel seq).
Proof.
  intros sep fuel seq Hf Hn Hb H Hsep.
  destruct (repair_loop_total true sep fuel seq Hn Hf) as (A & B & _ & D).
  assert (Hp : forall k, repair_loop true sep fuel seq <> Panic k).
  { clear A B D Hf Hn Hb. revert seq H. induction fuel as [|fuel IH]; intros seq H k; [easy|].
    cbn [repair_loop]. destruct seq as [|x rest]; [easy|]. destruct rest as [|y rest]; [easy|].
    assert (Hx : n_close x = 0%Z) by (apply n_close_0, H; now left). rewrite Hx.
    pose proof (n_open_nonneg x). rewrite usize_sub_ok by lia. cbn [obind].
    assert (Hrec : forall l, (forall z, In z l -> ~ In c_rbr z) -> forall k, omap (cons x) (repair_loop true sep fuel l) <> Panic k).
    { intros l Hl k' E. unfold omap, obind in E. destruct (repair_loop true sep fuel l) eqn:El; try easy. now apply (IH l Hl) in El. }
    destruct (n_open x - 0 =? 0)%Z; [apply Hrec; intros; apply H; now right|].
    destruct (find_close_noclose true sep (y :: rest) (n_open x - 0) x 1) as [c Ec]; [lia|intros z Hz; apply n_close_0, H; now right|].
    rewrite Ec. cbn [obind]. destruct c as [[[m p] r]|]; [|apply Hrec; intros; apply H; now right].
    destruct (p <=? length r)%nat; [|easy]. apply IH. intros z [<-|Hz].
    - apply find_close_spec in Ec as (pre & Epre & _ & -> & _). rewrite join_concat. apply join_no_char.
      + intros [E|[]]. now apply Hsep.
      + intros w [<-|Hw]; apply H; [now left|]. right. rewrite Epre. apply in_or_app. now left.
    - apply find_close_spec in Ec as (pre & Epre & _ & _ & _). apply H. right. rewrite Epre. apply in_or_app. now right. }
  destruct (repair_loop true sep fuel seq) as [l|e|k|] eqn:E; [now exists l|now destruct (B e)|now destruct (Hp k)|easy].
Qed.

Lemma repair_fine : forall dbg c s, safe dbg s -> fine (repair dbg c_comma (split_trim c s)).
Proof.
  intros dbg c s H.
  assert (Hn : split_trim c s <> []) by (unfold split_trim; destruct (split_char_cons c s) as (? & ? & ->); easy).
  destruct dbg; [|destruct (repair_total_release c_comma _ Hn) as [l E]; now exists l].
  unfold repair. destruct (split_trim c s) as [|x l] eqn:E; [easy|].
  apply repair_loop_noclose; [lia|easy|reflexivity| |easy].
  intros y Hy. rewrite <- E in Hy. apply (safe_split true c s y H) in Hy. now destruct Hy as [_ [?|?]].
Qed.

Lemma fine_bind : forall {A B} (m : outcome A) (f : A -> outcome B), fine m -> (forall a, m = Ok a -> fine (f a)) -> fine (obind m f).
Proof. intros A B m f [a ->] H. cbn. now apply H. Qed.
Lemma fine_omap : forall {A B} (f : A -> B) m, fine m -> fine (omap f m).
Proof. intros A B f m [a ->]. eexists. reflexivity. Qed.
Lemma fine_mapM : forall {A B} (f : A -> outcome B) l, (forall x, In x l -> fine (f x)) -> exists r, mapM f l = Ok r /\ length r = length l.
Proof.
  induction l as [|x l IH]; intros H; [exists []; easy|]. cbn [mapM]. destruct (H x (or_introl eq_refl)) as [a ->]. cbn [obind].
  destruct IH as (r & -> & Hr); [intros; apply H; now right|]. exists (a :: r). cbn. now rewrite Hr.
Qed.

Lemma parse_args_fine : forall dbg rec s, safe dbg s -> (forall x, safe dbg x -> str_measure x <= str_measure s -> fine (rec x)) ->
  exists l, parse_args dbg rec s = Ok l /\ l <> [].
Proof.
  intros dbg rec s Hs H. unfold parse_args. destruct (repair_fine dbg c_comma s Hs) as [l El]. rewrite El. cbn [obind].
  destruct (fine_mapM rec l) as (r & -> & Hr).
  - intros x Hx. apply H; [now apply (safe_pieces dbg c_comma s l x)|].
    pose proof (repair_measure dbg c_comma s l x El Hx) as Hm. rewrite measure_comma in Hm. lia.
  - exists r. split; [easy|]. intros ->. destruct l; [|easy]. unfold repair in El.
    assert (Hn : split_trim c_comma s <> []) by (unfold split_trim; destruct (split_char_cons c_comma s) as (? & ? & ->); easy).
    destruct (split_trim c_comma s) eqn:E; [easy|]. apply repair_loop_join in El as [_ El]. now apply El.
Qed.

(** A bracketed arm never panics: the opening part does not end in the closing bracket. *)
Lemma delimited_bracket : forall p s m, delimited (p ++ [c_lbr]) [c_rbr] s = Some m -> exists x, m = Ok x /\ s = (p ++ [c_lbr]) ++ x ++ [c_rbr].
Proof.
  intros p s m H. pose proof (delimited_Some _ _ _ _ H) as ((t & E) & (t' & E') & [->|Hx]); [|easy]. exfalso.
  destruct (rev t) as [|c r] eqn:Er.
  - assert (t = []) as -> by (rewrite <- (rev_involutive t), Er; easy). rewrite app_nil_r in E. rewrite E in E'.
    apply app_inj_tail in E' as [_ E']. easy.
  - assert (Ht : t = rev r ++ [c]) by (rewrite <- (rev_involutive t), Er; easy). subst t.
    assert (Hc : c = c_rbr). { rewrite E, app_assoc in E'. now apply app_inj_tail in E' as [_ ->]. }
    subst c. rewrite E, delimited_mk in H. easy.
Qed.
Lemma delimited_quote : forall p s m, delimited (p ++ [39%N]) [39%N; 62%N] s = Some m ->
  contains_str (p ++ [39%N; 62%N]) s = false -> exists x, m = Ok x /\ s = (p ++ [39%N]) ++ x ++ [39%N; 62%N].
Proof.
  intros p s m H Hc. pose proof (delimited_Some _ _ _ _ H) as ((t & E) & (t' & E') & [->|Hx]); [|easy]. exfalso.
  destruct (rev t) as [|c r] eqn:Er.
  - assert (t = []) as -> by (rewrite <- (rev_involutive t), Er; easy). rewrite app_nil_r in E. rewrite E in E'.
    change [39%N; 62%N] with ([39%N] ++ [62%N]) in E'. rewrite app_assoc in E'. apply app_inj_tail in E' as [_ E']. easy.
  - assert (Ht : t = rev r ++ [c]) by (rewrite <- (rev_involutive t), Er; easy). subst t. clear Er.
    change [39%N; 62%N] with ([39%N] ++ [62%N]) in E'. rewrite E, app_assoc in E'. rewrite (app_assoc t') in E'.
    apply app_inj_tail in E' as [E' ->].
    destruct r as [|d r]; cbn [rev] in *.
    + assert (contains_str (p ++ [39%N; 62%N]) s = true); [|congruence]. apply contains_str_iff. exists [], [].
      rewrite E, app_nil_r. cbn [app]. now rewrite <- app_assoc.
    + rewrite app_assoc in E'. apply app_inj_tail in E' as [_ ->].
      rewrite E in H. rewrite <- (app_assoc (rev r)) in H. cbn [app] in H. rewrite delimited_mk in H. easy.
Qed.

Lemma optional_found : forall s,
  ((count_char c_bar s =? 1) && (count_str (u "None") s =? 1))%N = true ->
  exists x, find (fun x => negb (str_eqb x (u "None"))) (split_trim c_bar s) = Some x.
Proof.
  intros s Hc. apply andb_prop in Hc as [H1 H2]. apply N.eqb_eq in H1. apply N.eqb_eq in H2.
  destruct (find (fun x => negb (str_eqb x (u "None"))) (split_trim c_bar s)) as [x|] eqn:E; [now exists x|].
  exfalso. (* both pieces are "None", so it occurs twice *)
  assert (Hall : forall x, In x (split_trim c_bar s) -> x = u "None").
  { intros x Hx. pose proof (find_none _ _ E x Hx) as Hf. cbn in Hf. apply negb_false_iff in Hf. now apply str_eqb_eq. }
  pose proof (count_char_join c_bar (split_char c_bar s) (split_char_nonnil _ _) (fun p => split_char_no_sep c_bar s p)) as Hcc.
  rewrite join_split_char, H1 in Hcc. cbn in Hcc.
  pose proof (join_split_char c_bar s) as Hj. unfold split_trim in Hall.
  destruct (split_char c_bar s) as [|a [|b [|? ?]]]; cbn in Hcc; try lia.
  assert (Ha : trim a = u "None") by (apply Hall; now left). assert (Hb : trim b = u "None") by (apply Hall; right; now left).
  destruct (trim_decomp a) as (p & q & Ea & Bp & Bq). destruct (trim_decomp b) as (p' & q' & Eb & Bp' & Bq').
  rewrite Ha in Ea. rewrite Hb in Eb. subst a b. cbn [join] in Hj. subst s. rewrite forallb_forall in *.
  unfold count_str in H2. rewrite <- !app_assoc, !app_length in H2.
  revert H2. replace (S _) with (length p + S (4 + (length q + S (length p' + S (3 + length q'))))) by (cbn [length u]; cbn; lia).
  rewrite count_fuel_blank; [|easy|intros c Hcw; now apply (blank_not_none p)].
  cbn [count_str_fuel]. rewrite strip_prefix_app.
  replace (4 + (length q + S (length p' + S (3 + length q')))) with (length q + S (length p' + S (7 + length q'))) by lia.
  rewrite count_fuel_blank; [|easy|intros c Hcw; now apply (blank_not_none q)].
  change (S (length p' + S (7 + length q'))) with (length (@nil N) + S (length p' + S (7 + length q'))).
  change ([c_bar] ++ p' ++ u "None" ++ q') with ([] ++ c_bar :: (p' ++ u "None" ++ q')).
  rewrite count_fuel_skip; [|easy|apply contains_false; reflexivity]. rewrite count_none_last by easy. easy.
Qed.
Lemma optional_fine : forall dbg rec s, safe dbg s ->
  ((count_char c_bar s =? 1) && (count_str (u "None") s =? 1))%N = true ->
  (forall x, safe dbg x -> str_measure x < str_measure s -> fine (rec x)) -> fine (from_optional rec s).
Proof.
  intros dbg rec s Hs Hc H. unfold from_optional. apply andb_prop in Hc as [H1 H2].
  apply N.eqb_eq in H1. apply N.eqb_eq in H2.
  destruct (optional_found s) as (x & E); [now rewrite H1, H2|]. rewrite E.
  cbn [unwrap obind]. apply fine_omap. apply find_In in E as [E _]. apply H; [now apply (safe_split dbg c_bar s)|].
  unfold split_trim in E. apply in_map_iff in E as (y & <- & Hy). pose proof (measure_trim y).
  assert (Hb : In c_bar s). { destruct (in_dec N.eq_dec c_bar s) as [|Hn]; [easy|]. apply count_char_0 in Hn. congruence. }
  pose proof (split_char_two c_bar s Hb) as Hl. rewrite <- (join_split_char c_bar s).
  destruct (split_char c_bar s) as [|a [|b l]] eqn:Es; cbn in Hl; try lia.
  assert (Hm : forall l0 z, In z l0 -> (length l0 >= 2)%nat -> str_measure z < str_measure (join [c_bar] l0)); [|specialize (Hm _ _ Hy Hl); lia].
  clear. intros l0 z Hz Hl. destruct l0 as [|a [|b l]]; cbn in Hl; try lia. rewrite join_cons, !measure_app, measure_bar.
  destruct Hz as [->|Hz]; [lia|]. pose proof (measure_in_join [c_bar] _ _ Hz). lia.
Qed.

Ltac fine_delim H E :=
  match goal with
  | |- fine (match delimited ?p ?q ?s with _ => _ end) => destruct (delimited p q s) eqn:E
  end.

Lemma body_fine : forall dbg rec s, safe dbg s ->
  (forall x, safe dbg x -> str_measure x < str_measure s -> fine (rec x)) -> fine (from_str_body dbg rec s).
Proof.
  intros dbg rec s Hs H. unfold from_str_body. destruct (lookup_lit s lits_prim); [eexists; reflexivity|].
  destruct ((count_char c_bar s =? 1) && (count_str (u "None") s =? 1))%N eqn:Ec; [now apply (optional_fine dbg)|].
  destruct (contains_char c_bar s) eqn:Eb.
  { unfold from_union. destruct (repair_fine dbg c_bar s Hs) as [l El]. rewrite El. cbn [obind]. apply fine_omap.
    destruct (fine_mapM rec l) as (r & Er & _); [|now exists r].
    intros x Hx. apply H; [now apply (safe_pieces dbg c_bar s l x)|].
    pose proof (repair_measure dbg c_bar s l x El Hx) as Hm. apply contains_char_In in Eb.
    pose proof (split_char_two c_bar s Eb). rewrite measure_bar in Hm. nia. }
  assert (Hlt : forall p q x, p <> [] -> s = p ++ x ++ q -> fine (rec x)).
  { intros p q x Hp ->. apply H; [now apply safe_mid in Hs|]. rewrite !measure_app. destruct p as [|c p]; [easy|].
    rewrite (measure_cons c p). pose proof (measure_char c). lia. }
  assert (Hargs : forall p q x, p <> [] -> s = p ++ x ++ q -> exists l, parse_args dbg rec x = Ok l /\ l <> []).
  { intros p q x Hp ->. apply parse_args_fine; [now apply safe_mid in Hs|]. intros y Hy Hm. apply H; [easy|].
    rewrite !measure_app. destruct p as [|c p]; [easy|]. rewrite (measure_cons c p). pose proof (measure_char c). lia. }
  assert (Hone : forall p (f : ptype -> ptype) m, delimited (p ++ [c_lbr]) [c_rbr] s = Some m -> fine (let! x := m in omap f (rec x))).
  { intros p f m E. apply delimited_bracket in E as (x & -> & E). cbn [obind]. apply fine_omap.
    apply (Hlt (p ++ [c_lbr]) [c_rbr] x); [now destruct p|easy]. }
  destruct Hs as [Hk Hdbg].
  unfold from_colls. destruct (lookup_lit s lits_none); [eexists; reflexivity|].
  destruct (delimited (u "dict[") [c_rbr] s) as [m|] eqn:E.
  { exfalso. apply (delimited_bracket (u "dict")) in E as (x & _ & E).
    assert (contains_str (u "dict[") s = true) by (apply contains_str_iff; exists [], (x ++ [c_rbr]); exact E).
    rewrite Hk in *; [easy|now left]. }
  destruct (lookup_lit s lits_dict); [eexists; reflexivity|].
  destruct (delimited (u "frozenset[") [c_rbr] s) as [m|] eqn:E1; [now apply (Hone (u "frozenset"))|].
  destruct (delimited (u "list[") [c_rbr] s) as [m|] eqn:E2; [now apply (Hone (u "list"))|].
  destruct (str_eqb s (u "list")); [eexists; reflexivity|].
  destruct (delimited (u "Sequence[") [c_rbr] s) as [m|] eqn:E3; [now apply (Hone (u "Sequence"))|].
  destruct (lookup_lit s lits_seq); [eexists; reflexivity|].
  unfold from_colls2.
  destruct (delimited (u "Iterable[") [c_rbr] s) as [m|] eqn:E4; [now apply (Hone (u "Iterable"))|].
  destruct (delimited (u "Iterator[") [c_rbr] s) as [m|] eqn:E5; [now apply (Hone (u "Iterator"))|].
  destruct (delimited (u "set[") [c_rbr] s) as [m|] eqn:E6; [now apply (Hone (u "set"))|].
  destruct (delimited (u "tuple[") [c_rbr] s) as [m|] eqn:E7.
  { apply (delimited_bracket (u "tuple")) in E7 as (x & -> & Ex). cbn [obind]. apply fine_omap.
    destruct (Hargs _ _ x (ltac:(easy) : (u "tuple" ++ [c_lbr]) <> []) Ex) as (l & -> & _). now exists l. }
  unfold from_mid. destruct (lookup_lit s lits_mid); [eexists; reflexivity|].
  destruct (delimited (u "Callable[") [c_rbr] s) as [m|] eqn:E8.
  { apply (delimited_bracket (u "Callable")) in E8 as (x & -> & Ex). cbn [obind].
    destruct (Hargs _ _ x (ltac:(easy) : (u "Callable" ++ [c_lbr]) <> []) Ex) as (l & -> & Hl). cbn [obind]. unfold mk_function.
    destruct (rev l) as [|r ps] eqn:Er; [|eexists; reflexivity]. exfalso. apply Hl. rewrite <- (rev_involutive l), Er. easy. }
  destruct (lookup_lit s lits_late); [eexists; reflexivity|].
  unfold from_wrapped.
  destruct (delimited (u "type[") [c_rbr] s) as [m|] eqn:E9.
  { apply (delimited_bracket (u "type")) in E9 as (x & -> & Ex). cbn [obind]. now apply (Hlt _ _ x (ltac:(easy) : (u "type" ++ [c_lbr]) <> [])) in Ex. }
  destruct (delimited (u "<class '") (u "'>") s) as [m|] eqn:E10.
  { apply (delimited_quote (u "<class ")) in E10 as (x & -> & Ex); [|apply Hk; right; now left]. cbn [obind].
    now apply (Hlt _ _ x (ltac:(easy) : (u "<class " ++ [39%N]) <> [])) in Ex. }
  destruct (delimited (u "<enum '") (u "'>") s) as [m|] eqn:E11.
  { apply (delimited_quote (u "<enum ")) in E11 as (x & -> & Ex); [|apply Hk; right; right; now left]. cbn [obind].
    now apply (Hlt _ _ x (ltac:(easy) : (u "<enum " ++ [39%N]) <> [])) in Ex. }
  assert (Hpre : forall p x, p <> [] -> prefixed p s = Some x -> fine (rec x)).
  { intros p x Hp Ex. unfold prefixed in Ex. apply strip_prefix_Some in Ex. apply (Hlt p [] x Hp). now rewrite app_nil_r. }
  destruct (prefixed (u "typing.") s) as [x|] eqn:E12; [now apply (Hpre (u "typing."))|].
  destruct (prefixed (u "collections.abc.") s) as [x|] eqn:E13; [now apply (Hpre (u "collections.abc."))|].
  destruct (prefixed (u "collections.") s) as [x|] eqn:E14; [now apply (Hpre (u "collections."))|].
  destruct (mem_str s forbidden_type_names); eexists; reflexivity.
Qed.

Lemma from_str_fine : forall dbg s, safe dbg s -> fine (from_str dbg s).
Proof.
  intros dbg s. remember (str_measure s) as n eqn:En. revert s En. induction n as [n IH] using lt_wf_ind. intros s -> Hs.
  rewrite from_str_eq. apply body_fine; [easy|]. intros x Hx Hm. now apply (IH (str_measure x)).
Qed.
