From Verif Require Import Base Model_Config Model_Type Spec_Type Spec_Loose Proof_Base Proof_Repair Proof_Type Proof_Ann Proof_Union Proof_Total.

(** ** C11: trees whose arguments may have any number of pieces *)

Lemma plain_inner : forall n, plain_name n -> inner 1 n.
Proof.
  intros n Hn. split.
  - unfold bal, n_open, n_close. destruct Hn as (_ & Hn & _).
    assert (H1 : ~ In c_lbr n) by (intros Hi; apply Hn in Hi as [_ Hi]; apply Hi; cbn; tauto).
    assert (H2 : ~ In c_rbr n) by (intros Hi; apply Hn in Hi as [_ Hi]; apply Hi; cbn; tauto).
    apply count_char_0 in H1. apply count_char_0 in H2. rewrite H1, H2. easy.
  - intros x y E. exfalso. apply (plain_no_comma n Hn). rewrite E. apply in_or_app. right. now left.
Qed.

(** *** Layout, as for [ann_ok] *)
Lemma loose_no_bar : forall w a, all_blank w -> ann_loose a -> ~ In c_bar (print_ann w a).
Proof.
  intros w a Hw Ha. induction Ha as [n Hn|g a Ha IH|k v Hk IHk Hv IHv Hf|l Hl Ha IH|ps r Hps IHps Hr IHr|k n Hk Hn|k a Hw' Ha IH Hab].
  - destruct Hn as (_ & Hn & _). cbn. intros Hi. apply Hn in Hi as [_ Hi]. apply Hi. cbn. tauto.
  - cbn [print_ann]. repeat apply no_bar_app; try easy; try nobar_const. destruct g; nobar_const.
  - cbn [print_ann]. repeat apply no_bar_app; try easy; try nobar_const. now apply blank_no_bar.
  - cbn [print_ann]. repeat apply no_bar_app; try nobar_const. apply join_no_char.
    + apply no_bar_app; [nobar_const|now apply blank_no_bar].
    + intros s Hs. apply in_map_iff in Hs as (a & <- & Hi). now apply IH.
  - cbn [print_ann]. repeat apply no_bar_app; try nobar_const. apply join_no_char.
    + apply no_bar_app; [nobar_const|now apply blank_no_bar].
    + intros s Hs. apply in_app_or in Hs as [Hs|[<-|[]]]; [|easy]. apply in_map_iff in Hs as (a & <- & Hi). now apply IHps.
  - destruct Hn as (_ & Hn & _). cbn [print_ann]. assert (~ In c_bar n) by (intros Hi; apply Hn in Hi as [_ Hi]; apply Hi; cbn; tauto).
    repeat apply no_bar_app; try easy; destruct k; nobar_const.
  - cbn [print_ann]. repeat apply no_bar_app; try easy; destruct k; nobar_const.
Qed.

Lemma loose_spaced : forall w a, ann_loose a -> print_ann w a = spaced w (print_ann [] a).
Proof.
  intros w a Ha. induction Ha as [n Hn|g a Ha IH|k v Hk IHk Hv IHv Hf|l Hl Ha IH|ps r Hps IHps Hr IHr|k n Hk Hn|k a Hw' Ha IH Hab];
    cbn [print_ann]; rewrite ?spaced_app.
  - now rewrite spaced_none by now apply plain_no_comma.
  - rewrite IH. rewrite (spaced_none w (gen_name g)) by apply gen_pre_no_comma. easy.
  - rewrite IHk, IHv. change (spaced w (u "dict[")) with (u "dict["). change (spaced w (u "]")) with (u "]").
    change (spaced w (u ",")) with (c_comma :: w ++ []). change (spaced w []) with (@nil N). rewrite app_nil_r. easy.
  - change (u "," ++ []) with [c_comma]. rewrite spaced_join, map_map.
    rewrite (map_ext_in _ (fun a => spaced w (print_ann [] a)) l) by now intros; apply IH. easy.
  - change (u "," ++ []) with [c_comma]. rewrite spaced_join, map_app, map_map. cbn [map]. rewrite <- IHr.
    rewrite (map_ext_in _ (fun a => spaced w (print_ann [] a)) ps) by now intros; apply IHps. easy.
  - rewrite (spaced_none w n) by now apply plain_no_comma. destruct k; easy.
  - rewrite IH. destruct k; easy.
Qed.

Lemma loose_all_solid : forall a, ann_loose a -> all_solid (print_ann [] a).
Proof.
  intros a Ha. induction Ha as [n Hn|g a Ha IH|k v Hk IHk Hv IHv Hf|l Hl Ha IH|ps r Hps IHps Hr IHr|k n Hk Hn|k a Hw' Ha IH Hab];
    cbn [print_ann].
  - apply solid_all; [now apply plain_no_comma|now apply plain_solid].
  - rewrite app_assoc. apply print_bracket; [|destruct g; right; eexists; eexists; split; reflexivity|easy].
    intros Hi. apply in_app_or in Hi as [Hi|Hi]; [now apply gen_pre_no_comma in Hi|revert Hi; comma_const].
  - change ([] ++ print_ann [] v ++ u "]") with (print_ann [] v ++ u "]").
    replace (print_ann [] k ++ u "," ++ print_ann [] v ++ u "]")
      with (join [c_comma] [print_ann [] k; print_ann [] v] ++ u "]") by (cbn [join]; rewrite <- !app_assoc; reflexivity).
    apply print_bracket; [comma_const|right; eexists; eexists; split; reflexivity|]. apply all_solid_join; [easy|].
    intros s [<-|[<-|[]]]; easy.
  - change (u "," ++ []) with [c_comma]. apply print_bracket; [comma_const|right; eexists; eexists; split; reflexivity|].
    apply all_solid_join; [destruct l; easy|]. intros s Hs. apply in_map_iff in Hs as (a & <- & Hi). now apply IH.
  - change (u "," ++ []) with [c_comma]. apply print_bracket; [comma_const|right; eexists; eexists; split; reflexivity|].
    apply all_solid_join; [destruct ps; easy|]. intros s Hs. apply in_app_or in Hs as [Hs|[<-|[]]]; [|easy].
    apply in_map_iff in Hs as (a & <- & Hi). now apply IHps.
  - apply all_solid_wrap; try (apply solid_all; [now apply plain_no_comma|now apply plain_solid]); destruct k; try comma_const; try (left; reflexivity);
      right; try (eexists; eexists; split; reflexivity); exists [39%N], 62%N; easy.
  - apply all_solid_wrap; try easy; destruct k; try comma_const; try (left; reflexivity);
      right; try (eexists; eexists; split; reflexivity); exists [39%N], 62%N; easy.
Qed.

Lemma loose_inner : forall a, ann_loose a -> inner 1 (print_ann [] a).
Proof.
  intros a Ha. induction Ha as [n Hn|g a Ha IH|k v Hk IHk Hv IHv Hf|l Hl Ha IH|ps r Hps IHps Hr IHr|k n Hk Hn|k a Hw' Ha IH Hab];
    cbn [print_ann].
  - now apply plain_inner.
  - rewrite app_assoc. apply bracket_inner; [|destruct g; reflexivity|apply (inner_weaken 1); [lia|easy]].
    intros Hi. apply in_app_or in Hi as [Hi|Hi]; [now apply gen_pre_no_comma in Hi|revert Hi; comma_const].
  - change ([] ++ print_ann [] v ++ u "]") with (print_ann [] v ++ u "]").
    replace (print_ann [] k ++ u "," ++ print_ann [] v ++ u "]")
      with (join [c_comma] [print_ann [] k; print_ann [] v] ++ u "]") by (cbn [join]; rewrite <- !app_assoc; reflexivity).
    apply bracket_inner; [comma_const|reflexivity|]. apply inner_join; [easy|].
    intros s [<-|[<-|[]]]; apply (inner_weaken 1); easy || lia.
  - change (u "," ++ []) with [c_comma]. apply bracket_inner; [comma_const|reflexivity|].
    apply inner_join; [destruct l; easy|]. intros s Hs. apply in_map_iff in Hs as (a & <- & Hi).
    apply (inner_weaken 1); [lia|now apply IH].
  - change (u "," ++ []) with [c_comma]. apply bracket_inner; [comma_const|reflexivity|].
    apply inner_join; [destruct ps; easy|]. intros s Hs. apply in_app_or in Hs as [Hs|[<-|[]]].
    + apply in_map_iff in Hs as (a & <- & Hi). apply (inner_weaken 1); [lia|now apply IHps].
    + apply (inner_weaken 1); [lia|easy].
  - replace 1%Z with (1 + bal (wrap_pre k))%Z by (destruct k; reflexivity).
    apply inner_wrap; try (destruct k; try comma_const; reflexivity). now apply plain_inner.
  - replace 1%Z with (1 + bal (wrap_pre k))%Z by (destruct k; reflexivity).
    apply inner_wrap; try easy; destruct k; try comma_const; reflexivity.
Qed.

(** *** Regrouping: every element is a whole argument or a single piece *)
Lemma repair_loop_elems : forall dbg sep gs fuel, bal [sep] = 0%Z ->
  (forall g, In g gs -> closes 0 g) -> gs <> [] -> length (concat gs) <= fuel ->
  exists r, repair_loop dbg sep fuel (concat gs) = Ok r /\ length gs <= length r /\
    forall x, In x r -> In x (map (join [sep]) gs) \/ In x (concat gs).
Proof.
  intros dbg sep gs. induction gs as [|g gs IH]; intros fuel Hsep Hg Hne Hf; [easy|].
  assert (Hg0 : closes 0 g) by (apply Hg; now left).
  destruct g as [|x qs]; [easy|]. cbn [concat app] in *. cbn [length] in Hf.
  destruct fuel as [|fuel]; [lia|]. cbn [repair_loop].
  assert (Hg' : forall g, In g gs -> closes 0 g) by (intros g Hin; apply Hg; now right).
  assert (Hpos : forall q, In q (map (@length str) gs) -> (q >= 1)%nat).
  { intros q Hq. apply in_map_iff in Hq as (g & <- & Hin). apply Hg' in Hin. destruct g; [easy|]. cbn. lia. }
  destruct (qs ++ concat gs) as [|y0 rest0] eqn:Erest.
  { apply app_eq_nil in Erest as [-> Ec]. destruct gs as [|g' gs].
    - exists [x]. split; [easy|]. split; [easy|]. intros y [<-|[]]. left. now left.
    - assert (H : closes 0 g') by (apply Hg; right; now left). destruct g'; [easy|]. cbn in Ec. easy. }
  assert (Hrest : qs ++ concat gs <> []) by (rewrite Erest; easy).
  rewrite <- Erest in *. clear Erest y0 rest0.
  destruct qs as [|q qs].
  - cbn [closes] in Hg0. unfold bal in Hg0. rewrite usize_sub_ok by lia. cbn [obind app].
    replace (n_open x - n_close x =? 0)%Z with true by (symmetry; apply Z.eqb_eq; lia).
    destruct gs as [|g' gs]; [easy|].
    destruct (IH fuel) as (r & Hr & Hl & Hx); [easy|easy|easy|cbn [app] in Hf; lia|].
    rewrite Hr. cbn [omap obind]. eexists. split; [reflexivity|]. split; [cbn [length] in *; lia|].
    intros y [<-|Hy]; [left; now left|]. destruct (Hx y Hy) as [H|H]; [left; now right|right; now right].
  - destruct Hg0 as [H1 H2]. rewrite Z.add_0_l in *. unfold bal in H1.
    rewrite usize_sub_ok by lia. cbn [obind].
    destruct (Z.eqb_spec (n_open x - n_close x) 0); [lia|].
    change (n_open x - n_close x)%Z with (bal x).
    rewrite find_close_group by (easy || unfold bal; lia). cbn [obind].
    rewrite join_concat. rewrite app_length in Hf. cbn [length] in Hf.
    destruct (Nat.leb_spec (1 + length (q :: qs)) (length (concat gs))) as [Hle|Hgt].
    + destruct fuel as [|fuel]; [lia|]. cbn [repair_loop].
      destruct gs as [|g' gs]; [cbn in Hle; lia|].
      destruct (concat (g' :: gs)) as [|y0 rest0] eqn:Ec; [cbn in Hle; lia|]. rewrite <- Ec in *. clear Ec y0 rest0.
      assert (Hb : bal (join [sep] (x :: q :: qs)) = 0%Z).
      { rewrite bal_join by easy. apply closes_sum in H2. cbn [fold_right] in *. lia. }
      unfold bal in Hb. rewrite usize_sub_ok by lia. cbn [obind].
      destruct (Z.eqb_spec (n_open (join [sep] (x :: q :: qs)) - n_close (join [sep] (x :: q :: qs))) 0); [|lia].
      destruct (IH fuel) as (r & Hr & Hl & Hx); [easy|easy|easy|lia|].
      rewrite Hr. cbn [omap obind]. eexists. split; [reflexivity|]. split; [cbn [length] in *; lia|].
      intros y [<-|Hy]; [left; now left|]. destruct (Hx y Hy) as [H|H]; [left; now right|].
      right. right. apply in_or_app. now right.
    + eexists. split; [reflexivity|]. rewrite total_concat_length in *. split.
      * cbn [length]. rewrite total_concat_length. pose proof (total_ge_length _ Hpos) as Ht. rewrite map_length in Ht. lia.
      * intros y [<-|Hy]; [left; now left|]. right. right. apply in_or_app. now right.
Qed.

(** *** Pieces without commas and bars never panic, if no [dict[] in them is followed by [\]] *)
Definition tidy (s : str) : Prop := forall a b, s = a ++ u "dict[" ++ b -> ~ In c_rbr b.
Definition unquoted (s : str) : Prop := contains_str [32%N; 39%N; 62%N] s = false.
Definition lone (s : str) : Prop := ~ In c_comma s /\ ~ In c_bar s /\ tidy s /\ unquoted s.

Lemma tidy_mid : forall p x q, tidy (p ++ x ++ q) -> tidy x.
Proof.
  intros p x q H a b -> Hi. apply (H (p ++ a) (b ++ q)); [now rewrite <- !app_assoc|]. apply in_or_app. now left.
Qed.
Lemma lone_mid : forall p x q, lone (p ++ x ++ q) -> lone x.
Proof.
  intros p x q (H1 & H2 & H3 & H4). repeat split.
  - intros Hi. apply H1. apply in_or_app. right. apply in_or_app. now left.
  - intros Hi. apply H2. apply in_or_app. right. apply in_or_app. now left.
  - now apply tidy_mid in H3.
  - now apply (contains_mid _ p x q).
Qed.
Lemma unquoted_class : forall p s, unquoted s -> contains_str ((p ++ [32%N]) ++ [39%N; 62%N]) s = false.
Proof.
  intros p s H. destruct (contains_str ((p ++ [32%N]) ++ [39%N; 62%N]) s) eqn:E; [|easy].
  apply contains_str_iff in E as (a & b & ->). unfold unquoted in H. rewrite <- H. symmetry. apply contains_str_iff.
  exists (a ++ p), b. now rewrite <- !app_assoc.
Qed.

Lemma lone_args : forall dbg rec s, lone s -> (forall x, lone x -> str_measure x <= str_measure s -> fine (rec x)) ->
  exists l, parse_args dbg rec s = Ok l /\ l <> [].
Proof.
  intros dbg rec s Hs H. unfold parse_args, split_trim.
  rewrite split_char_none by apply Hs. cbn [map repair length Nat.mul Nat.add repair_loop obind mapM].
  destruct (trim_decomp s) as (p & q & E & _).
  destruct (H (trim s)) as [t Et].
  - rewrite E in Hs. now apply lone_mid in Hs.
  - apply measure_trim.
  - rewrite Et. cbn [obind]. exists [t]. easy.
Qed.

Lemma lone_body : forall dbg rec s, lone s ->
  (forall x, lone x -> str_measure x < str_measure s -> fine (rec x)) -> fine (from_str_body dbg rec s).
Proof.
  intros dbg rec s Hs H. unfold from_str_body. destruct (lookup_lit s lits_prim); [eexists; reflexivity|].
  assert (Hbar : ~ In c_bar s) by apply Hs. apply count_char_0 in Hbar as Hcount. rewrite Hcount. cbn [N.eqb andb].
  destruct (contains_char c_bar s) eqn:Eb; [apply contains_char_In in Eb; easy|].
  assert (Hlt : forall p q x, p <> [] -> s = p ++ x ++ q -> fine (rec x)).
  { intros p q x Hp ->. apply H; [now apply lone_mid in Hs|]. rewrite !measure_app. destruct p as [|c p]; [easy|].
    rewrite (measure_cons c p). pose proof (measure_char c). lia. }
  assert (Hargs : forall p q x, p <> [] -> s = p ++ x ++ q -> exists l, parse_args dbg rec x = Ok l /\ l <> []).
  { intros p q x Hp ->. apply lone_args; [now apply lone_mid in Hs|]. intros y Hy Hm. apply H; [easy|].
    rewrite !measure_app. destruct p as [|c p]; [easy|]. rewrite (measure_cons c p). pose proof (measure_char c). lia. }
  assert (Hone : forall p (f : ptype -> ptype) m, delimited (p ++ [c_lbr]) [c_rbr] s = Some m -> fine (let! x := m in omap f (rec x))).
  { intros p f m E. apply delimited_bracket in E as (x & -> & E). cbn [obind]. apply fine_omap.
    apply (Hlt (p ++ [c_lbr]) [c_rbr] x); [now destruct p|easy]. }
  destruct Hs as (_ & _ & Ht & Hq).
  unfold from_colls. destruct (lookup_lit s lits_none); [eexists; reflexivity|].
  destruct (delimited (u "dict[") [c_rbr] s) as [m|] eqn:E.
  { exfalso. apply (delimited_bracket (u "dict")) in E as (x & _ & E).
    apply (Ht [] (x ++ [c_rbr]) E). apply in_or_app. right. now left. }
  destruct (lookup_lit s lits_dict); [eexists; reflexivity|].
  destruct (delimited (u "frozenset[") [c_rbr] s) as [m|] eqn:E1; [now apply (Hone (u "frozenset"))|].
  destruct (delimited (u "list[") [c_rbr] s) as [m|] eqn:E2; [now apply (Hone (u "list"))|].
  destruct (str_eqb s (u "list")); [eexists; reflexivity|].
  destruct (delimited (u "Sequence[") [c_rbr] s) as [m|] eqn:E3; [now apply (Hone (u "Sequence"))|].
  destruct (lookup_lit s lits_seq); [eexists; reflexivity|].
  unfold from_colls2.
  destruct (delimited (u "Iterable[") [c_rbr] s) as [m|] eqn:E4; [now apply (Hone (u "Iterable"))|].
  destruct (delimited (u "Iterator[") [c_rbr] s) as [m|] eqn:E5; [now apply (Hone (u "Iterator"))|].
  destruct (delimited (u "set[") [c_rbr] s) as [m|] eqn:E6; [now apply (Hone (u "set"))|].
  destruct (delimited (u "tuple[") [c_rbr] s) as [m|] eqn:E7.
  { apply (delimited_bracket (u "tuple")) in E7 as (x & -> & Ex). cbn [obind]. apply fine_omap.
    destruct (Hargs _ _ x (ltac:(easy) : (u "tuple" ++ [c_lbr]) <> []) Ex) as (l & -> & _). now exists l. }
  unfold from_mid. destruct (lookup_lit s lits_mid); [eexists; reflexivity|].
  destruct (delimited (u "Callable[") [c_rbr] s) as [m|] eqn:E8.
  { apply (delimited_bracket (u "Callable")) in E8 as (x & -> & Ex). cbn [obind].
    destruct (Hargs _ _ x (ltac:(easy) : (u "Callable" ++ [c_lbr]) <> []) Ex) as (l & -> & Hl). cbn [obind]. unfold mk_function.
    destruct (rev l) as [|r ps] eqn:Er; [|eexists; reflexivity]. exfalso. apply Hl. rewrite <- (rev_involutive l), Er. easy. }
  destruct (lookup_lit s lits_late); [eexists; reflexivity|].
  unfold from_wrapped.
  destruct (delimited (u "type[") [c_rbr] s) as [m|] eqn:E9.
  { apply (delimited_bracket (u "type")) in E9 as (x & -> & Ex). cbn [obind]. now apply (Hlt _ _ x (ltac:(easy) : (u "type" ++ [c_lbr]) <> [])) in Ex. }
  destruct (delimited (u "<class '") (u "'>") s) as [m|] eqn:E10.
  { apply (delimited_quote (u "<class ")) in E10 as (x & -> & Ex); [|now apply (unquoted_class (u "<class"))]. cbn [obind].
    now apply (Hlt _ _ x (ltac:(easy) : (u "<class " ++ [39%N]) <> [])) in Ex. }
  destruct (delimited (u "<enum '") (u "'>") s) as [m|] eqn:E11.
  { apply (delimited_quote (u "<enum ")) in E11 as (x & -> & Ex); [|now apply (unquoted_class (u "<enum"))]. cbn [obind].
    now apply (Hlt _ _ x (ltac:(easy) : (u "<enum " ++ [39%N]) <> [])) in Ex. }
  assert (Hpre : forall p x, p <> [] -> prefixed p s = Some x -> fine (rec x)).
  { intros p x Hp Ex. unfold prefixed in Ex. apply strip_prefix_Some in Ex. apply (Hlt p [] x Hp). now rewrite app_nil_r. }
  destruct (prefixed (u "typing.") s) as [x|] eqn:E12; [now apply (Hpre (u "typing."))|].
  destruct (prefixed (u "collections.abc.") s) as [x|] eqn:E13; [now apply (Hpre (u "collections.abc."))|].
  destruct (prefixed (u "collections.") s) as [x|] eqn:E14; [now apply (Hpre (u "collections."))|].
  destruct (mem_str s forbidden_type_names); eexists; reflexivity.
Qed.
Lemma lone_fine : forall dbg s, lone s -> fine (from_str dbg s).
Proof.
  intros dbg s. remember (str_measure s) as n eqn:En. revert s En. induction n as [n IH] using lt_wf_ind. intros s -> Hs.
  rewrite from_str_eq. apply lone_body; [easy|]. intros x Hx Hm. now apply (IH (str_measure x)).
Qed.

(** *** The pieces of a tree *)
Definition undict (s : str) : Prop := contains_str (u "dict[") s = false.
Definition good (s : str) : Prop := tidy s /\ unquoted s.
Definition nice (s : str) : Prop :=
  (forall p, In p (split_char c_comma s) -> good p) /\
  (exists i l, split_char c_comma s = i ++ [l] /\ undict l).

Lemma tidy_cons : forall c s, starts_with (u "dict[") (c :: s) = false -> tidy s -> tidy (c :: s).
Proof.
  intros c s H Hs a b E. destruct a as [|d a].
  - exfalso. assert (starts_with (u "dict[") (c :: s) = true); [|congruence]. apply starts_with_iff. now exists b.
  - injection E as <- E. now apply (Hs a b).
Qed.
Lemma tidy_undict : forall s, undict s -> tidy s.
Proof.
  intros s H a b ->. exfalso. unfold undict in H. assert (contains_str (u "dict[") (a ++ u "dict[" ++ b) = true); [|congruence].
  apply contains_str_iff. now exists a, b.
Qed.
Lemma tidy_open : forall s, ~ In c_rbr s -> tidy s.
Proof. intros s H a b -> Hi. apply H. apply in_or_app. right. apply in_or_app. now right. Qed.
Lemma undict_suf : forall s, undict s -> undict (s ++ u "]").
Proof.
  intros s H. unfold undict in *. change (u "]") with (c_rbr :: []). rewrite contains_skip; [reflexivity|easy|comma_const|easy].
Qed.
Lemma unquoted_suf : forall s, unquoted s -> unquoted (s ++ u "]").
Proof.
  intros s H. unfold unquoted in *. change (u "]") with (c_rbr :: []). rewrite contains_skip; [reflexivity|easy|comma_const|easy].
Qed.

Lemma nice_suf : forall s, nice s -> nice (s ++ u "]").
Proof.
  intros s [H1 (i & l & E & Hl)]. destruct (split_suf (u "]") s ltac:(comma_const)) as (i' & l' & E1 & E2).
  rewrite E1 in E. apply app_inj_tail in E as [-> ->]. split.
  - intros p Hp. rewrite E2 in Hp. apply in_app_or in Hp as [Hp|[<-|[]]].
    + apply H1. rewrite E1. apply in_or_app. now left.
    + split; [apply tidy_undict; now apply undict_suf|]. apply unquoted_suf. apply (H1 l). rewrite E1. apply in_or_app. right. now left.
  - exists i, (l ++ u "]"). split; [easy|now apply undict_suf].
Qed.
Lemma nice_join : forall l, l <> [] -> (forall s, In s l -> nice s) -> nice (join [c_comma] l).
Proof.
  intros l Hn H. split.
  - intros p Hp. unfold c_comma in *. rewrite (split_join_concat l Hn) in Hp.
    apply in_concat in Hp as (x & Hx & Hp). apply in_map_iff in Hx as (s & <- & Hs). now apply (H s).
  - unfold c_comma. rewrite (split_join_concat l Hn). destruct (exists_last Hn) as (l' & s & ->).
    destruct (H s) as [_ (i & t & E & Ht)]; [apply in_or_app; right; now left|].
    rewrite map_app, concat_app. cbn [map concat]. unfold c_comma in E. rewrite E, app_nil_r.
    exists (concat (map (split_char 44%N) l') ++ i), t. split; [now rewrite app_assoc|easy].
Qed.
(** An opening part that neither contains nor begins a [dict[]. *)
Definition opener (p : str) : Prop :=
  ~ In c_comma p /\ forall s, (tidy s -> tidy (p ++ s)) /\ (undict s -> undict (p ++ s)) /\ (unquoted s -> unquoted (p ++ s)).
Lemma nice_pre : forall p s, opener p -> nice s -> nice (p ++ s).
Proof.
  intros p s [Hc Hp] [H1 (i & l & E & Hl)]. destruct i as [|h i].
  - cbn [app] in E. pose proof (split_pre p s l [] Hc E) as E'. split.
    + intros q Hq. rewrite E' in Hq. destruct Hq as [<-|[]]. destruct (H1 l) as [? ?]; [rewrite E; now left|].
      split; now apply Hp.
    + exists [], (p ++ l). split; [easy|now apply Hp].
  - cbn [app] in E. pose proof (split_pre p s h (i ++ [l]) Hc E) as E'. split.
    + intros q Hq. rewrite E' in Hq. destruct Hq as [<-|Hq].
      * destruct (H1 h) as [? ?]; [rewrite E; now left|]. split; now apply Hp.
      * apply H1. rewrite E. now right.
    + exists ((p ++ h) :: i), l. easy.
Qed.
Ltac is_opener :=
  split; [comma_const|]; intros s; split;
  [intros Hs; cbn [u app]; cbn; repeat (apply tidy_cons; [reflexivity|]); exact Hs|];
  split; intros Hs; [unfold undict in *|unfold unquoted in *]; cbn; exact Hs.
Lemma gen_opener : forall g, opener (gen_name g ++ u "[").
Proof. destruct g; is_opener. Qed.
Lemma tuple_opener : opener (u "tuple[").
Proof. is_opener. Qed.
Lemma callable_opener : opener (u "Callable[").
Proof. is_opener. Qed.
Lemma wrap_opener : forall w, (w = WTyping \/ w = WCollections \/ w = WCollectionsAbc) -> opener (wrap_pre w).
Proof. intros w [->|[->| ->]]; is_opener. Qed.

Lemma plain_free : forall n k, plain_name n -> (exists c, In c k /\ In c (u "[]|,'<>")) -> contains_str k n = false.
Proof.
  intros n k (_ & Hn & _) (c & Hk & Hc). destruct (contains_str k n) eqn:E; [|easy]. exfalso.
  apply contains_str_iff in E as (a & b & ->). destruct (Hn c) as [_ H]; [|easy].
  apply in_or_app. right. apply in_or_app. now left.
Qed.
Lemma lone_nice : forall s, ~ In c_comma s -> undict s -> unquoted s -> nice s.
Proof.
  intros s H1 H2 H3. split; rewrite split_char_none by easy.
  - intros p [<-|[]]. split; [now apply tidy_undict|easy].
  - now exists [], s.
Qed.
Lemma undict_mid : forall p n q, ~ In c_lbr p -> ~ In c_lbr n -> ~ In c_lbr q -> undict (p ++ n ++ q).
Proof.
  intros p n q H1 H2 H3. unfold undict. destruct (contains_str (u "dict[") (p ++ n ++ q)) eqn:E; [|easy]. exfalso.
  apply contains_str_iff in E as (a & b & E). assert (Hi : In c_lbr (p ++ n ++ q)).
  { rewrite E. apply in_or_app. right. apply in_or_app. left. cbn. tauto. }
  apply in_app_or in Hi as [Hi|Hi]; [easy|]. apply in_app_or in Hi as [Hi|Hi]; easy.
Qed.
Lemma class_unquoted : forall w n, (w = WClass \/ w = WEnum) -> plain_name n -> unquoted (wrap_pre w ++ n ++ wrap_suf w).
Proof.
  intros w n Hw Hn. unfold unquoted. destruct (contains_str _ _) eqn:E; [|easy]. exfalso.
  apply contains_str_iff in E as (a & b & E).
  assert (Hs : wrap_suf w = [39%N] ++ [62%N]) by (destruct Hw as [->| ->]; reflexivity). rewrite Hs in E.
  destruct Hn as (Hne & Hc & _). destruct (exists_last Hne) as (n' & d & ->).
  assert (Hd : name_char d) by (apply Hc; apply in_or_app; right; now left).
  destruct (rev b) as [|z b'] eqn:Eb.
  - assert (b = []) as -> by (rewrite <- (rev_involutive b), Eb; easy). rewrite app_nil_r in E.
    change ([32%N; 39%N; 62%N]) with (([32%N] ++ [39%N]) ++ [62%N]) in E. rewrite !app_assoc in E.
    apply app_inj_tail in E as [E _]. apply app_inj_tail in E as [E _]. apply app_inj_tail in E as [_ ->].
    destruct Hd as [Hd _]. easy.
  - assert (Hb : b = rev b' ++ [z]) by (rewrite <- (rev_involutive b), Eb; easy). subst b.
    rewrite !app_assoc in E. apply app_inj_tail in E as [E _].
    assert (Hi : In 62%N ((wrap_pre w ++ n' ++ [d]) ++ [39%N])).
    { assert (E2 : (wrap_pre w ++ n' ++ [d]) ++ [39%N] = (a ++ [32%N; 39%N; 62%N]) ++ rev b') by (rewrite <- E, !app_assoc; reflexivity).
      rewrite E2. apply in_or_app. left. apply in_or_app. right. cbn. tauto. }
    apply in_app_or in Hi as [Hi|[Hi|[]]]; [|easy]. apply in_app_or in Hi as [Hi|Hi].
    + destruct Hw as [->| ->]; revert Hi; comma_const.
    + apply Hc in Hi as [_ Hi]. apply Hi. cbn. tauto.
Qed.

Lemma before_comma_hd : forall s h t, split_char c_comma s = h :: t -> before_comma s = h.
Proof.
  induction s as [|c s IH]; intros h t E; [injection E as <- <-; easy|]. cbn [split_char before_comma] in *.
  unfold c_comma in *. destruct (N.eqb_spec c 44).
  - now injection E as <- <-.
  - destruct (split_char_cons 44%N s) as (p & ps & Ep). rewrite Ep in E. injection E as <- <-. f_equal. now apply (IH p ps).
Qed.

Lemma loose_nice : forall a, ann_loose a -> nice (print_ann [] a).
Proof.
  intros a Ha. induction Ha as [n Hn|g a Ha IH|k v Hk IHk Hv IHv Hf|l Hl Ha IH|ps r Hps IHps Hr IHr|k n Hk Hn|k a Hw' Ha IH Hab];
    cbn [print_ann].
  - apply lone_nice; [now apply plain_no_comma| |]; apply plain_free; try easy; [exists c_lbr|exists 39%N]; cbn; tauto.
  - rewrite app_assoc. apply nice_pre; [apply gen_opener|now apply nice_suf].
  - cbn [app]. assert (Hj : nice (join [c_comma] [print_ann [] k; print_ann [] v])).
    { apply nice_join; [easy|]. intros s [<-|[<-|[]]]; easy. }
    replace (print_ann [] k ++ u "," ++ print_ann [] v ++ u "]")
      with (join [c_comma] [print_ann [] k; print_ann [] v] ++ u "]") by (cbn [join]; rewrite <- !app_assoc; reflexivity).
    apply nice_suf in Hj as [H1 (i & l & E & Hlast)].
    assert (Eh : exists h t, split_char c_comma (print_ann [] k) = h :: t /\ t ++ split_char c_comma (print_ann [] v ++ u "]") <> []
      /\ split_char c_comma (join [c_comma] [print_ann [] k; print_ann [] v] ++ u "]")
          = h :: (t ++ split_char c_comma (print_ann [] v ++ u "]"))).
    { destruct (split_char_cons c_comma (print_ann [] k)) as (h & t & Eh). exists h, t. split; [easy|]. split.
      - destruct (split_char_cons c_comma (print_ann [] v ++ u "]")) as (x & y & ->). now destruct t.
      - cbn [join]. rewrite <- !app_assoc.
        change (print_ann [] k ++ [c_comma] ++ print_ann [] v ++ u "]") with (join [44%N] [print_ann [] k; print_ann [] v ++ u "]"]).
        unfold c_comma in *. rewrite split_join_concat by easy. cbn [map concat]. rewrite Eh, app_nil_r. reflexivity. }
    destruct Eh as (h & t & Eh & Hne & Es). apply before_comma_hd in Eh as Hh. rewrite Hh in Hf.
    set (rest := t ++ split_char c_comma (print_ann [] v ++ u "]")) in *.
    pose proof (split_pre (u "dict[") _ h rest ltac:(comma_const) Es) as E'. rewrite Es in E, H1. split.
    + intros p Hp. rewrite E' in Hp. destruct Hp as [<-|Hp]; [|apply H1; now right]. split.
      * apply tidy_open. intros Hi. apply in_app_or in Hi as [Hi|Hi]; [revert Hi; comma_const|easy].
      * destruct (H1 h) as [_ Hq]; [now left|]. unfold unquoted in *. cbn. exact Hq.
    + destruct i as [|x i]; [cbn in E; injection E as _ E; now rewrite E in Hne|]. cbn in E. injection E as <- E.
      exists ((u "dict[" ++ h) :: i), l. split; [|easy]. rewrite E'. cbn [app]. now rewrite E.
  - change (u "," ++ []) with [c_comma]. apply nice_pre; [apply tuple_opener|]. apply nice_suf, nice_join; [destruct l; easy|].
    intros s Hs. apply in_map_iff in Hs as (a & <- & Hi). now apply IH.
  - change (u "," ++ []) with [c_comma]. apply nice_pre; [apply callable_opener|]. apply nice_suf, nice_join; [destruct ps; easy|].
    intros s Hs. apply in_app_or in Hs as [Hs|[<-|[]]]; [|easy]. apply in_map_iff in Hs as (a & <- & Hi). now apply IHps.
  - assert (Hlbr : ~ In c_lbr n) by (destruct Hn as (_ & Hn & _); intros Hi; apply Hn in Hi as [_ Hi]; apply Hi; cbn; tauto).
    apply lone_nice.
    + intros Hi. apply in_app_or in Hi as [Hi|Hi]; [destruct k; revert Hi; comma_const|].
      apply in_app_or in Hi as [Hi|Hi]; [now apply plain_no_comma in Hi|destruct k; revert Hi; comma_const].
    + apply undict_mid; [destruct k; comma_const|easy|destruct k; comma_const].
    + now apply class_unquoted.
  - assert (Hsuf : wrap_suf k = []) by (destruct Hw' as [->|[->| ->]]; reflexivity). rewrite Hsuf, app_nil_r.
    apply nice_pre; [now apply wrap_opener|easy].
Qed.

(** *** Trees are converted *)
Lemma loose_args : forall dbg w l, all_blank w -> l <> [] -> (forall a, In a l -> ann_loose a) ->
  (forall a, In a l -> fine (from_str dbg (print_ann [] a))) ->
  exists r, parse_args dbg (from_str dbg) (join (c_comma :: w) (map (print_ann w) l)) = Ok r /\ length l <= length r.
Proof.
  intros dbg w l Hw Hl Ha H. unfold parse_args.
  rewrite (map_ext_in (print_ann w) (fun a => spaced w (print_ann [] a)) l) by (intros; apply loose_spaced; now apply Ha).
  rewrite <- map_map, <- spaced_join, split_trim_spaced; [|easy|].
  2:{ apply all_solid_join; [destruct l; easy|]. intros s Hs. apply in_map_iff in Hs as (a & <- & Hi).
      apply loose_all_solid. now apply Ha. }
  unfold c_comma. rewrite split_join_concat by (destruct l; easy).
  set (gs := map (split_char 44%N) (map (print_ann []) l)).
  assert (Hg : forall g, In g gs -> closes 0 g).
  { intros g Hg. apply in_map_iff in Hg as (s & <- & Hs). apply in_map_iff in Hs as (a & <- & Hi).
    apply argument_closes, inner_argument, loose_inner. now apply Ha. }
  assert (Hne : gs <> []) by (unfold gs; destruct l; easy).
  pose proof (concat_nonnil_length gs Hg Hne) as Hc.
  destruct (repair_loop_elems dbg 44%N gs (2 * length (concat gs)) eq_refl Hg Hne ltac:(lia)) as (r & Er & Hlen & Hx).
  assert (E : repair dbg 44%N (concat gs) = Ok r).
  { unfold repair. destruct (concat gs); [easy|]. exact Er. }
  rewrite E. cbn [obind].
  destruct (fine_mapM (from_str dbg) r) as (ts & -> & Ht).
  - intros x Hi. destruct (Hx x Hi) as [Hin|Hin].
    + unfold gs in Hin. rewrite map_join_split in Hin. apply in_map_iff in Hin as (a & <- & Hia). now apply H.
    + apply lone_fine. apply in_concat in Hin as (g & Hgin & Hin). unfold gs in Hgin.
      apply in_map_iff in Hgin as (s & <- & Hs). apply in_map_iff in Hs as (a & <- & Hia).
      destruct (loose_nice a (Ha a Hia)) as [Hgood _]. destruct (Hgood x Hin) as [H1 H2]. split; [|split; [|split; easy]].
      * now apply (split_char_no_sep 44%N (print_ann [] a)).
      * intros Hb. apply (loose_no_bar [] a ltac:(easy) (Ha a Hia)).
        rewrite <- (join_split_char 44%N (print_ann [] a)). destruct (in_join [44%N] _ _ Hin) as (p & q & ->).
        apply in_or_app. right. apply in_or_app. now left.
  - exists ts. split; [easy|]. unfold gs in Hlen. rewrite !map_length in Hlen. lia.
Qed.

Lemma loose_fine : forall dbg w a, all_blank w -> ann_loose a -> fine (from_str dbg (print_ann w a)).
Proof.
  intros dbg w a Hw Ha. revert w Hw.
  induction Ha as [n Hn|g a Ha IH|k v Hk IHk Hv IHv Hf|l Hl Ha IH|ps r Hps IHps Hr IHr|k n Hk Hn|k a Hw' Ha IH Hab]; intros w Hw.
  - eexists. now apply from_str_name.
  - cbn [print_ann]. rewrite from_str_gen by now apply loose_no_bar. now apply fine_omap, IH.
  - assert (Hb : ~ In c_bar (print_ann w (XDict k v))) by (apply loose_no_bar; [easy|now constructor]).
    cbn [print_ann] in *.
    replace (print_ann w k ++ u "," ++ w ++ print_ann w v ++ u "]")
      with (join (c_comma :: w) (map (print_ann w) [k; v]) ++ u "]") in *
      by (cbn [join map]; rewrite <- !app_assoc; cbn [app u]; rewrite <- ?app_assoc; reflexivity).
    rewrite from_str_dict by now apply no_bar_bracket in Hb.
    destruct (loose_args dbg w [k; v] Hw) as (r & -> & Hlen); [easy| | |].
    + intros a [<-|[<-|[]]]; easy.
    + intros a [<-|[<-|[]]]; [now apply IHk|now apply IHv].
    + destruct r as [|x [|y r]]; cbn in Hlen; try lia. now eexists.
  - assert (Hb : ~ In c_bar (print_ann w (XTuple l))) by (apply loose_no_bar; [easy|now constructor]).
    cbn [print_ann] in *. change (u "," ++ w) with (c_comma :: w) in *.
    rewrite from_str_tuple by now apply no_bar_bracket in Hb.
    destruct (loose_args dbg w l Hw Hl Ha) as (r & -> & _); [intros a Hi; now apply IH|]. now eexists.
  - assert (Hb : ~ In c_bar (print_ann w (XCallable ps r))) by (apply loose_no_bar; [easy|now constructor]).
    cbn [print_ann] in *. change (u "," ++ w) with (c_comma :: w) in *.
    change (map (print_ann w) ps ++ [print_ann w r]) with (map (print_ann w) ps ++ map (print_ann w) [r]) in *.
    rewrite <- map_app in *.
    rewrite from_str_callable by now apply no_bar_bracket in Hb.
    destruct (loose_args dbg w (ps ++ [r]) Hw) as (ts & -> & Hlen); [destruct ps; easy| | |].
    + intros a Hi. apply in_app_or in Hi as [Hi|[<-|[]]]; auto.
    + intros a Hi. apply in_app_or in Hi as [Hi|[<-|[]]]; [now apply IHps|now apply IHr].
    + cbn [obind]. unfold mk_function. rewrite app_length in Hlen. cbn in Hlen.
      destruct (rev ts) as [|x y] eqn:E; [|now eexists].
      apply (f_equal (@length _)) in E. rewrite rev_length in E. cbn in E. lia.
  - cbn [print_ann]. change (wrap_pre k ++ n ++ wrap_suf k) with (wrap_text k n).
    rewrite from_str_wrap; [eexists; now apply from_str_name| |intros ->; now destruct Hk].
    destruct Hn as (_ & Hn & _). intros Hi; apply Hn in Hi as [_ Hi]; apply Hi; cbn; tauto.
  - cbn [print_ann]. change (wrap_pre k ++ print_ann w a ++ wrap_suf k) with (wrap_text k (print_ann w a)).
    rewrite from_str_wrap; [now apply IH|now apply loose_no_bar|]. intros Hk. apply Hab in Hk.
    destruct (starts_with (u "abc.") (print_ann w a)) eqn:E; [|easy]. rewrite loose_spaced in E by easy.
    apply spaced_starts in E; [congruence|comma_const].
Qed.

(** *** Unions of trees *)
Lemma loose_solid : forall w a, all_blank w -> ann_loose a -> solid (print_ann w a).
Proof. intros w a Hw Ha. rewrite loose_spaced by easy. apply spaced_solid; [easy|]. now apply loose_all_solid. Qed.
Lemma loose_bal : forall w a, all_blank w -> ann_loose a -> bal (print_ann w a) = 0%Z.
Proof. intros w a Hw Ha. rewrite loose_spaced, bal_spaced by easy. now destruct (loose_inner a Ha). Qed.
Lemma loose_members : forall w l ps, all_blank w -> l <> [] -> (forall a, In a l -> ann_loose a) ->
  Forall2 padded (map (print_ann w) l) ps ->
  split_trim c_bar (join [c_bar] ps) = map (print_ann w) l.
Proof.
  intros w l ps Hw Hl Ha HF. unfold split_trim. rewrite split_char_join.
  - clear Hl. revert ps HF. induction l as [|a l IH]; intros ps HF; cbn [map] in *; inversion HF as [|x s xs ps' Hp Hps]; subst; [easy|].
    cbn [map]. f_equal.
    + apply trim_of_padded; [easy|]. apply loose_solid; [easy|]. apply Ha. now left.
    + apply IH; [intros; apply Ha; now right|easy].
  - apply forall2_length in HF. destruct l; [easy|]. now destruct ps.
  - intros s Hs. destruct (forall2_in_r _ _ _ HF s Hs) as (x & Hx & Hp). apply in_map_iff in Hx as (a & <- & Hi).
    apply (padded_no_bar _ _ Hp). apply loose_no_bar; auto.
Qed.
Lemma loose_union : forall dbg w l ps, all_blank w -> length l >= 2 -> (forall a, In a l -> ann_loose a) ->
  Forall2 padded (map (print_ann w) l) ps -> fine (from_str dbg (join [c_bar] ps)).
Proof.
  intros dbg w l ps Hw Hl Ha HF. assert (Hne : l <> []) by (destruct l; [cbn in Hl; lia|easy]).
  pose proof (loose_members w l ps Hw Hne Ha HF) as Hst.
  assert (Hbar : In c_bar (join [c_bar] ps)).
  { apply forall2_length in HF. rewrite map_length in HF. destruct ps as [|x [|y ps]]; cbn in HF; try lia. apply bar_in_join. }
  rewrite from_str_eq. unfold from_str_body. rewrite prim_bar by easy.
  assert (Hx : forall x, In x (map (print_ann w) l) -> fine (from_str dbg x)).
  { intros x Hx. apply in_map_iff in Hx as (a & <- & Hi). apply loose_fine; auto. }
  destruct ((count_char c_bar (join [c_bar] ps) =? 1) && _)%N eqn:E.
  - unfold from_optional. destruct (optional_found _ E) as (x & Ex). rewrite Ex. cbn [unwrap obind].
    apply fine_omap, Hx. apply find_In in Ex as [Ex _]. now rewrite Hst in Ex.
  - apply contains_char_In in Hbar. rewrite Hbar. unfold from_union. rewrite Hst.
    rewrite singles_repaired; [|destruct l; easy|].
    + cbn [obind]. apply fine_omap. destruct (fine_mapM (from_str dbg) (map (print_ann w) l) Hx) as (r & -> & _). now exists r.
    + intros x Hi. apply in_map_iff in Hi as (a & <- & Hi). apply loose_bal; auto.
Qed.

(** ** C14: a bar anywhere decides the outermost constructor *)
Lemma bar_outermost : forall dbg s t, In c_bar s -> from_str dbg s = Ok t ->
  (exists x, t = TOptional x) \/ (exists l, t = TUnion l).
Proof.
  intros dbg s t Hb H. rewrite from_str_eq in H. unfold from_str_body in H. rewrite prim_bar in H by easy.
  destruct (_ && _)%bool.
  - left. unfold from_optional in H. destruct (unwrap _ _) as [x| | |]; try easy. cbn [obind] in H.
    destruct (from_str dbg x) as [y| | |]; try easy. injection H as <-. now exists y.
  - right. apply contains_char_In in Hb. rewrite Hb in H. unfold from_union in H.
    destruct (repair _ _ _) as [x| | |]; try easy. cbn [obind] in H.
    destruct (mapM _ x) as [y| | |]; try easy. injection H as <-. now exists y.
Qed.
