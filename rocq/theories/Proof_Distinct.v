(** * Lemmas: the items of a final module have different paths (C32) *)
From Coq Require Import Permutation.
From Verif Require Import Base Model_Ident Model_Path Model_Import Model_Text Model_Config Model_Type Model_IntoRs Model_World Model_Out
  Model_Function Model_Property Model_Class Model_Module Model_Parse Model_Codegen Spec_Path Spec_Items Spec_Tree Spec_Api Spec_Attr
  Proof_Base Proof_Ident Proof_Path Proof_Type Proof_IntoRs Proof_Parse Proof_Forest Proof_Err Proof_Api Proof_Honest Proof_Term Proof_Rooted Proof_Attr.

(** ** All items of a module in a list *)
Definition items (m : module) : list item :=
  map AnImport (m_imports m) ++ map AClass (m_classes m) ++ map ATypeVar (m_typevars m) ++ map AFunction (m_functions m) ++ map AProperty (m_properties m).
Definition path_in (it : item) : path := match item_path it with Some p => p | None => mk_path false [] end.
Lemma items_paths : forall m, item_paths m = map path_in (items m).
Proof. intros m. unfold item_paths, items. rewrite !map_app, !map_map. cbn. now rewrite map_id. Qed.
Lemma items_has : forall m it, In it (items m) <-> has m it /\ item_path it <> None.
Proof.
  intros m it. unfold items. rewrite !in_app_iff, !in_map_iff. split.
  - intros [(y & <- & H)|[(y & <- & H)|[(y & <- & H)|[(y & <- & H)|(y & <- & H)]]]]; (split; [exact H|discriminate]).
  - intros [H K]. destruct it as [i|i|c|q|f|p]; [easy|..]; cbn in H; [left|right; left|right; right; left|right; right; right; left|right; right; right; right]; eauto.
Qed.
Lemma NoDup_app_intro : forall {A} (a b : list A), NoDup a -> NoDup b -> (forall y, In y a -> In y b -> False) -> NoDup (a ++ b).
Proof.
  induction a as [|y a IH]; intros b Ha Hb H; [exact Hb|]. inversion Ha; subst. cbn. constructor.
  - rewrite in_app_iff. intros [K|K]; [easy|]. now apply (H y); [left|].
  - apply IH; auto. intros z Hz. apply H. now right.
Qed.
Lemma NoDup_map_iff : forall {A B} (f : A -> B) l, NoDup (map f l) -> forall a b, In a l -> In b l -> f a = f b -> a = b.
Proof.
  intros A B f. induction l as [|y l IH]; intros H a b Ha Hb E; [easy|]. cbn in H. inversion H as [|? ? Hn Hl]; subst.
  destruct Ha as [<-|Ha], Hb as [<-|Hb]; auto; exfalso; apply Hn; apply in_map_iff; [exists b|exists a]; auto.
Qed.
Lemma NoDup_map_intro : forall {A B} (f : A -> B) l, NoDup l -> (forall a b, In a l -> In b l -> f a = f b -> a = b) -> NoDup (map f l).
Proof.
  intros A B f. induction l as [|y l IH]; intros H K; [constructor|]. inversion H as [|? ? Hn Hl]; subst. cbn. constructor.
  - intros Hin. apply in_map_iff in Hin as (z & E & Hz). apply Hn. rewrite (K y z); [exact Hz|now left|now right|now symmetry].
  - apply IH; [exact Hl|]. intros a b Ha Hb. apply K; now right.
Qed.
Lemma distinct_items : forall m it it' p, NoDup (item_paths m) -> has m it -> has m it' -> item_path it = Some p -> item_path it' = Some p -> it = it'.
Proof.
  intros m it it' p H Hi Hi' E E'. rewrite items_paths in H. apply (NoDup_map_iff _ _ H).
  - apply items_has. split; [exact Hi|congruence].
  - apply items_has. split; [exact Hi'|congruence].
  - unfold path_in. now rewrite E, E'.
Qed.

(** ** No list of a module has an element twice. *)
Definition tidy (m : module) : Prop :=
  NoDup (m_prelude m) /\ NoDup (m_imports m) /\ NoDup (m_classes m) /\ NoDup (m_typevars m) /\ NoDup (m_functions m) /\ NoDup (m_properties m).
Lemma tidy_items : forall m, tidy m -> NoDup (items m).
Proof.
  intros m (_ & H1 & H2 & H3 & H4 & H5). unfold items.
  repeat (apply NoDup_app_intro; [apply FinFun.Injective_map_NoDup; [intros a b E; now injection E|assumption]| |
    intros y Hy Hz; apply in_map_iff in Hy as (z & <- & _); rewrite ?in_app_iff, ?in_map_iff in Hz; firstorder discriminate]).
  apply FinFun.Injective_map_NoDup; [intros a b E; now injection E|assumption].
Qed.
Lemma distinct_tidy : forall m, NoDup (m_prelude m) -> NoDup (item_paths m) -> tidy m.
Proof.
  intros m H0 H. unfold item_paths in H. split; [exact H0|].
  assert (K : forall {A B} (f : A -> B) l, NoDup (map f l) -> NoDup l) by (intros A B f l; apply NoDup_map_inv).
  assert (L : forall {A} (a b : list A), NoDup (a ++ b) -> NoDup a /\ NoDup b).
  { intros A. induction a as [|y a IH]; intros b Hn; [split; [constructor|exact Hn]|]. cbn in Hn. inversion Hn as [|? ? N1 N2]; subst. destruct (IH b N2) as [I1 I2].
    split; [|exact I2]. constructor; [|exact I1]. intros Hy. apply N1. apply in_or_app. now left. }
  apply L in H as [H1 H]. apply L in H as [H2 H]. apply L in H as [H3 H]. apply L in H as [H4 H5].
  repeat split; eauto.
Qed.
Lemma tidy_distinct : forall m, tidy m -> (forall it it' p, has m it -> has m it' -> item_path it = Some p -> item_path it' = Some p -> it = it') -> NoDup (item_paths m).
Proof.
  intros m T H. rewrite items_paths. apply NoDup_map_intro; [now apply tidy_items|]. intros a b Ha Hb E. apply items_has in Ha as [Ha Na]. apply items_has in Hb as [Hb Nb].
  unfold path_in in E. destruct (item_path a) as [p|] eqn:Ea; [|easy]. destruct (item_path b) as [q|] eqn:Eb; [|easy]. subst q. now apply (H a b p).
Qed.

Lemma filterM_NoDup : forall {A} (f : A -> outcome bool) l r, filterM f l = Ok r -> incl r l /\ (NoDup l -> NoDup r).
Proof.
  intros A f. induction l as [|i l IH]; intros r H; cbn in H; [injection H as <-; split; [easy|auto]|].
  apply bind_Ok in H as (b & _ & H). apply bind_Ok in H as (k & Hk & H). injection H as <-. destruct (IH k Hk) as [I1 I2]. split.
  - destruct b; intros y Hy; [destruct Hy as [<-|Hy]; [now left|]|]; right; now apply I1.
  - intros N. inversion N; subst. destruct b; [constructor|]; auto.
Qed.
Lemma prelude_nodup : forall x o name l, extract_prelude x o name = Ok l -> NoDup l.
Proof.
  intros x o name l H. unfold extract_prelude in H. apply bind_Ok in H as (index & Hi & H). apply bind_Ok in H as (names & _ & H).
  assert (N : NoDup index).
  { destruct (w_all _ o); [|injection Hi as <-; constructor]. apply bind_Ok in Hi as (k & _ & Hi). injection Hi as <-. apply unique_NoDup. apply str_eqb_eq. }
  destruct (same_set _ _); [injection H as <-; constructor|]. apply bind_Ok in H as (kept & Hk & H). injection H as <-. apply NoDup_filter.
  destruct (generate_dependencies _); [now injection Hk as <-|]. now apply (filterM_NoDup _ _ _ Hk).
Qed.
Lemma parsed_within : forall x, order_ok (pe_ord x) -> honest (pe_uni x) (pe_world x) -> forall fuel o m, is_module (pe_world x) o -> mod_parse x fuel o = Ok m ->
  forall k, within k m -> exists n t, is_module (pe_world x) t /\ mod_parse x n t = Ok k.
Proof.
  intros x Ho Hw. induction fuel as [|f IH]; intros o m Hm H k Hk; [discriminate|].
  destruct Hk as [|m s Hs Hk]; [now exists (S f), o|]. cbn [mod_parse] in H. destruct (body_subs x Ho Hw _ o m Hm H) as (_ & done & _ & F & _).
  assert (T : exists t, is_module (pe_world x) t /\ mod_parse x f t = Ok s).
  { clear - F Hs. induction F as [|i y done subs (n & t & _ & _ & Ht & _ & Hr) F IHF]; [easy|]. destruct Hs as [<-|Hs]; [now exists t|now apply IHF]. }
  destruct T as (t & Ht & Hp). now apply (IH t s).
Qed.
Lemma parsed_tidy : forall x, order_ok (pe_ord x) -> honest (pe_uni x) (pe_world x) -> forall fuel o m, is_module (pe_world x) o -> mod_parse x fuel o = Ok m ->
  forall k, within k m -> tidy k.
Proof.
  intros x Ho Hw fuel o m Hm H k Hk. apply distinct_tidy; [|now apply (parsed_distinct x fuel o m Ho H)].
  destruct (parsed_within x Ho Hw fuel o m Hm H k Hk) as ([|n] & t & _ & Hp); [discriminate|]. cbn [mod_parse] in Hp. unfold mod_parse_body in Hp.
  apply bind_Ok in Hp as (name & _ & Hp). apply bind_Ok in Hp as (pre & Hpre & Hp). apply bind_Ok in Hp as (sbs & _ & Hp). apply bind_Ok in Hp as (st & _ & Hp).
  apply bind_Ok in Hp as ([st' subs] & _ & Hp). apply bind_Ok in Hp as (doc & _ & Hp). injection Hp as <-. cbn [m_prelude].
  destruct (generate_preludes _); [now apply prelude_nodup in Hpre|injection Hpre as <-; constructor].
Qed.

(** ** Merging *)
Definition all_tidy (m : module) : Prop := forall k, within k m -> tidy k.
Lemma siblings_tidy : forall x, order_ok (pe_ord x) -> forall fuel l l', (forall m, In m l -> all_tidy m) -> merge_siblings (merge_modules x fuel) l = Ok l' ->
  forall m, In m l' -> all_tidy m.
Proof.
  intros x Ho. induction fuel as [|fuel IH]; intros l l' Hl H m Hm.
  all: unfold merge_siblings in H; destruct (mapM_In _ _ _ _ H Hm) as (R & HR & E).
  all: assert (HRl : forall k, In k R -> all_tidy k) by (intros k Hk; apply Hl; apply sort_In; rewrite <- (spans_concat (sort_modules l)); apply in_concat; now exists R).
  all: destruct (spans_run _ _ HR) as [Hne _]; destruct R as [|a [|b R]]; [easy|injection E as <-; apply HRl; now left|].
  - discriminate.
  - cbn [merge_run merge_modules] in E. apply bind_Ok in E as (subs & Hsubs & E). injection E as E.
    assert (I2 : forall s, In s subs -> all_tidy s).
    { refine (IH (flat_map m_subs (a :: b :: R)) subs _ Hsubs). intros s Hs k Hk. apply in_flat_map in Hs as (y & Hy & Hs). apply (HRl y Hy). now apply (within_sub k y s). }
    intros k Hk. destruct Hk as [|m' s Hin Hk].
    + rewrite <- E. assert (S : forall A d (q : list A), NoDup (as_set x d q)).
      { intros A d q. unfold as_set. apply (Permutation_NoDup (Permutation_sym (Ho _ _))). apply NoDup_nodup. }
      unfold tidy. cbn. repeat split; apply S.
    + rewrite <- E in Hin. now apply (I2 s).
Qed.
Lemma empty_tidy : forall x p m, mod_empty x p = Ok m -> tidy m.
Proof. intros x p m H. unfold mod_empty in H. destruct (w_import _ _); [|discriminate]. apply bind_Ok in H as (d & _ & H). injection H as <-. unfold tidy. cbn. repeat split; constructor. Qed.
Lemma embed_tidy : forall x full i m m', all_tidy m -> embed_in x full i m = Ok m' -> all_tidy m'.
Proof.
  intros x full. induction i as [|i IH]; intros m m' Hm H; cbn [embed_in] in H; [now injection H as <-|].
  apply bind_Ok in H as (par & Hpar & H). refine (IH _ m' _ H).
  destruct (mod_empty _ _) as [e| | |] eqn:E; try discriminate. injection Hpar as <-. pose proof (empty_tidy _ _ _ E) as T. apply empty_shape in E as (_ & Es & _).
  intros k Hk. inversion Hk as [E1|m1 s Hin Hk1 E1]; [exact T|]. subst. cbn [with_subs m_subs] in Hin. rewrite Es in Hin. destruct Hin as [<-|[]]. now apply Hm.
Qed.

Section final.
  Variable x : penv.
  Let U := pe_uni x.
  Let w := pe_world x.
  Hypothesis Ho : order_ok (pe_ord x).
  Hypothesis Hw : honest U w.
  Variables (fuel : nat) (l : list request) (c : codegen) (ms : list module).
  Hypothesis Hl : asked_modules w l.
  Hypothesis Hc : asks x fuel l cg_new = Ok c.
  Hypothesis Hf : final_modules x fuel c = Ok ms.

  Lemma final_tidy : forall m k, In m ms -> within k m -> tidy k.
  Proof.
    intros m k Hm Hk. destruct (final_inv x fuel c ms Hf) as (inp & k0 & Hin & Hk0 & E). rewrite E in Hm. apply in_map_iff in Hm as (m1 & <- & Hm1).
    assert (T : all_tidy m1).
    { unfold canonicalize in Hk0. apply bind_Ok in Hk0 as (can & Hcan & Hk0). refine (siblings_tidy x Ho _ can k0 _ Hk0 m1 Hm1).
      intros m2 Hm2. destruct (mapM_In _ _ _ _ Hcan Hm2) as (m3 & Hm3 & E3). refine (embed_tidy x _ _ m3 m2 _ E3).
      destruct (input_is x Hw fuel l c Hl Hc inp m3 Hin Hm3) as (o & Hmo & Hp). intros k1 Hk1. now apply (parsed_tidy x Ho Hw fuel o m3). }
    apply with_source_within in Hk as [->|(t & Ht & Hk)].
    - assert (Tm : tidy m1) by (apply T; constructor). unfold with_source. destruct (map_get _ _); exact Tm.
    - apply T. now apply (within_sub k m1 t).
  Qed.

  (** The same module is parsed in the same way. *)
  Hypothesis Hd : names_differ w.
  Lemma same_parse : forall a b ka kb, is_module w a -> is_module w b -> forall na nb, mod_parse x na a = Ok ka -> mod_parse x nb b = Ok kb -> m_name ka = m_name kb -> ka = kb.
  Proof.
    intros a b ka kb Ha Hb na nb Pa Pb E. rewrite (parsed_name x Ho Hw na a ka Ha Pa), (parsed_name x Ho Hw nb b kb Hb Pb) in E.
    assert (Eab : a = b).
    { apply Hd; auto. destruct (hn_name _ _ Hw a Ha) as (la & _ & Ka & Na). destruct (hn_name _ _ Hw b Hb) as (lb & _ & Kb & Nb).
      fold w U in E. rewrite Na, Nb in *. rewrite <- (named_to_py U la Ka), <- (named_to_py U lb Kb). now rewrite E. }
    subst b. assert (Pa' : mod_parse x (Nat.max na nb) a = Ok ka). { rewrite (more_fuel x na); [exact Pa|lia|now rewrite Pa]. }
    assert (Pb' : mod_parse x (Nat.max na nb) a = Ok kb). { rewrite (more_fuel x nb); [exact Pb|lia|now rewrite Pb]. } congruence.
  Qed.
  (** An item of a final module is one of a parsed module with the same name. *)
  Lemma final_copy : forall m k it, In m ms -> within k m -> has k it -> exists n t k0, is_module w t /\ mod_parse x n t = Ok k0 /\ m_name k0 = m_name k /\ has k0 it.
  Proof.
    intros m k it Hm Hk Hit. destruct (final_vis x Ho fuel c ms Hf) as (inp & Hin & V).
    destruct (within_reach _ _ Hk ms Hm) as (ch & Hr). assert (Vi : vis ms ch (Some it)) by (now exists k).
    apply V in Vi as (m0 & Hm0 & [(c' & Ec & k0 & Hr0 & Hit0)|[K _]]); [|discriminate].
    destruct (input_is x Hw fuel l c Hl Hc inp m0 Hin Hm0) as (o & Hmo & Hp). destruct (reach_within _ _ _ Hr0) as (m1 & [<-|[]] & Hk0).
    destruct (parsed_within x Ho Hw fuel o m0 Hmo Hp k0 Hk0) as (n & t & Ht & Hpt). exists n, t, k0. split; [exact Ht|]. split; [exact Hpt|]. split; [|exact Hit0].
    destruct (reach_last _ _ _ Hr) as (d & Ed). destruct (reach_last _ _ _ Hr0) as (d0 & Ed0). rewrite Ec, Ed0, app_assoc in Ed. now apply app_inj_tail in Ed as [_ Ed].
  Qed.
  Theorem final_distinct : forall m k, In m ms -> within k m -> NoDup (item_paths k).
  Proof.
    intros m k Hm Hk. apply tidy_distinct; [now apply (final_tidy m)|]. intros it it' p Hi Hi' E E'.
    destruct (final_copy m k it Hm Hk Hi) as (n & t & k0 & Ht & Hp & En & H0). destruct (final_copy m k it' Hm Hk Hi') as (n' & t' & k0' & Ht' & Hp' & En' & H0').
    assert (k0 = k0') as <- by (apply (same_parse t t' k0 k0' Ht Ht' n n' Hp Hp'); congruence).
    apply (distinct_items k0 it it' p); auto. apply (parsed_distinct x n t k0 Ho Hp). constructor.
  Qed.
End final.
