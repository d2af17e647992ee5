(** * Lemmas: the order and the repetition of requests *)
From Coq Require Import Permutation.
From Verif Require Import Base Model_Ident Model_Path Model_Import Model_Text Model_Config Model_Type Model_IntoRs Model_World Model_Out
  Model_Function Model_Property Model_Class Model_Module Model_Parse Model_Codegen Spec_Path Spec_Names Spec_Call Spec_Items Spec_Tree Spec_Api
  Proof_Base Proof_Ident Proof_Path Proof_IntoRs Proof_Function Proof_Items Proof_Module Proof_Parse Proof_Forest Proof_Err Proof_Api Proof_Honest.


Lemma forall2_in_l : forall {A B} (R : A -> B -> Prop) l k a, Forall2 R l k -> In a l -> exists b, In b k /\ R a b.
Proof. intros A B R l k a F. induction F as [|y b l k H F IH]; [easy|]. intros [<-|Ha]; [exists b; split; [now left|exact H]|]. destruct (IH Ha) as (b' & Hb & R'). exists b'. split; [now right|exact R']. Qed.
Lemma forall2_in_r : forall {A B} (R : A -> B -> Prop) l k b, Forall2 R l k -> In b k -> exists a, In a l /\ R a b.
Proof. intros A B R l k b F. induction F as [|a y l k H F IH]; [easy|]. intros [<-|Hb]; [exists a; split; [now left|exact H]|]. destruct (IH Hb) as (a' & Ha & R'). exists a'. split; [now right|exact R']. Qed.
Lemma parsed_same : forall x fuel ql kl ms ks, Forall2 (parsed_as x fuel) ql ms -> Forall2 (parsed_as x fuel) kl ks -> same_members ql kl -> same_members ms ks.
Proof.
  intros x fuel. assert (K : forall ql kl ms ks, Forall2 (parsed_as x fuel) ql ms -> Forall2 (parsed_as x fuel) kl ks -> incl ql kl -> incl ms ks).
  { intros ql kl ms ks F G I m Hm. destruct (forall2_in_r _ _ _ _ F Hm) as (q & Hq & o & E & Hp). apply I in Hq.
    destruct (forall2_in_l _ _ _ _ G Hq) as (m' & Hm' & o' & E' & Hp'). congruence. }
  intros ql kl ms ks F G S m. split; [apply (K ql kl ms ks F G)|apply (K kl ql ks ms G F)]; intros q Hq; now apply S.
Qed.

(** ** Requests succeed one by one *)
Lemma ask_ok : forall x fuel r c, (forall q, In q (asked (pe_world x) r) -> exists m, parsed_as x fuel q m) -> exists c', ask x fuel r c = Ok c'.
Proof.
  intros x fuel r c H.
  assert (One : forall o c, (exists m, parsed_as x fuel (Some o) m) -> exists c', cg_module x fuel o c = Ok c').
  { intros o c0 (m & o' & [= <-] & Hp). unfold cg_module. rewrite Hp. now eexists. }
  assert (Nm : forall n c, (exists m, parsed_as x fuel (w_import (pe_world x) n) m) -> exists c', cg_module_name x fuel n c = Ok c').
  { intros n c0 (m & o' & E & Hp). unfold cg_module_name. rewrite E. apply One. exists m. now exists o'. }
  destruct r as [o|n|l|l|src n o]; cbn [ask asked] in *.
  - apply One. apply H. now left.
  - apply Nm. apply H. now left.
  - revert c. induction l as [|o l IH]; intros c; [now eexists|]. cbn [cg_modules_all]. destruct (One o c) as [c1 ->]; [apply H; now left|].
    apply IH. intros q Hq. apply H. now right.
  - revert c. induction l as [|o l IH]; intros c; [now eexists|]. cbn [cg_module_names]. destruct (Nm o c) as [c1 ->]; [apply H; now left|].
    apply IH. intros q Hq. apply H. now right.
  - unfold cg_module_from_str. destruct (H o (or_introl eq_refl)) as (m & o' & E & Hp). rewrite E. apply One. exists m. now exists o'.
Qed.
Lemma asks_ok : forall x fuel l c, (forall q, In q (flat_map (asked (pe_world x)) l) -> exists m, parsed_as x fuel q m) -> exists c', asks x fuel l c = Ok c'.
Proof.
  intros x fuel. induction l as [|r l IH]; intros c H; [now eexists|]. cbn [asks]. destruct (ask_ok x fuel r c) as [c1 ->].
  - intros q Hq. apply H. cbn [flat_map]. apply in_or_app. now left.
  - apply IH. intros q Hq. apply H. cbn [flat_map]. apply in_or_app. now right.
Qed.

(** ** Dependencies *)
(** Different modules have different names. *)

Section dependencies.
  Variable x : penv.
  Let U := pe_uni x.
  Let w := pe_world x.
  Variable fuel : nat.
  Hypothesis Hw : honest U w.
  Hypothesis Hd : names_differ w.

  Lemma dependency_is : forall p o, dependency_module w p = Ok o -> is_module w o.
  Proof.
    intros p o H. unfold dependency_module in H. apply bind_Ok in H as (root & _ & H). apply bind_Ok in H as (o0 & H0 & H). injection H as <-.
    apply last_module_is. destruct (w_import w (to_py root)) as [o1|] eqn:E; [|discriminate]. injection H0 as ->. now apply (hn_import _ _ Hw) in E.
  Qed.
  (** What a dependency turns into *)
  Definition becomes (p : path) (m : module) : Prop := exists o, dependency_module w p = Ok o /\ dependency_allowed x o = Ok true /\ mod_parse x fuel o = Ok m.
  Definition settled (p : path) : Prop := exists o b, dependency_module w p = Ok o /\ dependency_allowed x o = Ok b /\ (b = true -> exists m, mod_parse x fuel o = Ok m).

  Lemma dependencies_exact : forall l seen ms r, add_dependencies x fuel seen l ms = Ok r ->
    exists d, r = ms ++ d /\ (forall m, In m d -> exists p, In p l /\ becomes p m) /\
      (forall p o, In p l -> dependency_module w p = Ok o -> In (w_name w o) seen \/ (settled p /\ forall m, becomes p m -> In m d)) /\
      (forall p, In p l -> exists o, dependency_module w p = Ok o).
  Proof.
    induction l as [|p l IH]; intros seen ms r H; cbn [add_dependencies] in H.
    - injection H as <-. exists []. rewrite app_nil_r. repeat split; easy.
    - apply bind_Ok in H as (o & Hp & H). fold w in H, Hp. destruct (mem_str (w_name w o) seen) eqn:Es.
      + apply mem_str_In in Es. destruct (IH _ _ _ H) as (d & -> & D1 & D2 & D3). exists d. split; [reflexivity|].
        split; [intros m Hm; destruct (D1 m Hm) as (q & Hq & B); exists q; split; [now right|exact B]|].
        split; [|intros q [<-|Hq]; [now exists o|now apply D3]].
        intros q o' [<-|Hq] Hq'; [left; congruence|now apply D2].
      + apply bind_Ok in H as (b & Hb & H).
        assert (Same : forall q o', dependency_module w q = Ok o' -> w_name w o' = w_name w o -> o' = o).
        { intros q o' Hq E. apply Hd; [now apply (dependency_is q)|now apply (dependency_is p)|exact E]. }
        destruct b.
        * apply bind_Ok in H as (m0 & Hm0 & H). destruct (IH _ _ _ H) as (d & -> & D1 & D2 & D3). exists (m0 :: d). rewrite <- app_assoc. split; [reflexivity|].
          assert (Bp : forall q, dependency_module w q = Ok o -> settled q /\ forall m, becomes q m -> In m (m0 :: d)).
          { intros q Hq. split; [exists o, true; repeat split; auto; intros _; now exists m0|]. intros m (o1 & E1 & _ & E2). left. congruence. }
          split; [intros m [<-|Hm]; [exists p; split; [now left|now exists o]|]; destruct (D1 m Hm) as (q & Hq & B); exists q; split; [now right|exact B]|].
          split; [|intros q [<-|Hq]; [now exists o|now apply D3]].
          intros q o' [<-|Hq] Hq'; [right; now apply Bp|]. destruct (D2 q o' Hq Hq') as [[E|E]|[S B]]; [|now left|].
          -- right. apply Bp. symmetry in E. now rewrite (Same q o' Hq' E) in Hq'.
          -- right. split; [exact S|]. intros m Hm. right. now apply B.
        * destruct (IH _ _ _ H) as (d & -> & D1 & D2 & D3). exists d. split; [reflexivity|].
          assert (Bp : forall q, dependency_module w q = Ok o -> settled q /\ forall m, becomes q m -> In m d).
          { intros q Hq. split; [exists o, false; repeat split; auto; discriminate|]. intros m (o1 & E1 & E2 & _). congruence. }
          split; [intros m Hm; destruct (D1 m Hm) as (q & Hq & B); exists q; split; [now right|exact B]|].
          split; [|intros q [<-|Hq]; [now exists o|now apply D3]].
          intros q o' [<-|Hq] Hq'; [right; now apply Bp|]. destruct (D2 q o' Hq Hq') as [[E|E]|[S B]]; [|now left|now right].
          right. apply Bp. symmetry in E. now rewrite (Same q o' Hq' E) in Hq'.
  Qed.
  Lemma dependencies_total : forall l seen ms, (forall p, In p l -> settled p) -> exists r, add_dependencies x fuel seen l ms = Ok r.
  Proof.
    induction l as [|p l IH]; intros seen ms H; [now eexists|]. cbn [add_dependencies].
    destruct (H p (or_introl eq_refl)) as (o & b & Hp & Hb & Hm). fold w. rewrite Hp. cbn [obind].
    assert (H' : forall q, In q l -> settled q) by (intros q Hq; apply H; now right).
    destruct (mem_str _ seen); [now apply IH|]. rewrite Hb. cbn [obind]. destruct b; [|now apply IH]. destruct (Hm eq_refl) as [m ->]. cbn [obind]. now apply IH.
  Qed.

  Definition origins (ms : list module) : list path := unique path_eqb (map im_origin (flat_map imports_of ms)).
  Lemma origins_same : forall ms ks, same_members ms ks -> same_members (origins ms) (origins ks).
  Proof.
    intros ms ks S p. unfold origins. rewrite !unique_In by apply path_eqb_eq. rewrite !in_map_iff. split; intros (i & E & Hi); exists i; (split; [exact E|]);
      apply in_flat_map in Hi as (m & Hm & Hi); apply in_flat_map; exists m; (split; [now apply S|exact Hi]).
  Qed.
  Lemma dependencies_same : forall ms ks r, same_members ms ks -> parse_dependencies x fuel ms = Ok r ->
    exists r', parse_dependencies x fuel ks = Ok r' /\ same_members r r'.
  Proof.
    intros ms ks r S H. unfold parse_dependencies in *. fold (origins ms) in H. fold (origins ks).
    pose proof (origins_same ms ks S) as SO. apply dependencies_exact in H as (d & -> & D1 & D2 & D3).
    destruct (dependencies_total (origins ks) [] ks) as [r' Hr'].
    { intros p Hp. apply SO in Hp. destruct (D3 p Hp) as [o Hop]. destruct (D2 p o Hp Hop) as [[]|[K _]]. exact K. }
    exists r'. split; [exact Hr'|]. apply dependencies_exact in Hr' as (d' & -> & E1 & E2 & E3).
    intros m. rewrite !in_app_iff. split; (intros [Hm|Hm]; [left; now apply S|right]).
    - destruct (D1 m Hm) as (p & Hp & B). pose proof B as (o & Hop & _). apply SO in Hp. destruct (E2 p o Hp Hop) as [[]|[_ K]]. now apply K.
    - destruct (E1 m Hm) as (p & Hp & B). pose proof B as (o & Hop & _). apply SO in Hp. destruct (D2 p o Hp Hop) as [[]|[_ K]]. now apply K.
  Qed.
End dependencies.

(** ** The same forest *)
Lemma canonicalize_same : forall x ms ks r, order_ok (pe_ord x) -> same_members ms ks -> canonicalize x ms = Ok r ->
  exists r', canonicalize x ks = Ok r' /\ same_forest r r'.
Proof.
  intros x ms ks r Ho S H.
  assert (K : exists r', canonicalize x ks = Ok r').
  { unfold canonicalize in *. apply bind_Ok in H as (k & Hk & _). destruct (mapM_total (canonical x) ks) as [k' ->]; [|apply duplicates_ok].
    intros a Ha. apply S in Ha. destruct (mapM_In_l _ _ _ _ Hk Ha) as (b & _ & E). now exists b. }
  destruct K as [r' Hr']. exists r'. split; [exact Hr'|]. apply same_forest_vis. intros c q.
  rewrite (canonicalize_vis x ms r Ho H), (canonicalize_vis x ks r' Ho Hr'). split; intros (m & Hm & R); exists m; (split; [now apply S|exact R]).
Qed.
Lemma final_same : forall x fuel l l' c ms, order_ok (pe_ord x) -> 
  (generate_dependencies (pe_cfg x) = true -> honest (pe_uni x) (pe_world x) /\ names_differ (pe_world x)) ->
  same_members (flat_map (asked (pe_world x)) l) (flat_map (asked (pe_world x)) l') ->
  asks x fuel l cg_new = Ok c -> final_modules x fuel c = Ok ms ->
  exists c' ms', asks x fuel l' cg_new = Ok c' /\ final_modules x fuel c' = Ok ms' /\ same_forest ms ms'.
Proof.
  intros x fuel l l' c ms Ho Hdep S Hc Hf. pose proof (asks_state x fuel l c Hc) as F.
  destruct (asks_ok x fuel l' cg_new) as [c' Hc'].
  { intros q Hq. apply S in Hq. destruct (forall2_in_l _ _ _ _ F Hq) as (m & _ & R). now exists m. }
  pose proof (asks_state x fuel l' c' Hc') as F'. pose proof (parsed_same x fuel _ _ _ _ F F' S) as SM.
  destruct (final_inv x fuel c ms Hf) as (inp & k & [Hne Hin] & Hk & E).
  assert (K : exists inp', (if generate_dependencies (pe_cfg x) then parse_dependencies x fuel (cg_modules c') else Ok (cg_modules c')) = Ok inp' /\ same_members inp inp').
  { destruct (generate_dependencies (pe_cfg x)).
    - destruct (Hdep eq_refl) as [H1 H2]. now apply (dependencies_same x fuel H1 H2 (cg_modules c)).
    - injection Hin as <-. now exists (cg_modules c'). }
  destruct K as (inp' & Hin' & SI). destruct (canonicalize_same x inp inp' k Ho SI Hk) as (k' & Hk' & SF).
  exists c', (map (with_source (cg_sources c')) k'). split; [exact Hc'|]. split.
  - unfold final_modules. destruct (cg_modules c') as [|a r] eqn:Ec.
    + exfalso. destruct (cg_modules c) as [|b t]; [easy|]. apply (SM b). now left.
    + rewrite Hin'. cbn [obind]. now rewrite Hk'.
  - rewrite E. apply same_forest_vis. intros ch q. rewrite !vis_source. now apply same_forest_vis.
Qed.
