(** * What reordering keeps (C72) *)
From Coq Require Import Permutation.
From Verif Require Import Base Model_Ident Model_Path Model_Import Model_Config Model_Type Model_IntoRs Model_World Model_Out Model_Function Model_Property
  Model_Class Model_Module Model_Parse Model_Codegen Spec_Path Spec_Items Spec_Tree Spec_Out Spec_Hash.

(** ** What [reordered] keeps *)
Lemma split_app : forall a b f, leads b = false -> forall r, split_items f (a ++ [b] ++ r) = split_items f (a ++ [b]) ++ split_items [] r.
Proof.
  induction a as [|x a IH]; intros b f Hb r; cbn [app split_items].
  - now rewrite Hb.
  - destruct (leads x); [|cbn [app]; f_equal]; apply (IH b _ Hb r).
Qed.
Lemma split_whole : forall a b, whole a -> split_items [] (a ++ b) = split_items [] a ++ split_items [] b.
Proof. intros a b [->|(t & y & -> & Hy)]; [reflexivity|]. rewrite <- app_assoc. now apply split_app. Qed.
Lemma split_front : forall front f y, forallb leads front = true -> leads y = false -> split_items f (front ++ [y]) = [(f ++ front, y)].
Proof.
  induction front as [|x r IH]; intros f y H Hy; cbn [app split_items].
  - now rewrite Hy, app_nil_r.
  - cbn [forallb] in H. apply andb_true_iff in H as [Hx Hr]. rewrite Hx, (IH _ _ Hr Hy), <- app_assoc. reflexivity.
Qed.
Lemma alike_item_trans : forall d e f, alike_item d e -> alike_item e f -> alike_item d f.
Proof.
  intros d e f H K. inversion H; subst; [exact K| |]; inversion K; subst; try assumption.
  - apply ai_mod. eapply ro_trans; eassumption.
  - apply ai_use. eapply Permutation_trans; eassumption.
Qed.
Lemma Forall2_refl_item : forall l, Forall2 alike_item l l.
Proof. induction l; constructor; [apply ai_same|assumption]. Qed.
Lemma alike_all_trans : forall d e f, Forall2 alike_item d e -> Forall2 alike_item e f -> Forall2 alike_item d f.
Proof.
  induction d as [|x d IH]; intros e f H K; inversion H; subst; inversion K; subst; constructor; [eapply alike_item_trans; eassumption|eapply IH; eassumption].
Qed.
Lemma perm_through : forall l l', Permutation l l' -> forall k, Forall2 alike_item k l -> exists k', Permutation k k' /\ Forall2 alike_item k' l'.
Proof.
  induction 1 as [|x l l' P IH|x y l|l l1 l2 P1 IH1 P2 IH2]; intros k H.
  - inversion H; subst. exists []. split; constructor.
  - inversion H as [|z ? kr ? Hz Hr]; subst. destruct (IH kr Hr) as (k' & Q & R). exists (z :: k'). split; now constructor.
  - inversion H as [|z ? kr ? Hz Hr]; subst. inversion Hr as [|z' ? kr' ? Hz' Hr']; subst. exists (z' :: z :: kr'). split; [apply perm_swap|now repeat constructor].
  - destruct (IH1 k H) as (k1 & Q1 & R1). destruct (IH2 k1 R1) as (k2 & Q2 & R2). exists k2. split; [now apply (Permutation_trans Q1)|exact R2].
Qed.
Lemma reordered_items : forall a b, reordered a b -> exists p, Permutation (split_items [] a) p /\ Forall2 alike_item p (split_items [] b).
Proof.
  induction 1 as [l|a b c _ (p & P & F) _ (q & Q & G)|a a' b b' Wa Wa' _ (p & P & F) _ (q & Q & G)|a b Wa Wb|front n a b L H _|front a b L H].
  - exists (split_items [] l). split; [reflexivity|apply Forall2_refl_item].
  - destruct (perm_through _ _ Q p F) as (p' & P' & F'). exists p'. split; [now apply (Permutation_trans P)|]. now apply (alike_all_trans _ q).
  - exists (p ++ q). rewrite !split_whole by assumption. split; [now apply Permutation_app|now apply Forall2_app].
  - exists (split_items [] (b ++ a)). rewrite !split_whole by assumption. split; [apply Permutation_app_comm|apply Forall2_refl_item].
  - exists (split_items [] (front ++ [GMod n a])). split; [reflexivity|]. rewrite !split_front by trivial. repeat constructor. exact H.
  - exists (split_items [] (front ++ [GUseSuper a])). split; [reflexivity|]. rewrite !split_front by trivial. repeat constructor. exact H.
Qed.
Lemma reordered_sym : forall a b, reordered a b -> reordered b a.
Proof.
  induction 1; [apply ro_same|eapply ro_trans; eassumption|now apply ro_app|now apply ro_swap|now apply ro_mod|apply ro_use; [assumption|now apply Permutation_sym]].
Qed.
Lemma split_In : forall l f y, leads y = false -> (In y l <-> exists front, In (front, y) (split_items f l)).
Proof.
  induction l as [|x l IH]; intros f y Hy; cbn [split_items].
  - split; [intros []|intros (? & [])].
  - destruct (leads x) eqn:Lx.
    + rewrite <- (IH (f ++ [x]) y Hy). split; [intros [->|H]; [congruence|exact H]|now right].
    + split.
      * intros [->|H]; [exists f; now left|]. apply (IH [] y Hy) in H as (front & H). exists front. now right.
      * intros (front & [E|H]); [injection E as <- <-; now left|]. right. apply (IH [] y Hy). now exists front.
Qed.
Lemma Forall2_In_l : forall p q e, Forall2 alike_item p q -> In e p -> exists e', In e' q /\ alike_item e e'.
Proof.
  induction 1 as [|x y p q Hx _ IH]; intros H; [destruct H|]. destruct H as [->|H]; [exists y; split; [now left|exact Hx]|].
  destruct (IH H) as (e' & K & A). exists e'. split; [now right|exact A].
Qed.
Lemma reordered_item : forall a b y, reordered a b -> In y a -> leads y = false -> exists y', In y' b /\ leads y' = false /\
  (y' = y \/ (exists n k k', y = GMod n k /\ y' = GMod n k' /\ reordered k k') \/ exists k k', y = GUseSuper k /\ y' = GUseSuper k' /\ Permutation k k').
Proof.
  intros a b y R H Hy. destruct (reordered_items a b R) as (p & P & F). apply (split_In a [] y Hy) in H as (front & H). apply (Permutation_in _ P) in H.
  destruct (Forall2_In_l p _ _ F H) as ([f' y'] & K & A). exists y'.
  assert (L : leads y' = false) by (inversion A; subst; trivial). split; [apply (split_In b [] y' L); now exists f'|]. split; [exact L|].
  inversion A; subst; [now left|right; left|right; right]; eauto 6.
Qed.
Lemma reordered_path : forall out ns k, at_path out ns k -> forall out', reordered out out' -> exists k', at_path out' ns k' /\ reordered k k'.
Proof.
  induction 1 as [l|l n b ns k Hin _ IH]; intros out' R; [exists out'; split; [apply at_here|exact R]|].
  destruct (reordered_item l out' (GMod n b) R Hin eq_refl) as (y' & K & _ & [->|[(n' & k0 & k0' & E & -> & R')|(k0 & k0' & E & _)]]).
  - destruct (IH b (ro_same b)) as (k' & P & Q). exists k'. split; [now apply (at_down out' n b)|exact Q].
  - injection E as <- <-. destruct (IH k0' R') as (k' & P & Q). exists k'. split; [now apply (at_down out' n k0')|exact Q].
  - discriminate.
Qed.
