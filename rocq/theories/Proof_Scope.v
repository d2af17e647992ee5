(** * Lemmas: scopes of the output and modules of the forest *)
From Verif Require Import Base Model_Ident Model_Path Model_Import Model_Text Model_Config Model_Type Model_IntoRs Model_World Model_Out
  Model_Function Model_Property Model_Class Model_Module Model_Parse Model_Codegen Spec_Path Spec_Names Spec_Call Spec_Items Spec_Tree Spec_Api Spec_Safe Spec_Out
  Proof_Base Proof_Ident Proof_Path Proof_Text Proof_IntoRs Proof_Call Proof_Function Proof_Fresh Proof_Method Proof_Kind Proof_Items Proof_Module
  Proof_Parse Proof_Forest Proof_Err Proof_Api Proof_Honest Proof_Calm Proof_Rooted Proof_Parts.

Lemma path_name_ends : forall p i, path_name p = Ok i <-> ends p i.
Proof.
  intros p i. unfold path_name, ends. split.
  - intros H. destruct (last_opt (segs p)) as [j|] eqn:E; [|discriminate]. injection H as <-. apply last_opt_Some in E. now exists (removelast (segs p)).
  - intros (q & ->). now rewrite last_opt_app.
Qed.
Lemma ends_unique : forall p i j, ends p i -> ends p j -> i = j.
Proof. intros p i j H K. apply path_name_ends in H, K. congruence. Qed.

(** The modules in the output of a module *)
Lemma scopes_named : forall x ns n b k m l, mod_generate x m = Ok l -> In (GMod n b) l -> at_path b ns k ->
  (exists ex, k = [GPub; GUseSuper ex]) \/
  exists ch m' P, reach [m] ch m' /\ mirrors ch (n :: ns) /\ parts_of x m' P /\ k = pt_body m' P.
Proof.
  intros x. induction ns as [|n' ns IH]; intros n b k m l H Hin Hk; destruct (generated_mods x m l n b H Hin) as (P & HP & Hn & _ & ->); apply path_name_ends in Hn.
  - inversion Hk; subst. right. exists [m_name m], m, P. split; [apply reach_here; now left|]. split; [constructor; [exact Hn|constructor]|]. now split.
  - inversion Hk as [|l0 n0 b0 ns0 k0 Hb Hk0]; subst. destruct (body_mods _ _ _ _ _ HP Hb) as [Hp|(s & ls & Hs & Hls & Hin')].
    + pose proof (po_prelude _ _ _ HP) as Hpre. destruct (generate_preludes _); [|injection Hpre as E; now rewrite <- E in Hp]. cbn in Hpre.
      apply prelude_shape in Hpre as [E|(id & ex & E & _)]; rewrite E in Hp; [easy|]. destruct Hp as [Hp|[Hp|[]]]; [discriminate|]. injection Hp as <- <-.
      left. inversion Hk0 as [|l1 n1 b1 ns1 k1 Hb1]; subst; [now exists ex|]. destruct Hb1 as [Hb1|[Hb1|[]]]; discriminate.
    + destruct (IH n' b0 k s ls Hls Hin' Hk0) as [K|(ch & m' & P' & K1 & K2 & K3)]; [now left|right]. exists (m_name m :: ch), m', P'.
      split; [apply reach_down; [now left|]|]; [|split; [now constructor|exact K3]].
      clear - K1 Hs. inversion K1 as [l1 m1 Hm1|l1 m1 c1 k1 Hm1 Hr]; subst; destruct Hm1 as [<-|[]]; [now apply reach_here|now apply reach_down].
Qed.
(** and back *)
Lemma module_in : forall x m l, mod_generate x m = Ok l -> exists P n, parts_of x m P /\ ends (m_name m) n /\ In (GMod n (pt_body m P)) l.
Proof.
  intros x m l H. apply mod_generate_inv in H as (P & n & HP & Hn & _ & ->). exists P, n. split; [exact HP|]. split; [now apply path_name_ends|].
  rewrite !in_app_iff. cbn. auto.
Qed.
Lemma subs_in : forall x m P, parts_of x m P -> traverse_submodules (mx_cfg x) = true -> forall s, In s (m_subs m) ->
  exists l, mod_generate x s = Ok l /\ incl l (pt_body m P).
Proof.
  intros x m P HP Ht s Hs. destruct (when_In _ _ _ _ (po_subs _ _ _ HP) Ht s Hs) as (l & E & I1). exists l. split; [exact E|].
  intros y Hy. apply I1 in Hy. unfold pt_body. rewrite !in_app_iff. auto 10.
Qed.
Lemma scope_reached : forall x ch m' m l, traverse_submodules (mx_cfg x) = true -> mod_generate x m = Ok l -> reach [m] ch m' ->
  exists ns P, mirrors ch ns /\ parts_of x m' P /\ at_path l ns (pt_body m' P).
Proof.
  intros x. induction ch as [|p ch IH]; intros m' m l Ht H Hr; [inversion Hr|].
  destruct (module_in x m l H) as (P & n & HP & Hn & Hin). inversion Hr as [l1 m1 Hm1|l1 m1 c1 k1 Hm1 Hr']; subst; destruct Hm1 as [<-|[]].
  - exists [n], P. split; [constructor; [exact Hn|constructor]|]. split; [exact HP|]. eapply at_down; [exact Hin|constructor].
  - assert (K : exists s, In s (m_subs m) /\ reach [s] ch m').
    { inversion Hr' as [l2 m2 Hm2|l2 m2 c2 k2 Hm2 Hr2]; subst; [exists m'|exists m2]; (split; [exact Hm2|]); [apply reach_here|apply reach_down]; auto; now left. }
    destruct K as (s & Hs & Hrs). destruct (subs_in x m P HP Ht s Hs) as (ls & Els & Il). destruct (IH m' s ls Ht Els Hrs) as (ns & P' & M & HP' & A).
    exists (n :: ns), P'. split; [now constructor|]. split; [exact HP'|]. eapply at_down; [exact Hin|].
    inversion A as [|l3 n3 b3 ns3 k3 Hin3 A3]; subst; [|eapply at_down; [apply Il; exact Hin3|exact A3]].
    inversion M; subst. inversion Hrs.
Qed.

Section output.
  Variable x : penv.
  Variables (numpy : bool) (fuel : nat) (c : codegen) (out : list frag) (ms : list module).
  Hypothesis Hf : final_modules x fuel c = Ok ms.
  Hypothesis Hout : cg_generate x numpy fuel c = Ok out.
  Let X := gen_ctx x numpy ms.

  Lemma output_from : forall y, In y out -> exists m lm, In m ms /\ mod_generate X m = Ok lm /\ In y lm.
  Proof.
    unfold cg_generate in Hout. rewrite Hf in Hout. cbn [obind] in Hout. apply bind_Ok in Hout as (ls & Hls & H). injection H as <-.
    intros y Hy. apply in_concat in Hy as (lm & Hlm & Hy). destruct (mapM_In _ _ _ _ Hls Hlm) as (m & Hm & E). now exists m, lm.
  Qed.
  Lemma output_of : forall m, In m ms -> exists lm, mod_generate X m = Ok lm /\ incl lm out.
  Proof.
    unfold cg_generate in Hout. rewrite Hf in Hout. cbn [obind] in Hout. apply bind_Ok in Hout as (ls & Hls & H). injection H as <-.
    intros m Hm. destruct (mapM_In_l _ _ _ _ Hls Hm) as (lm & Hlm & E). exists lm. split; [exact E|]. intros y Hy. apply in_concat. now exists lm.
  Qed.
  Lemma output_named : forall ns k, at_path out ns k ->
    (ns = [] /\ forall f, In f k -> leads f = true \/ exists n b, f = GMod n b) \/
    (exists ex, k = [GPub; GUseSuper ex]) \/
    exists ch k' P, reach ms ch k' /\ mirrors ch ns /\ parts_of X k' P /\ k = pt_body k' P.
  Proof.
    intros ns k Hk. assert (K : (ns = [] /\ k = out) \/ exists n b ns0, ns = n :: ns0 /\ In (GMod n b) out /\ at_path b ns0 k).
    { clear - Hk. destruct Hk as [l0|l0 n b ns0 k0 Hin Hk0]; [now left|right]. now exists n, b, ns0. }
    destruct K as [[-> ->]|(n & b & ns0 & -> & Hin & Hk0)].
    - left. split; [reflexivity|]. intros f Hfin. destruct (output_from f Hfin) as (m & lm & Hm & Hg & Hin). now apply (mod_lead_or_mod X m lm).
    - right. destruct (output_from _ Hin) as (m & lm & Hm & Hg & Hin'). destruct (scopes_named _ _ _ _ _ _ _ Hg Hin' Hk0) as [Q|(ch & k' & P & Q1 & Q2 & Q3 & Q4)]; [now left|right].
      exists ch, k', P. split; [|auto]. inversion Q1 as [l1 m1 Hm1|l1 m1 c1 k1 Hm1 Hr]; subst; destruct Hm1 as [<-|[]]; [now apply reach_here|now apply reach_down].
  Qed.
  Lemma output_reached : forall ch k', (traverse_submodules (pe_cfg x) = true \/ length ch = 1) -> reach ms ch k' ->
    exists ns P, mirrors ch ns /\ parts_of X k' P /\ at_path out ns (pt_body k' P).
  Proof.
    intros ch k' Ht Hr.
    assert (K : exists m, In m ms /\ reach [m] ch k').
    { inversion Hr as [l2 m2 Hm2|l2 m2 c2 k2 Hm2 Hr2]; subst; [exists k'|exists m2]; (split; [exact Hm2|]); [apply reach_here|apply reach_down]; auto; now left. }
    destruct K as (m & Hm & Hrm). destruct (output_of m Hm) as (lm & E & Il).
    assert (G : exists ns P, mirrors ch ns /\ parts_of X k' P /\ at_path lm ns (pt_body k' P)).
    { destruct Ht as [Ht|Hlen]; [now apply (scope_reached X ch k' m lm Ht E Hrm)|].
      inversion Hrm as [l1 m1 Hm1|l1 m1 c1 k1 Hm1 Hr']; subst; destruct Hm1 as [<-|[]]; [|destruct c1; [inversion Hr'|discriminate]].
      destruct (module_in X m lm E) as (P & n & HP & Hn & Hin). exists [n], P. split; [constructor; [exact Hn|constructor]|]. split; [exact HP|]. eapply at_down; [exact Hin|constructor]. }
    destruct G as (ns & P & M & HP & A). exists ns, P. split; [exact M|]. split; [exact HP|].
    clear - M A Il Hrm. inversion A as [|l3 n3 b3 ns3 k3 Hin3 A3]; subst; [inversion M; subst; inversion Hrm|]. eapply at_down; [apply Il; exact Hin3|exact A3].
  Qed.
End output.

(** The mirror of a linked chain is the path of its last module. *)
Lemma mirrors_linked : forall ch ns d, linked (ch ++ [d]) -> mirrors (ch ++ [d]) ns -> (forall n r, ch ++ [d] = n :: r -> length (segs n) = 1) -> ns = segs d.
Proof.
  induction ch as [|a ch IH] using rev_ind; intros ns d L M H1.
  - inversion M as [|p i l k (q & E) F]; subst. inversion F; subst. specialize (H1 d [] eq_refl). rewrite E in H1 |- *. destruct q as [|y q]; [reflexivity|].
    rewrite app_length in H1. cbn in H1. destruct q; discriminate.
  - apply Forall2_app_inv_l in M as (n1 & n2 & M1 & M2 & ->). inversion M2 as [|p i l k (q & E) F]; subst. inversion F; subst.
    assert (L1 : linked (ch ++ [a]) /\ extends a d).
    { clear - L. rewrite <- app_assoc in L. induction ch as [|b ch IH]; [cbn in *; tauto|]. destruct ch as [|c0 ch]; [cbn in *; tauto|].
      cbn [app linked] in *. destruct L as [L1 L2]. split; [split; [exact L1|apply IH; exact L2]|now apply IH]. }
    destruct L1 as [L1 (j & Ej)]. rewrite (IH n1 a L1 M1).
    + rewrite Ej in E. apply app_inj_tail in E as [<- <-]. congruence.
    + intros n r Enr. rewrite Enr in H1. apply (H1 n (r ++ [d])). reflexivity.
Qed.
