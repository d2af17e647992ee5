(** * Lemmas: the recogniser finds every derivation (C69) *)
From Coq Require Import ZArith.
From Verif Require Import Base Spec_Lex Model_Ident Model_Token Spec_Path Spec_Items Spec_Print Spec_Grammar Proof_Base Proof_Ident Proof_Items Proof_Calm Proof_Grammar.
Open Scope Z_scope.

(** What a symbol can take, in steps of the recogniser, beyond twelve for every token read *)
Definition weights : list (string * Z) := [
  ("File", 2); ("Items", 1); ("Item", -28); ("Bare", -42); ("Visible", -30); ("Attributes", 1); ("Meta", -7); ("Argument", 1); ("Metas", -5); ("MoreMetas", 1);
  ("SimplePath", -9); ("MoreSimple", 1); ("UseTree", -9); ("UseRest", 1); ("UseTrees", 1); ("MoreTrees", 1); ("Function", -133); ("Method", -112); ("Associated", 1);
  ("Implemented", 1); ("Required", 1); ("MethodParams", 2); ("Params", 1); ("MoreParams", 1); ("Lifetime", -21); ("Type", -6); ("Types", 1); ("MoreTypes", 1);
  ("TypePath", -7); ("TypeSegments", -8); ("MoreSegments", 1); ("TypeArguments", 1); ("Generics", -3); ("MoreGenerics", 1); ("OtherGenerics", 1); ("Generic", -5);
  ("Block", -20); ("Statements", 1); ("StatementRest", 1); ("Pattern", -10); ("Expr", -1); ("Sum", 1); ("Operand", -3); ("Simple", -4); ("Primary", -5); ("Leaf", -6);
  ("Call", 1); ("Suffixes", 1); ("Exprs", 1); ("MoreExprs", 1); ("ExprPath", -8); ("ExprSegments", -9); ("MoreExpr", 1); ("AfterColons", -8); ("Trees", 1); ("Tree", -10)]%string.
Definition weight (s : tok) : Z :=
  match s with
  | TWord n => match find (fun e => str_eqb (u (fst e)) n) weights with Some e => snd e | None => -11 end
  | _ => -11
  end.
Fixpoint total (l : list tok) : Z := match l with [] => 0 | s :: r => weight s + total r end.
Lemma total_app : forall a b, total (a ++ b) = total a + total b.
Proof. induction a as [|s a IH]; intros b; cbn; [reflexivity|]. rewrite IH. lia. Qed.
Lemma weights_ok : forallb (fun e => forallb (fun r => 1 + total r <=? weight (TWord (fst e))) (snd e)) rules = true.
Proof. vm_compute. reflexivity. Qed.
Lemma weighed : forall n rule, In rule (alternatives n) -> 1 + total rule <= weight (TWord n).
Proof.
  intros n rule H. unfold alternatives in H. apply in_flat_map in H as (e & He & H). pose proof weights_ok as K. rewrite forallb_forall in K. specialize (K e He).
  destruct (str_eqb (fst e) n) eqn:E; [|easy]. apply str_eqb_eq in E. subst n. rewrite forallb_forall in K. specialize (K rule H). now apply Z.leb_le.
Qed.
Lemma weights_nonterminal : forallb (fun e => negb (mem_str (u (fst e)) class_names) && match alternatives (u (fst e)) with [] => false | _ => true end) weights = true.
Proof. vm_compute. reflexivity. Qed.
Lemma matched_weight : forall U s t, matches U s t -> weight s = -11.
Proof.
  intros U [k|c j|s|s|d|d] t H; try reflexivity. cbn [weight]. destruct (find _ weights) as [e|] eqn:E; [|reflexivity]. exfalso.
  apply find_some in E as [He E]. apply str_eqb_eq in E. subst k. pose proof weights_nonterminal as K. rewrite forallb_forall in K. specialize (K e He).
  apply andb_prop in K as [K1 K2]. destruct H as [H|(_ & _ & H)]; [|now rewrite H in K2].
  assert (Hc : In (u (fst e)) class_names).
  { destruct t; cbn in H; try easy; unfold class_names; cbn [map In]; intuition auto. }
  apply mem_str_In in Hc. now rewrite Hc in K1.
Qed.

Lemma tok_eqb_refl : forall t, tok_eqb t t = true.
Proof. intros [w|c j|s|s|d|d]; cbn; try apply str_eqb_refl; [|destruct d; reflexivity..]. rewrite N.eqb_refl. now destruct j. Qed.
Lemma in_classb_all : forall k t, in_class uni_ascii k t -> in_classb k t = true.
Proof.
  assert (I : forall w, rust_ident uni_ascii w -> syn_ident_ok uni_ascii w = true) by (intros w Hw; exact (rust_ident_syn _ _ uni_ascii_ok Hw)).
  assert (P : forall w, path_segment uni_ascii w -> syn_ident_ok uni_ascii w || path_kw w = true).
  { intros w [H|H]; [rewrite (I w H); reflexivity|rewrite H; now rewrite orb_comm]. }
  intros k [w|c j|s|s|d|d] H; unfold in_class in H; unfold in_classb; try easy.
  - destruct H as [[-> H]|[[-> H]|[(-> & H & Hn)| ->]]].
    + now rewrite (I w H).
    + now rewrite (P w H).
    + rewrite (P w H). destruct (str_eqb w (u "Self")) eqn:E; [apply str_eqb_eq in E; now subst|reflexivity].
    + apply orb_true_r.
  - subst k. reflexivity.
  - destruct H as [-> | ->]; reflexivity.
  - destruct H as [-> | ->]; reflexivity.
Qed.
Lemma matchesb_all : forall s t, matches uni_ascii s t -> matchesb s t = true.
Proof.
  intros [k|c j|s|s|d|d] t H; unfold matches in H; unfold matchesb; try (subst t; apply tok_eqb_refl).
  - destruct H as [H|(-> & Hn & Ha)]; [now rewrite (in_classb_all _ _ H)|]. rewrite tok_eqb_refl, Ha.
    destruct (mem_str k class_names) eqn:E; [apply mem_str_In in E; contradiction|]. cbn. apply orb_true_r.
  - destruct H as [-> |(-> & -> & ->)]; [now rewrite tok_eqb_refl|]. rewrite tok_eqb_refl. apply orb_true_r.
Qed.

Lemma some_intro : forall {A} (f : A -> bool) l a, In a l -> f a = true -> some f l = true.
Proof. intros A f l a. induction l as [|b l IH]; intros Ha Hf; [easy|]. cbn. destruct (f b) eqn:E; [reflexivity|]. destruct Ha as [-> |Ha]; [congruence|auto]. Qed.
Lemma accept_rule : forall f n rule r form, In rule (alternatives n) -> accept f (rule ++ r) form = true -> accept (S f) (TWord n :: r) form = true.
Proof. intros f n rule r form Hr H. cbn [accept]. match goal with |- (if ?b then _ else _) = _ => destruct b; [reflexivity|] end. now apply (some_intro _ _ rule). Qed.
Lemma accept_token : forall f s t r form, matchesb s t = true -> accept f r form = true -> accept (S f) (s :: r) (Tok t :: form) = true.
Proof. intros f s t r form Hm H. cbn [accept]. now rewrite Hm, H. Qed.
Lemma accept_more : forall f rhs form, accept f rhs form = true -> forall d, accept (f + d) rhs form = true.
Proof.
  induction f as [|f IH]; intros rhs form H d; [discriminate|]. cbn [Nat.add accept] in *. destruct rhs as [|s r]; [exact H|].
  match type of H with (if ?b then _ else _) = _ => destruct b eqn:Hb end.
  - match goal with |- (if ?b then _ else _) = _ => assert (Hb' : b = true); [|now rewrite Hb'] end.
    destruct form as [|[t|x l] form]; [discriminate| |].
    + destruct (matchesb s t); [now apply IH|discriminate].
    + destruct (gap_fits s x); [now apply IH|]. destruct (continued s x r); [now apply IH|discriminate].
  - match goal with |- (if ?b then _ else _) = _ => destruct b; [reflexivity|] end. destruct s as [n| | | | |]; try discriminate.
    apply some_exists in H as (rule & Hr & H). apply (some_intro _ _ rule); [exact Hr|]. now apply IH.
Qed.

Lemma parses_accept : forall rhs l, parses uni_ascii rhs l -> exists k, Z.of_nat k <= total rhs + 12 * Z.of_nat (length l) /\
  forall f r form, accept f r form = true -> accept (k + f) (rhs ++ r) (map Tok l ++ form) = true.
Proof.
  intros rhs l H. induction H as [|s t rhs l Hm H (k & Hk & IH)|n rule rhs l l' Hr H1 (k1 & Hk1 & IH1) H2 (k2 & Hk2 & IH2)].
  - exists O. split; [cbn; lia|]. auto.
  - exists (S k). split; [|intros f r form Hf; cbn; apply accept_token; [now apply matchesb_all|auto]].
    cbn [total length]. rewrite (matched_weight _ _ _ Hm). lia.
  - exists (S (k1 + k2)). split.
    + cbn [total]. rewrite app_length. pose proof (weighed n rule Hr). lia.
    + intros f r form Hf. cbn. apply (accept_rule _ _ rule); [exact Hr|]. rewrite map_app, <- app_assoc, <- Nat.add_assoc. apply IH1. now apply IH2.
Qed.
Definition enough (l : list tok) : nat := S (Z.to_nat (2 + 12 * Z.of_nat (length l))).
Definition fileb (l : list tok) : bool := accept (enough l) [TWord (u "File")] (map Tok l).
Theorem fileb_iff : forall l, fileb l = true <-> is_a uni_ascii "File" l.
Proof.
  intros l. split; intros H.
  - apply (accept_ok uni_ascii uni_ascii_ok) in H.
    + assert (E : fill (map Tok l) = l) by (clear H; induction l as [|t l IH]; [reflexivity|change (t :: fill (map Tok l) = t :: l); now rewrite IH]). now rewrite E in H.
    + intros p Hp. apply in_map_iff in Hp as (t & <- & _). exact I.
  - apply parses_accept in H as (k & Hk & H). specialize (H 1%nat [] [] eq_refl). rewrite !app_nil_r in H. unfold fileb.
    assert (E : total [TWord (u "File")] = 2) by (vm_compute; reflexivity). rewrite E in Hk.
    replace (enough l) with ((k + 1) + (enough l - (k + 1)))%nat; [now apply accept_more|]. unfold enough. lia.
Qed.
