(** * Lemmas: generated code is grammatical (C69) *)
From Verif Require Import Base Spec_Lex Model_Ident Model_Path Model_Import Model_Text Model_Config Model_Type Model_IntoRs Model_World Model_Token Model_Out Model_Print Spec_Path Spec_Items
  Spec_Print Spec_Grammar Proof_Base Proof_Ident Proof_Items.

(** ** A recogniser: a text with gaps *)
Inductive piece := Tok (t : tok) | Gap (s : tok) (l : list tok).
Definition fill (p : list piece) : list tok := flat_map (fun x => match x with Tok t => [t] | Gap _ l => l end) p.
Definition tok_eqb (a b : tok) : bool :=
  match a, b with
  | TWord s, TWord t | TNum s, TNum t | TLit s, TLit t => str_eqb s t
  | TPunct c i, TPunct d j => (c =? d)%N && Bool.eqb i j
  | TOpen d, TOpen e | TClose d, TClose e => delim_eqb d e
  | _, _ => false
  end.
Definition in_classb (k : str) (t : tok) : bool :=
  match t with
  | TWord w => (str_eqb k (u "IDENT") && syn_ident_ok uni_ascii w) || (str_eqb k (u "SEGMENT") && (syn_ident_ok uni_ascii w || path_kw w))
               || (str_eqb k (u "USEABLE") && (syn_ident_ok uni_ascii w || path_kw w) && negb (str_eqb w (u "Self"))) || str_eqb k (u "ANY")
  | TPunct _ _ => str_eqb k (u "ANY")
  | TNum _ => str_eqb k (u "NUMBER") || str_eqb k (u "ANY")
  | TLit _ => str_eqb k (u "LITERAL") || str_eqb k (u "ANY")
  | _ => false
  end.
Definition matchesb (s t : tok) : bool :=
  match s with
  | TWord k => in_classb k t || (tok_eqb t s && negb (mem_str k class_names) && match alternatives k with [] => true | _ => false end)
  | TPunct c j => tok_eqb t s || ((c =? ch ">")%N && negb j && tok_eqb t (TPunct c true))
  | _ => tok_eqb t s
  end.
(** What an identifier also is *)
Definition gap_fits (s x : tok) : bool := if tok_eqb s x then true else tok_eqb x (TWord (u "IDENT")) && existsb (tok_eqb s) (map TWord (map u ["SEGMENT"; "USEABLE"; "ANY"]%string)).
(** An expression can be continued. *)
Definition continued (s x : tok) (r : list tok) : bool :=
  tok_eqb x (TWord (u "Simple")) && tok_eqb s (TWord (u "Leaf")) && match r with t :: _ => tok_eqb t (TWord (u "Suffixes")) | [] => false end.
(** With [if]: [||] and [&&] would compute both sides. *)
Fixpoint some {A} (f : A -> bool) (l : list A) : bool := match l with [] => false | a :: r => if f a then true else some f r end.
Fixpoint accept (fuel : nat) (rhs : list tok) (form : list piece) : bool :=
  match fuel with
  | O => false
  | S f =>
      match rhs with
      | [] => match form with [] => true | _ => false end
      | s :: r =>
          if match form with
             | Gap x _ :: form' =>
                 if gap_fits s x then accept f r form'
                 else if continued s x r then accept f r form'
                 else false
             | Tok t :: form' => if matchesb s t then accept f r form' else false
             | [] => false
             end
          then true
          else match s with TWord n => some (fun rule => accept f (rule ++ r) form) (alternatives n) | _ => false end
      end
  end.
Definition accepts (rhs : list tok) (form : list piece) : bool := accept (N.to_nat 3000) rhs form.

Lemma some_exists : forall {A} (f : A -> bool) l, some f l = true -> exists a, In a l /\ f a = true.
Proof.
  intros A f l. induction l as [|a l IH]; intros H; [discriminate|]. cbn in H. destruct (f a) eqn:E; [exists a; split; [now left|exact E]|].
  destruct (IH H) as (b & Hb & K). exists b. split; [now right|exact K].
Qed.
Lemma delim_eqb_eq : forall a b, delim_eqb a b = true -> a = b.
Proof. now intros [] []. Qed.
Lemma tok_eqb_eq : forall a b, tok_eqb a b = true -> a = b.
Proof.
  intros [] [] H; cbn in H; try discriminate; try (apply str_eqb_eq in H; now subst); try (apply delim_eqb_eq in H; now subst).
  apply andb_prop in H as [H1 H2]. apply N.eqb_eq in H1. apply Bool.eqb_prop in H2. now subst.
Qed.
Section grammar.
  Variable U : uni.
  Hypothesis HU : uni_ok U.

  Lemma in_classb_ok : forall k t, in_classb k t = true -> in_class U k t.
  Proof.
    intros k [w|c j|s|s|d|d] H; cbn in *; try discriminate; try (now apply str_eqb_eq in H).
    - apply orb_prop in H as [H|H]; [|right; right; right; now apply str_eqb_eq].
      apply orb_prop in H as [H|H]; [apply orb_prop in H as [H|H]|].
      + apply andb_prop in H as [H1 H2]. left. split; [now apply str_eqb_eq|now apply ascii_ident].
      + apply andb_prop in H as [H1 H2]. right. left. split; [now apply str_eqb_eq|]. apply orb_prop in H2 as [H2|H2]; [left; now apply ascii_ident|now right].
      + apply andb_prop in H as [H H3]. apply andb_prop in H as [H1 H2]. right. right. left. split; [now apply str_eqb_eq|].
        split; [apply orb_prop in H2 as [H2|H2]; [left; now apply ascii_ident|now right]|].
        intros ->. now rewrite str_eqb_refl in H3.
    - apply orb_prop in H as [H|H]; apply str_eqb_eq in H; tauto.
    - apply orb_prop in H as [H|H]; apply str_eqb_eq in H; tauto.
  Qed.
  Lemma matchesb_ok : forall s t, matchesb s t = true -> matches U s t.
  Proof.
    intros [k|c j|s|s|d|d] t H; unfold matchesb in H; unfold matches; try (now apply tok_eqb_eq in H).
    - apply orb_prop in H as [H|H]; [left; now apply in_classb_ok|right]. apply andb_prop in H as [H H3]. apply andb_prop in H as [H1 H2].
      apply tok_eqb_eq in H1. split; [exact H1|]. split; [|now destruct (alternatives k)]. intros Hi. apply mem_str_In in Hi. now rewrite Hi in H2.
    - apply orb_prop in H as [H|H]; [left; now apply tok_eqb_eq in H|right]. apply andb_prop in H as [H H3]. apply andb_prop in H as [H1 H2].
      apply N.eqb_eq in H1. apply tok_eqb_eq in H3. split; [exact H1|]. split; [now destruct j|exact H3].
  Qed.
  Lemma parses_app : forall a l b l', parses U a l -> parses U b l' -> parses U (a ++ b) (l ++ l').
  Proof.
    intros a l b l' H Hb. induction H as [|s t rhs l Hm H IH|n rule rhs l l0 Hr H1 IH1 H2 IH2]; [exact Hb| |].
    - cbn. now apply parses_token.
    - cbn. rewrite <- app_assoc. now apply (parses_rule U n rule).
  Qed.
  Lemma parses_split : forall a b l, parses U (a ++ b) l -> exists l1 l2, l = l1 ++ l2 /\ parses U a l1 /\ parses U b l2.
  Proof.
    induction a as [|s a IH]; intros b l H; [exists [], l; repeat split; [constructor|exact H]|]. cbn in H. inversion H as [|s' t rhs l0 Hm H1|n rule rhs l0 l' Hr H1 H2]; subst.
    - destruct (IH _ _ H1) as (l1 & l2 & -> & K1 & K2). exists (t :: l1), l2. repeat split; [now apply parses_token|exact K2].
    - destruct (IH _ _ H2) as (l1 & l2 & -> & K1 & K2). exists (l0 ++ l1), l2. rewrite <- app_assoc. repeat split; [now apply (parses_rule U n rule)|exact K2].
  Qed.
  Lemma ident_is : forall l, is_a U "IDENT" l -> exists w, l = [TWord w] /\ rust_ident U w.
  Proof.
    intros l H. inversion H as [|s t rhs l0 Hm H1|n rule rhs l0 l' Hr H1 H2]; subst; [|destruct Hr].
    inversion H1; subst. assert (K : in_class U (u "IDENT") t) by (destruct Hm as [Hm|(_ & Hn & _)]; [exact Hm|exfalso; apply Hn; now left]).
    destruct t as [w| | | | |]; cbn in K; try (now (discriminate || destruct K; discriminate)). exists w. split; [reflexivity|].
    destruct K as [[_ K]|[[K _]|[[K _]|K]]]; [exact K|discriminate..].
  Qed.
  Lemma class_is : forall k t, in_class U k t -> parses U [TWord k] [t].
  Proof. intros k t H. apply parses_token; [now left|constructor]. Qed.
  Lemma rust_not_self : forall w, rust_ident U w -> w <> u "Self".
  Proof. intros w [[_ H]|(t & E & _)] ->; [apply H; vm_compute; tauto|discriminate]. Qed.
  Lemma gap_fits_ok : forall s x l, gap_fits s x = true -> parses U [x] l -> parses U [s] l.
  Proof.
    intros s x l H Hp. unfold gap_fits in H. destruct (tok_eqb s x) eqn:E; [apply tok_eqb_eq in E; now subst|].
    apply andb_prop in H as [H1 H2]. apply tok_eqb_eq in H1. subst x. destruct (ident_is l Hp) as (w & -> & Hw).
    apply existsb_exists in H2 as (y & Hy & H2). apply tok_eqb_eq in H2. subst y. cbn [map In] in Hy. destruct Hy as [<-|[<-|[<-|[]]]]; apply class_is; cbn.
    - right. left. split; [reflexivity|now left].
    - right. right. left. split; [reflexivity|]. split; [now left|now apply rust_not_self].
    - right. right. now right.
  Qed.
  Lemma suffixes_app : forall n l l', length l <= n -> is_a U "Suffixes" l -> is_a U "Suffixes" l' -> is_a U "Suffixes" (l ++ l').
  Proof.
    induction n as [|n IH]; intros l l' Hn H H'.
    - destruct l; [exact H'|cbn in Hn; lia].
    - inversion H as [|s t rhs l0 Hm H1|m rule rhs l0 l1 Hr H1 H2]; subst.
      { destruct Hm as [Hm|(_ & _ & Hm)]; [|discriminate]. exfalso. destruct t; cbn in Hm; intuition discriminate. }
      inversion H2; subst. rewrite app_nil_r in *.
      assert (Hc : rule = [] \/ exists s pre, rule = (s :: pre) ++ [TWord (u "Suffixes")] /\ (forall k, s <> TWord k)).
      { vm_compute in Hr. destruct Hr as [<-|[<-|[<-|[<-|[]]]]]; [now left|right..].
        - exists (TPunct (ch "?") false), []. now split.
        - exists (TPunct (ch ".") false), [TWord (u "IDENT"); TOpen Paren; TWord (u "Exprs"); TClose Paren]. now split.
        - exists (TOpen Paren), [TWord (u "Exprs"); TClose Paren]. now split. }
      destruct Hc as [->|(s & pre & -> & Hs)]; [inversion H1; subst; exact H'|].
      apply parses_split in H1 as (la & lb & -> & Ka & Kb). rewrite <- app_assoc.
      assert (Hlen : length lb <= n).
      { inversion Ka; subst; [|now destruct (Hs n0)]. rewrite app_length in Hn. cbn in Hn. lia. }
      rewrite <- (app_nil_r (la ++ lb ++ l')). apply (parses_rule U _ _ _ _ _ Hr); [|constructor]. apply parses_app; [exact Ka|]. now apply IH.
  Qed.
  Lemma continued_ok : forall s x r l l', continued s x r = true -> parses U [x] l -> parses U r l' -> parses U (s :: r) (l ++ l').
  Proof.
    intros s x r l l' H Hl Hr. unfold continued in H. apply andb_prop in H as [H H3]. apply andb_prop in H as [H1 H2]. apply tok_eqb_eq in H1, H2. subst x s.
    destruct r as [|t r]; [discriminate|]. apply tok_eqb_eq in H3. subst t.
    inversion Hl as [|s t rhs l0 Hm H1|m rule rhs l0 l1 Hi H1 H2]; subst.
    { destruct Hm as [Hm|(_ & _ & Hm)]; [|discriminate]. exfalso. destruct t; cbn in Hm; intuition discriminate. }
    inversion H2; subst. rewrite app_nil_r. vm_compute in Hi. destruct Hi as [<-|[]].
    change ([TWord (u "Leaf")] ++ [TWord (u "Suffixes")]) with ([TWord (u "Leaf"); TWord (u "Suffixes")]) in H1.
    apply (parses_split [TWord (u "Leaf")] [TWord (u "Suffixes")]) in H1 as (la & lb & -> & Ka & Kb).
    apply (parses_split [TWord (u "Suffixes")] r) in Hr as (lc & ld & -> & Kc & Kd).
    rewrite <- app_assoc, (app_assoc lb). apply (parses_app [TWord (u "Leaf")]); [exact Ka|]. apply (parses_app [TWord (u "Suffixes")]); [|exact Kd].
    now apply (suffixes_app (length lb)).
  Qed.
  Definition gap_ok (p : piece) : Prop := match p with Tok _ => True | Gap s l => parses U [s] l end.
  Lemma accept_ok : forall fuel rhs form, (forall p, In p form -> gap_ok p) -> accept fuel rhs form = true -> parses U rhs (fill form).
  Proof.
    induction fuel as [|f IH]; intros rhs form Hg H; [discriminate|]. cbn [accept] in H. destruct rhs as [|s r]; [destruct form; [constructor|discriminate]|].
    match type of H with (if ?b then _ else _) = _ => destruct b eqn:Hb; [clear H; rename Hb into H|clear Hb] end.
    - destruct form as [|[t|x l] form]; [discriminate| |].
      + destruct (matchesb s t) eqn:H1; [rename H into H2|discriminate]. cbn. apply parses_token; [now apply matchesb_ok|]. apply IH; [|exact H2]. intros; apply Hg; now right.
      + cbn [fill flat_map]. assert (Hl : parses U [x] l) by exact (Hg _ (or_introl eq_refl)).
        destruct (gap_fits s x) eqn:H1.
        * change (s :: r) with ([s] ++ r). apply parses_app; [exact (gap_fits_ok _ _ _ H1 Hl)|]. apply IH; [|exact H]. intros; apply Hg; now right.
        * destruct (continued s x r) eqn:Hc; [|discriminate]. apply (continued_ok s x r); auto. apply IH; [|exact H]. intros; apply Hg; now right.
    - destruct s as [n| | | | |]; try discriminate. apply some_exists in H as (rule & Hr & H). apply IH in H; [|exact Hg].
      destruct (parses_split _ _ _ H) as (l1 & l2 & -> & K1 & K2). now apply (parses_rule U n rule).
  Qed.
  Lemma accepts_ok : forall rhs form, accepts rhs form = true -> Forall gap_ok form -> parses U rhs (fill form).
  Proof. intros n form H Hg. apply (accept_ok _ _ _ (proj1 (Forall_forall _ _) Hg) H). Qed.

  (** ** Reading a template *)
  Lemma fill_app : forall a b, fill (a ++ b) = fill a ++ fill b.
  Proof. intros a b. apply flat_map_app. Qed.
  Lemma fill_toks : forall l, fill (map Tok l) = l.
  Proof. induction l as [|t l IH]; [reflexivity|]. cbn. now rewrite <- IH at 2. Qed.
  Lemma fill_gap : forall s l, fill [Gap s l] = l.
  Proof. intros s l. apply app_nil_r. Qed.
  Lemma toks_ok : forall l, Forall gap_ok (map Tok l).
  Proof. induction l; now constructor. Qed.
  Lemma gaps_app : forall a b, Forall gap_ok a -> Forall gap_ok b -> Forall gap_ok (a ++ b).
  Proof. intros a b Ha Hb. apply Forall_app. now split. Qed.
  Lemma gap_one : forall n l, is_a U n l -> Forall gap_ok [Gap (TWord (u n)) l].
  Proof. intros n l H. constructor; [exact H|constructor]. Qed.
  Lemma word_is : forall w, rust_ident U w -> is_a U "IDENT" (word w).
  Proof. intros w H. apply class_is. left. now split. Qed.
  Lemma read : forall rhs form l, fill form = l -> accepts rhs form = true -> Forall gap_ok form -> parses U rhs l.
  Proof. intros n form l <- H Hg. now apply accepts_ok. Qed.

  Definition lit_toks (l : list tok) : list tok := l.
  Ltac reify l :=
    match l with
    | ?a ++ ?b => let x := reify a in let y := reify b in constr:(x ++ y)
    | rs ?s => constr:(map Tok (rs s))
    | comma => constr:(map Tok comma)
    | lit ?s => constr:(map Tok (lit s))
    | lit_toks ?l => constr:(map Tok (lit_toks l))
    | [TNum ?s] => constr:(map Tok [TNum s])
    | @nil tok => constr:(map Tok (@nil tok))
    | word ?w => match goal with _ => match goal with H : is_a U ?n (word w) |- _ => constr:([Gap (TWord (u n)) (word w)]) end | _ => constr:([Gap (TWord (u "IDENT")) (word w)]) end
    | ?t => match goal with H : is_a U ?n t |- _ => constr:([Gap (TWord (u n)) t]) end
    end.
  Ltac template :=
    unfold is_a; rewrite <- ?app_assoc;
    match goal with |- parses U ?rhs ?l =>
      let form := reify l in
      refine (read rhs form l _ _ _);
      [rewrite ?fill_app, ?fill_toks, ?fill_gap; reflexivity | vm_compute; reflexivity
      |repeat apply gaps_app; try apply toks_ok; first [apply gap_one; assumption | apply gap_one, word_is; assumption]]
    end.

  Lemma segment_is : forall w, path_segment U w -> is_a U "SEGMENT" (word w).
  Proof. intros w H. apply class_is. right. left. now split. Qed.
  (** Lists *)
  Lemma by_rule : forall n rule l, In rule (alternatives (u n)) -> parses U rule l -> is_a U n l.
  Proof. intros n rule l Hr H. unfold is_a. rewrite <- (app_nil_r l). apply (parses_rule U _ rule); [exact Hr|exact H|constructor]. Qed.

  (** *** Types *)
  Lemma segments_are : forall p args, (forall s, In s p -> path_segment U s) -> is_a U "TypeArguments" args ->
    parses U [TWord (u "TypeArguments"); TWord (u "MoreSegments")] (abs_path p ++ args).
  Proof.
    induction p as [|s p IH]; intros args Hp Ha.
    - cbn [abs_path each flat_map app]. rewrite <- (app_nil_r args). apply (parses_app [TWord (u "TypeArguments")]); [exact Ha|]. template.
    - change (abs_path (s :: p)) with ((rs "::" ++ word s) ++ abs_path p). specialize (IH args (fun t Ht => Hp t (or_intror Ht)) Ha).
      apply (parses_split [TWord (u "TypeArguments")] [TWord (u "MoreSegments")]) in IH as (a & b & E & Ka & Kb). rewrite <- !app_assoc, E.
      assert (Hs : is_a U "SEGMENT" (word s)) by (apply segment_is, Hp; now left). fold (is_a U "TypeArguments" a) in Ka. fold (is_a U "MoreSegments" b) in Kb. template.
  Qed.
  Lemma abs_is : forall p args, rust_path U p -> is_a U "TypeArguments" args -> is_a U "TypePath" (abs_path p ++ args).
  Proof.
    intros [|s p] args [Hn Hp] Ha; [easy|]. change (abs_path (s :: p)) with ((rs "::" ++ word s) ++ abs_path p). pose proof (segments_are p args (fun t Ht => Hp t (or_intror Ht)) Ha) as K.
    apply (parses_split [TWord (u "TypeArguments")] [TWord (u "MoreSegments")]) in K as (a & b & E & Ka & Kb). rewrite <- !app_assoc, E.
    assert (Hs : is_a U "SEGMENT" (word s)) by (apply segment_is, Hp; now left). fold (is_a U "TypeArguments" a) in Ka. fold (is_a U "MoreSegments" b) in Kb. template.
  Qed.
  Lemma sep_cons : forall s x y l, sep_by s (x :: y :: l) = x ++ s ++ sep_by s (y :: l).
  Proof. reflexivity. Qed.
  Lemma local_is : forall p, rust_path U p -> is_a U "TypePath" (local_path p).
  Proof.
    intros p [Hn Hp]. assert (K : is_a U "TypeSegments" (local_path p)); [|template]. unfold local_path. induction p as [|s p IH]; [easy|].
    assert (Hs : is_a U "SEGMENT" (word s)) by (apply segment_is, Hp; now left). destruct p as [|t p]; cbn [map sep_by]; [template|].
    assert (K : is_a U "TypeSegments" (sep_by (rs "::") (map word (t :: p)))) by (apply IH; [easy|intros; apply Hp; now right]).
    change (match map word p with [] => _ | _ => _ end) with (sep_by (rs "::") (map word (t :: p))). template.
  Qed.
  Lemma types_are : forall (l : list rty), (forall t, In t l -> is_a U "Type" (ty_tokens t)) -> is_a U "Types" (sep_by comma (map ty_tokens l)).
  Proof.
    induction l as [|t l IH]; intros H; [cbn; template|]. pose proof (H t (or_introl eq_refl)) as Ht. destruct l as [|t' l]; cbn [map sep_by]; [template|].
    assert (K : is_a U "Types" (sep_by comma (map ty_tokens (t' :: l)))) by (apply IH; intros; apply H; now right).
    change (match map ty_tokens l with [] => _ | _ => _ end) with (sep_by comma (map ty_tokens (t' :: l))). template.
  Qed.
  Lemma generics_are : forall (l : list rty), l <> [] -> (forall t, In t l -> is_a U "Type" (ty_tokens t)) -> is_a U "Generics" (sep_by comma (map ty_tokens l)).
  Proof.
    induction l as [|t l IH]; intros Hn H; [easy|]. pose proof (H t (or_introl eq_refl)) as Ht. destruct l as [|t' l]; cbn [map sep_by]; [template|].
    assert (K : is_a U "Generics" (sep_by comma (map ty_tokens (t' :: l)))) by (apply IH; [easy|intros; apply H; now right]).
    change (match map ty_tokens l with [] => _ | _ => _ end) with (sep_by comma (map ty_tokens (t' :: l))). template.
  Qed.
  Lemma arguments_are : forall (l : list rty), (forall t, In t l -> is_a U "Type" (ty_tokens t)) ->
    is_a U "TypeArguments" (match l with [] => [] | _ => rs "<" ++ sep_by comma (map ty_tokens l) ++ rs ">" end).
  Proof. intros l H. destruct l as [|t l]; [template|]. pose proof (generics_are (t :: l) ltac:(easy) H) as K. template. Qed.
  Lemma ty_is : forall t, rust_type U t -> is_a U "Type" (ty_tokens t).
  Proof.
    assert (Hall : forall (l : list rty), (forall t, In t l -> rust_type U t -> is_a U "Type" (ty_tokens t)) -> fold_right and True (map (rust_type U) l) -> forall t, In t l -> is_a U "Type" (ty_tokens t)).
    { intros l Hl H t Ht. apply Hl; [exact Ht|]. clear Hl. induction l as [|a l IH]; [easy|]. destruct H as [H1 H2], Ht as [<- | Ht]; auto. }
    fix IH 1. intros t. destruct t as [s|t|t|t|l|p l|t|p|p l]; cbn [rust_type]; intros H.
    - cbn [ty_tokens]. template.
    - pose proof (IH t H). cbn [ty_tokens]. template.
    - pose proof (IH t H). cbn [ty_tokens]. template.
    - pose proof (IH t H). cbn [ty_tokens]. template.
    - cbn [ty_tokens]. assert (K : is_a U "Types" (sep_by comma (map ty_tokens l))); [|template].
      apply types_are, Hall; [|exact H]. clear H. induction l as [|a l IHl]; intros t Ht; [destruct Ht|]. destruct Ht as [<- | Ht]; [apply IH|now apply IHl].
    - destruct H as [Hp Hl]. cbn [ty_tokens].
      assert (K : is_a U "TypePath" (abs_path p ++ match l with [] => [] | _ => rs "<" ++ sep_by comma (map ty_tokens l) ++ rs ">" end)).
      { apply abs_is; [exact Hp|]. apply arguments_are, Hall; [|exact Hl]. clear Hl. induction l as [|a l IHl]; intros t Ht; [destruct Ht|]. destruct Ht as [<- | Ht]; [apply IH|now apply IHl]. }
      revert K. generalize (abs_path p ++ match l with [] => [] | _ => rs "<" ++ sep_by comma (map ty_tokens l) ++ rs ">" end). intros. template.
    - pose proof (IH t H) as K. cbn [ty_tokens].
      assert (E : trailing t = [] \/ trailing t = comma) by (destruct t as [| | | | |? [|? [|? []]]| | |]; cbn; tauto). destruct E as [-> | ->]; template.
    - destruct H as [Hc Hp]. cbn [ty_tokens]. rewrite Hc. pose proof (local_is _ Hp) as K. template.
    - destruct H as [Hp Hl].
      assert (K : forall t, In t l -> is_a U "Type" (ty_tokens t)).
      { apply Hall; [|exact Hl]. clear Hl. induction l as [|a l IHl]; intros t Ht; [destruct Ht|]. destruct Ht as [<- | Ht]; [apply IH|now apply IHl]. }
      assert (Hgen : is_a U "Type" (rs "impl" ++ abs_path p ++ match l with [] => [] | _ => rs "<" ++ sep_by comma (map ty_tokens l) ++ rs ">" end)).
      { pose proof (abs_is p _ Hp (arguments_are l K)) as K'. revert K'. generalize (abs_path p ++ match l with [] => [] | _ => rs "<" ++ sep_by comma (map ty_tokens l) ++ rs ">" end). intros. template. }
      cbn [ty_tokens]. destruct l as [|a [|b l]]; [exact Hgen| |destruct a as [| | | | |? [|? []]| | |]; exact Hgen].
      destruct a as [| | | | |q [|t [|]]| | |]; try exact Hgen. clear Hgen.
      destruct Hl as [[Hq [Ht _]] _]. pose proof (IH t Ht) as Kt.
      assert (K1 : is_a U "TypePath" (abs_path q ++ rs "<" ++ ty_tokens t ++ [TPunct (ch ">") true])).
      { apply abs_is; [exact Hq|]. change [TPunct (ch ">") true] with (lit_toks [TPunct (ch ">") true]). template. }
      assert (K2 : is_a U "TypePath" (abs_path p ++ rs "<" ++ (abs_path q ++ rs "<" ++ ty_tokens t ++ [TPunct (ch ">") true]) ++ rs ">")).
      { apply abs_is; [exact Hp|]. revert K1. generalize (abs_path q ++ rs "<" ++ ty_tokens t ++ [TPunct (ch ">") true]). intros. template. }
      replace (rs "impl" ++ abs_path p ++ rs "<" ++ abs_path q ++ rs "<" ++ ty_tokens t ++ rs ">>")
        with (rs "impl" ++ (abs_path p ++ rs "<" ++ (abs_path q ++ rs "<" ++ ty_tokens t ++ [TPunct (ch ">") true]) ++ rs ">")) by (rewrite <- !app_assoc; reflexivity).
      revert K2. generalize (abs_path p ++ rs "<" ++ (abs_path q ++ rs "<" ++ ty_tokens t ++ [TPunct (ch ">") true]) ++ rs ">"). intros. template.
  Qed.

  (** *** Signatures *)
  Definition params_end (k : contract) : list tok := match k_ret k with RetUnit => comma | _ => [] end.
  Lemma param_list_is : forall ps, (forall n t, In (n, t) ps -> rust_ident U n /\ rust_type U t) ->
    is_a U "Params" (sep_by comma (map param_tokens ps)) /\ (ps <> [] -> is_a U "Params" (sep_by comma (map param_tokens ps) ++ comma)).
  Proof.
    induction ps as [|[n t] ps IH]; intros H; [split; [cbn; template|easy]|]. destruct (H n t (or_introl eq_refl)) as [Hn Ht]. apply ty_is in Ht.
    destruct ps as [|p ps]; cbn [map sep_by]; unfold param_tokens at 1; cbn [fst snd].
    - split; [template|intros _; unfold param_tokens; cbn [fst snd]; template].
    - change (match map param_tokens ps with [] => _ | _ => _ end) with (sep_by comma (map param_tokens (p :: ps))) in *.
      destruct IH as [K1 K2]; [intros; apply H; now right|]. specialize (K2 ltac:(easy)). split; [template|intros _].
      unfold param_tokens at 1. cbn [fst snd]. rewrite <- !app_assoc. revert K2. generalize (sep_by comma (map param_tokens (p :: ps)) ++ comma). intros. template.
  Qed.
  Definition ends_well (k : contract) : Prop := k_ret k = RetUnit -> k_params k <> [].
  Definition contract_fine (k : contract) : Prop := contract_ok U k /\ ends_well k.
  Lemma params_are : forall k, contract_fine k -> is_a U "Params" (sep_by comma (map param_tokens (k_params k)) ++ params_end k).
  Proof.
    intros k [(_ & Hp & _) Hn]. destruct (param_list_is _ Hp) as [K1 K2]. unfold params_end, ends_well in *. destruct (k_ret k); [rewrite app_nil_r; exact K1..|now apply K2, Hn].
  Qed.
  Lemma ret_is : forall r, match r with RetType t => rust_type U t | _ => True end -> exists t, ret_tokens r = rs "->" ++ t /\ is_a U "Type" t.
  Proof.
    intros [t| |] H; unfold ret_tokens.
    - apply ty_is in H. exists (rs "::pyo3::PyResult<" ++ ty_tokens t ++ rs ">"). split; [reflexivity|template].
    - exists (rs "::pyo3::PyResult<::pyo3::Bound<'py, Self>>"). split; [reflexivity|template].
    - exists (rs "::pyo3::PyResult<()>"). split; [reflexivity|template].
  Qed.
  Lemma regroup : forall {A} (a b c : list A), a ++ b ++ c = (a ++ b) ++ c.
  Proof. intros. apply app_assoc. Qed.
  Lemma method_is : forall k, contract_fine k -> is_a U "Method" (contract_tokens k).
  Proof.
    intros k Hk. pose proof (params_are k Hk) as Kp. destruct Hk as [(Hn & _ & Hr) _]. apply ret_is in Hr as (t & Hr & Kt). unfold contract_tokens. fold (params_end k). rewrite Hr.
    rewrite (regroup (sep_by _ _)). revert Kp. generalize (sep_by comma (map param_tokens (k_params k)) ++ params_end k). intros ps Kp. destruct (k_self k); template.
  Qed.
  Lemma function_is : forall k b, contract_fine k -> k_self k = false -> is_a U "Block" b -> is_a U "Function" (contract_tokens k ++ b).
  Proof.
    intros k b Hk Hs Hb. pose proof (params_are k Hk) as Kp. destruct Hk as [(Hn & _ & Hr) _]. apply ret_is in Hr as (t & Hr & Kt). unfold contract_tokens. fold (params_end k). rewrite Hr, Hs.
    rewrite (regroup (sep_by _ _)). revert Kp. generalize (sep_by comma (map param_tokens (k_params k)) ++ params_end k). intros ps Kp. template.
  Qed.

  (** *** Bodies *)
  Lemma prep_is : forall n p rest, rust_ident U n -> is_a U "Statements" rest -> is_a U "Statements" (prep_tokens (n, p) ++ rest).
  Proof. intros n p rest Hn Hr. unfold prep_tokens. cbn [fst snd]. destruct p; [exact Hr|..]; template. Qed.
  Lemma preps_are : forall l rest, (forall n, In n (map fst l) -> rust_ident U n) -> is_a U "Statements" rest -> is_a U "Statements" (each prep_tokens l ++ rest).
  Proof.
    induction l as [|[n p] l IH]; intros rest H Hr; [exact Hr|]. cbn [each flat_map]. rewrite <- app_assoc. apply prep_is; [apply H; now left|].
    apply IH; [intros; apply H; now right|exact Hr].
  Qed.
  Lemma lookup_is : forall l, is_a U "Simple" (lookup_tokens l).
  Proof.
    intros [i l]. unfold lookup_tokens. cbn [lk_import lk_attrs].
    assert (H0 : is_a U "Simple" (rs "py.import_bound(::pyo3::intern!(py, " ++ lit i ++ rs "))?")) by template.
    revert H0. generalize (rs "py.import_bound(::pyo3::intern!(py, " ++ lit i ++ rs "))?").
    induction l as [|a l IH]; intros acc H; [exact H|]. cbn [fold_left]. apply IH. template.
  Qed.
  Lemma disp_is : forall d, is_a U "Simple" (disp_tokens d).
  Proof. intros [|l]; [cbn [disp_tokens]; template|apply lookup_is]. Qed.
  Lemma objects_are : forall l, (forall i, In i l -> rust_ident U i) -> is_a U "Exprs" (each object_tokens l).
  Proof.
    induction l as [|i l IH]; intros H; [cbn; template|]. change (each object_tokens (i :: l)) with (object_tokens i ++ each object_tokens l).
    assert (Hi : rust_ident U i) by (apply H; now left). assert (K : is_a U "Exprs" (each object_tokens l)) by (apply IH; intros; apply H; now right).
    unfold object_tokens at 1. template.
  Qed.
  Lemma item_list_is : forall l rest, (forall i, In i (map snd l) -> rust_ident U i) -> is_a U "Statements" rest -> is_a U "Statements" (each item_tokens l ++ rest).
  Proof.
    induction l as [|e l IH]; intros rest H Hr; [exact Hr|]. change (each item_tokens (e :: l)) with (item_tokens e ++ each item_tokens l). rewrite <- app_assoc.
    assert (Hi : rust_ident U (snd e)) by (apply H; now left). assert (K : is_a U "Statements" (each item_tokens l ++ rest)) by (apply IH; [intros; apply H; now right|exact Hr]).
    revert K. generalize (each item_tokens l ++ rest). intros. unfold item_tokens. template.
  Qed.
  Lemma pos_is : forall a, (forall i, In i (pos_names a) -> rust_ident U i) -> is_a U "Expr" (pos_tokens a).
  Proof.
    intros [|v|l|l v] H; cbn [pos_tokens pos_names] in *.
    - template.
    - assert (Hv : rust_ident U v) by (apply H; now left). template.
    - pose proof (objects_are l H) as K. template.
    - assert (Hv : rust_ident U v) by (apply H; now left). pose proof (objects_are l (fun i Hi => H i (or_intror Hi))) as K. template.
  Qed.
  Lemma kw_is : forall a, (forall i, In i (kw_names a) -> rust_ident U i) -> is_a U "Operand" (kw_tokens a).
  Proof.
    intros [v|v l| |l] H; cbn [kw_tokens kw_names] in *.
    - assert (Hv : rust_ident U v) by (apply H; now left). template.
    - assert (Hv : rust_ident U v) by (apply H; now left).
      assert (K : is_a U "Statements" (each item_tokens l ++ rs "__internal__kwargs")) by (apply item_list_is; [intros; apply H; now right|template]).
      change (rs "__internal__kwargs }") with (rs "__internal__kwargs" ++ rs "}"). rewrite (regroup (each item_tokens l)).
      revert K. generalize (each item_tokens l ++ rs "__internal__kwargs"). intros. template.
    - template.
    - assert (K : is_a U "Statements" (each item_tokens l ++ rs "__internal__kwargs")) by (apply item_list_is; [exact H|template]).
      change (rs "__internal__kwargs }") with (rs "__internal__kwargs" ++ rs "}"). rewrite (regroup (each item_tokens l)).
      revert K. generalize (each item_tokens l ++ rs "__internal__kwargs"). intros. template.
  Qed.
  Lemma body_is : forall d b, (forall i, In i (body_names b) -> rust_ident U i) -> is_a U "Statements" (body_tokens d b).
  Proof.
    intros d b H. pose proof (disp_is d) as Hd.
    assert (Ha : forall p k, (forall i, In i (pos_names p ++ kw_names k) -> rust_ident U i) -> is_a U "Expr" (pos_tokens p) /\ is_a U "Operand" (kw_tokens k)).
    { intros p k Hw. split; [apply pos_is|apply kw_is]; intros; apply Hw; apply in_or_app; [now left|now right]. }
    destruct b as [a|m a|n|n v]; cbn [body_tokens body_names] in *.
    - destruct a as [p k|p|]; cbn [call_tokens args_names] in *; [destruct (Ha p k H) as [K1 K2]|pose proof (pos_is p H) as K1|]; template.
    - destruct a as [p k|p|]; cbn [call_method_tokens args_names] in *; [destruct (Ha p k H) as [K1 K2]|pose proof (pos_is p H) as K1|]; template.
    - destruct d; template.
    - assert (Hv : rust_ident U v) by (apply H; now left). template.
  Qed.
  Definition fn_fine (f : fn_def) : Prop :=
    ends_well (f_contract f) /\ (forall i, In i (map fst (f_prep f)) -> rust_ident U i) /\ (forall i, In i (body_names (f_body f)) -> rust_ident U i).
  Definition block_tokens (f : fn_def) : list tok :=
    rs "{" ++ (if f_let_py f then rs "let py = self.py();" else []) ++ each prep_tokens (f_prep f) ++ body_tokens (f_disp f) (f_body f) ++ rs "}".
  Lemma block_is : forall f, fn_fine f -> is_a U "Block" (block_tokens f).
  Proof.
    intros f (_ & Hp & Hb). pose proof (preps_are _ _ Hp (body_is (f_disp f) _ Hb)) as K. unfold block_tokens. rewrite (regroup (each _ _)).
    revert K. generalize (each prep_tokens (f_prep f) ++ body_tokens (f_disp f) (f_body f)). intros. destruct (f_let_py f); template.
  Qed.

  (** *** Items *)
  Lemma useable_is : forall w, path_segment U w -> w <> u "Self" -> is_a U "USEABLE" (word w).
  Proof. intros w H Hn. apply class_is. right. right. left. now repeat split. Qed.
  Lemma use_tree_is : forall p rest, rust_path U p -> ~ In (u "Self") p -> is_a U "UseRest" rest -> is_a U "UseTree" (local_path p ++ rest).
  Proof.
    intros p rest [Hn Hp] Hs Hr. unfold local_path. induction p as [|s p IH]; [easy|].
    assert (Ks : is_a U "USEABLE" (word s)) by (apply useable_is; [apply Hp; now left|intros ->; apply Hs; now left]). destruct p as [|t p]; cbn [map sep_by]; [template|].
    assert (K : is_a U "UseTree" (sep_by (rs "::") (map word (t :: p)) ++ rest)) by (apply IH; [easy|intros; apply Hp; now right|intros Hi; apply Hs; now right]).
    change (match map word p with [] => _ | _ => _ end) with (sep_by (rs "::") (map word (t :: p))). rewrite <- !app_assoc. revert K. generalize (sep_by (rs "::") (map word (t :: p)) ++ rest). intros. template.
  Qed.
  Lemma use_trees_are : forall l, (forall i, In i l -> rust_ident U i) -> is_a U "UseTrees" (each (fun i => word i ++ comma) l).
  Proof.
    induction l as [|i l IH]; intros H; [cbn; template|]. change (each (fun i => word i ++ comma) (i :: l)) with ((word i ++ comma) ++ each (fun i => word i ++ comma) l).
    assert (Hi : rust_ident U i) by (apply H; now left). assert (K : is_a U "UseTrees" (each (fun i => word i ++ comma) l)) by (apply IH; intros; apply H; now right). template.
  Qed.

  Lemma attribute_is : forall x rest, match x with GDoc _ | GAttr _ => True | _ => False end -> is_a U "Attributes" rest -> is_a U "Attributes" (frag_tokens x ++ rest).
  Proof. intros x rest Hx Hr. destruct x as [|s|a| | | | | | | | | | | |]; try easy; cbn [frag_tokens]; [|destruct a; cbn [attr_tokens]]; template. Qed.

  (** Sequences of items, with attributes and [pub] *)
  Section sequence.
    Variable N : string.                     (* the nonterminal of the sequence *)
    Variables V B : list tok -> Prop.        (* what can follow attributes, with an optional [pub] and without *)
    Variable item : bool -> frag -> Prop.
    Hypothesis Hnil : is_a U N [].
    Hypothesis HB : forall a t, is_a U "Attributes" a -> B t -> is_a U N (a ++ t).
    Hypothesis HV : forall a t, is_a U "Attributes" a -> V t -> is_a U N (a ++ t).
    Hypothesis HP : forall a t, is_a U "Attributes" a -> V t -> is_a U N (a ++ rs "pub" ++ t).
    Definition headed (t : list tok) : Prop := B t \/ V t \/ exists t', t = rs "pub" ++ t' /\ V t'.
    Lemma sequence_is : forall l s, (forall x public rest, In x l -> item public x -> is_a U N rest -> V (frag_tokens x ++ rest) \/ (public = false /\ B (frag_tokens x ++ rest))) ->
      items item s l ->
      match s with
      | Nothing => is_a U N (tokens l)
      | Attribute => exists a t, tokens l = a ++ t /\ is_a U "Attributes" a /\ headed t
      | Pub => V (tokens l)
      end.
    Proof.
      assert (A0 : is_a U "Attributes" []) by template.
      induction l as [|x l IH]; intros s Hx H; [cbn [items] in H; subst s; exact Hnil|].
      assert (IHl := fun s => IH s (fun y p r Hy => Hx y p r (or_intror Hy))). clear IH. change (tokens (x :: l)) with (frag_tokens x ++ tokens l).
      assert (K : (s <> Pub -> exists a t, frag_tokens x ++ tokens l = a ++ t /\ is_a U "Attributes" a /\ headed t) /\ (s = Pub -> V (frag_tokens x ++ tokens l))).
      { assert (Ki : (exists f, x = f) -> item (match s with Pub => true | _ => false end) x /\ items item Nothing l ->
          (s <> Pub -> exists a t, frag_tokens x ++ tokens l = a ++ t /\ is_a U "Attributes" a /\ headed t) /\ (s = Pub -> V (frag_tokens x ++ tokens l))).
        { intros _ [H1 H2]. apply IHl in H2. destruct (Hx x _ _ (or_introl eq_refl) H1 H2) as [K|[Ep K]]; split; intros Hs.
          - exists [], (frag_tokens x ++ tokens l). split; [reflexivity|]. split; [exact A0|right; now left].
          - exact K.
          - exists [], (frag_tokens x ++ tokens l). split; [reflexivity|]. split; [exact A0|now left].
          - subst s. discriminate. }
        destruct x; cbn [items] in H; try (apply Ki; [now eexists|exact H]); clear Ki; destruct H as [H1 H2]; split; intros Hs; try easy.
        - apply IHl in H2. exists [], (rs "pub" ++ tokens l). split; [reflexivity|]. split; [exact A0|]. right. right. now exists (tokens l).
        - apply IHl in H2. destruct H2 as (a & t & E & Ka & Kt). exists (frag_tokens (GDoc s0) ++ a), t. rewrite E, app_assoc. split; [reflexivity|]. split; [now apply attribute_is|exact Kt].
        - apply IHl in H2. destruct H2 as (b & t & E & Ka & Kt). exists (frag_tokens (GAttr a) ++ b), t. rewrite E, app_assoc. split; [reflexivity|]. split; [now apply attribute_is|exact Kt]. }
      destruct K as [K1 K2]. destruct s; [|now apply K1|now apply K2]. destruct K1 as (a & t & -> & Ka & [Kt|[Kt|(t' & -> & Kt)]]); [discriminate|now apply HB|now apply HV|now apply HP].
    Qed.
  End sequence.

  Fixpoint frag_fine (x : frag) : Prop :=
    match x with
    | GFn f => fn_fine f
    | GDecl k => ends_well k
    | GUse i => ~ In (u "Self") (use_path i)
    | GImpl _ l | GTrait _ l | GImplFor _ _ l | GMod _ l => fold_right and True (map frag_fine l)
    | _ => True
    end.
  Lemma and_in : forall {A} (P : A -> Prop) l a, fold_right and True (map P l) -> In a l -> P a.
  Proof. intros A P l. induction l as [|x l IH]; intros a H Ha; [easy|]. destruct H as [H1 H2], Ha as [<- | Ha]; [easy|now apply IH]. Qed.

  Lemma required_is : forall l, fold_right and True (map frag_fine l) -> items (item_ok U InTrait) Nothing l -> is_a U "Required" (tokens l).
  Proof.
    intros l Hf H. apply (sequence_is "Required" (fun _ => False) (fun t => exists a b, t = a ++ rs ";" ++ b /\ is_a U "Method" a /\ is_a U "Required" b) (item_ok U InTrait)) in H; [exact H|template| |easy|easy|].
    - intros a t Ha (m & b & -> & Hm & Hb). template.
    - intros x public rest Hx Hi Hr. right. destruct x; cbn [item_ok] in Hi; try easy; try (now destruct Hi). destruct Hi as (_ & -> & Hk). split; [reflexivity|].
      exists (contract_tokens k), rest. split; [cbn [frag_tokens]; now rewrite <- app_assoc|]. split; [|exact Hr]. apply method_is. split; [exact Hk|exact (and_in _ _ _ Hf Hx)].
  Qed.
  Lemma fn_split : forall f, fn_tokens f = contract_tokens (f_contract f) ++ block_tokens f.
  Proof. reflexivity. Qed.
  Definition method_then (n : string) (t : list tok) : Prop := exists a b c, t = a ++ b ++ c /\ is_a U "Method" a /\ is_a U "Block" b /\ is_a U n c.
  Lemma method_item : forall n f rest, fn_ok U f -> fn_fine f -> is_a U n rest -> method_then n (frag_tokens (GFn f) ++ rest).
  Proof.
    intros n f rest Hk Hf Hr. exists (contract_tokens (f_contract f)), (block_tokens f), rest. cbn [frag_tokens]. rewrite fn_split, <- app_assoc. split; [reflexivity|].
    split; [apply method_is; split; [apply Hk|apply Hf]|]. split; [now apply block_is|exact Hr].
  Qed.
  Lemma associated_is : forall l, fold_right and True (map frag_fine l) -> items (item_ok U InImpl) Nothing l -> is_a U "Associated" (tokens l).
  Proof.
    intros l Hf H. apply (sequence_is "Associated" (method_then "Associated") (fun _ => False) (item_ok U InImpl)) in H; [exact H|template|easy| | |].
    - intros a t Ha (m & b & c & -> & Hm & Hb & Hc). template.
    - intros a t Ha (m & b & c & -> & Hm & Hb & Hc). template.
    - intros x public rest Hx Hi Hr. left. destruct x; cbn [item_ok] in Hi; try easy; try (now destruct Hi). apply method_item; [apply Hi| |exact Hr]. exact (and_in _ _ _ Hf Hx).
  Qed.
  Lemma implemented_is : forall l, fold_right and True (map frag_fine l) -> items (item_ok U InTraitImpl) Nothing l -> is_a U "Implemented" (tokens l).
  Proof.
    intros l Hf H. apply (sequence_is "Implemented" (fun _ => False) (method_then "Implemented") (item_ok U InTraitImpl)) in H; [exact H|template| |easy|easy|].
    - intros a t Ha (m & b & c & -> & Hm & Hb & Hc). template.
    - intros x public rest Hx Hi Hr. right. destruct x; cbn [item_ok] in Hi; try easy; try (now destruct Hi). destruct Hi as [Hk ->]. split; [reflexivity|].
      apply method_item; [exact Hk| |exact Hr]. exact (and_in _ _ _ Hf Hx).
  Qed.

  Definition visible_then (t : list tok) : Prop := exists a b, t = a ++ b /\ is_a U "Visible" a /\ is_a U "Items" b.
  Definition bare_then (t : list tok) : Prop := exists a b, t = a ++ b /\ is_a U "Bare" a /\ is_a U "Items" b.
  Lemma item_list_are : forall l, (forall x public rest, In x l -> item_ok U InModule public x -> is_a U "Items" rest -> visible_then (frag_tokens x ++ rest) \/ (public = false /\ bare_then (frag_tokens x ++ rest))) ->
    items (item_ok U InModule) Nothing l -> is_a U "Items" (tokens l).
  Proof.
    intros l Hx H. apply (sequence_is "Items" visible_then bare_then (item_ok U InModule)) in H; [exact H|template| | | |exact Hx].
    - intros a t Ha (m & b & -> & Hm & Hb). template.
    - intros a t Ha (m & b & -> & Hm & Hb). template.
    - intros a t Ha (m & b & -> & Hm & Hb). template.
  Qed.
  Lemma item_is : forall x public rest, frag_fine x -> item_ok U InModule public x -> is_a U "Items" rest -> visible_then (frag_tokens x ++ rest) \/ (public = false /\ bare_then (frag_tokens x ++ rest)).
  Proof.
    fix IH 1. intros x public rest Hf Hi Hr.
    assert (HV : is_a U "Visible" (frag_tokens x) -> visible_then (frag_tokens x ++ rest) \/ (public = false /\ bare_then (frag_tokens x ++ rest))).
    { intros K. left. now exists (frag_tokens x), rest. }
    assert (HB : public = false -> is_a U "Bare" (frag_tokens x) -> visible_then (frag_tokens x ++ rest) \/ (public = false /\ bare_then (frag_tokens x ++ rest))).
    { intros Hp K. right. split; [exact Hp|]. now exists (frag_tokens x), rest. }
    destruct x as [|s|a|f|k|i|l|n|n|n s|n l|n l|t n l|n l|m fl s]; cbn [item_ok frag_fine] in *; try easy.
    - apply HV. cbn [frag_tokens]. rewrite fn_split. destruct Hi as [[Hk _] Hs].
      pose proof (function_is _ _ (conj Hk (proj1 Hf)) Hs (block_is _ Hf)) as K. revert K. generalize (contract_tokens (f_contract f) ++ block_tokens f). intros. template.
    - apply HV. cbn [frag_tokens]. unfold use_tokens. destruct Hi as (_ & Hp & Ha).
      assert (K : is_a U "UseTree" (local_path (use_path i) ++ match use_alias i with Some a => rs "as" ++ word a | None => [] end)).
      { apply use_tree_is; [exact Hp|exact Hf|]. destruct (use_alias i); template. }
      rewrite (regroup (local_path _)). revert K. generalize (local_path (use_path i) ++ match use_alias i with Some a => rs "as" ++ word a | None => [] end). intros. template.
    - apply HV. cbn [frag_tokens]. destruct Hi as (_ & _ & Hi). pose proof (use_trees_are _ Hi) as K. template.
    - apply HV. cbn [frag_tokens]. destruct Hi as (_ & Hn). template.
    - apply HV. cbn [frag_tokens]. destruct Hi as (_ & Hn). template.
    - right. destruct Hi as (_ & Hp & Hn). split; [exact Hp|]. cbn [frag_tokens].
      exists (rs "::pyo3::pyobject_native_type_named!(" ++ word n ++ rs ");"),
        (rs "::pyo3::pyobject_native_type_info!(" ++ word n ++ rs ", ::pyo3::pyobject_native_static_type_object!(::pyo3::ffi::PyBaseObject_Type), ::std::option::Option::Some(" ++ lit s ++ rs "));" ++ rest).
      split; [rewrite <- !app_assoc; reflexivity|]. split; template.
    - destruct Hi as (_ & Hp & Hn & Hl). apply HB; [exact Hp|]. cbn [frag_tokens]. pose proof (associated_is l Hf Hl) as K. unfold tokens in K. template.
    - destruct Hi as (_ & Hn & Hl). apply HV. cbn [frag_tokens]. pose proof (required_is l Hf Hl) as K. unfold tokens in K. template.
    - destruct Hi as (_ & Hp & Ht & Hn & Hl). apply HB; [exact Hp|]. cbn [frag_tokens]. pose proof (implemented_is l Hf Hl) as K. unfold tokens in K. template.
    - destruct Hi as (_ & Hn & Hl). apply HV. cbn [frag_tokens].
      assert (K : is_a U "Items" (tokens l)); [|unfold tokens in K; template]. apply item_list_are; [|exact Hl].
      clear Hl HV HB Hn. induction l as [|y l IHl]; intros x p r Hx; [destruct Hx|]. destruct Hf as [Hf1 Hf2]. destruct Hx as [<- | Hx]; [now apply IH|now apply IHl].
    - apply HV. cbn [frag_tokens]. unfold embed_tokens. template.
  Qed.
  Theorem well_formed_file : forall l, fold_right and True (map frag_fine l) -> well_formed U InModule l -> is_a U "File" (tokens l).
  Proof.
    intros l Hf H. assert (K : is_a U "Items" (tokens l)); [|template]. apply item_list_are; [|exact H]. intros x public rest Hx Hi Hr. apply item_is; auto. exact (and_in _ _ _ Hf Hx).
  Qed.
End grammar.
