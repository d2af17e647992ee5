(** * Lemmas: the parser reads back what is written (C70) *)
From Verif Require Import Base Spec_Lex Spec_Call Spec_Code Proof_Base.

Definition pt (a : Ascii.ascii) : tok := TPunct (ch a) false.
Fixpoint commas (l : list (list tok)) : list tok := match l with [] => [] | [x] => x | x :: r => x ++ pt "," :: commas r end.
Definition enum (l : list (list tok)) (c : bool) : list tok := commas l ++ (if c then [pt ","] else []).
Fixpoint show (e : expr) : list tok :=
  let args l c := enum (map show l) c in
  match e with
  | EPath p => p
  | ELit s => [TLit s]
  | ENum s => [TNum s]
  | ETuple l c => TOpen Paren :: args l c ++ [TClose Paren]
  | EArray l c => TOpen Bracket :: args l c ++ [TClose Bracket]
  | EMacro p l c => p ++ pt "!" :: TOpen Paren :: args l c ++ [TClose Paren]
  | ECall f l c => show f ++ TOpen Paren :: args l c ++ [TClose Paren]
  | EMethod a m l c => show a ++ pt "." :: TWord m :: TOpen Paren :: args l c ++ [TClose Paren]
  | ETry a => show a ++ [pt "?"]
  | ERef a => pt "&" :: show a
  | EAdd a b => show a ++ pt "+" :: show b
  | EClosure x a => pt "|" :: TWord x :: pt "|" :: show a
  | EBlock b => TOpen Brace :: show b ++ [TClose Brace]
  | EIfLet c x a b1 b2 =>
      TWord (u "if") :: TWord (u "let") :: TWord c :: TOpen Paren :: TWord x :: TClose Paren :: pt "=" :: show a
      ++ TOpen Brace :: show b1 ++ TClose Brace :: TWord (u "else") :: TOpen Brace :: show b2 ++ [TClose Brace]
  | ELet m x a r => TWord (u "let") :: (if m then [TWord (u "mut")] else []) ++ TWord x :: pt "=" :: show a ++ pt ";" :: show r
  | EConst x t a r => TWord (u "const") :: TWord x :: pt ":" :: t ++ pt "=" :: show a ++ pt ";" :: show r
  | ESeq a r => show a ++ pt ";" :: show r
  | EEnd => []
  end.
Fixpoint size (e : expr) : nat :=
  let args l := fold_right (fun a n => size a + n) 0 l in
  match e with
  | EPath _ | ELit _ | ENum _ => 1
  | ETuple l _ | EArray l _ | EMacro _ l _ => 2 + args l
  | ECall f l _ => 2 + size f + args l
  | EMethod a _ l _ => 2 + size a + args l
  | ETry a | ERef a | EClosure _ a => 1 + size a
  | EAdd a b => 1 + size a + size b
  | EBlock b => 2 + size b
  | EIfLet _ _ a b1 b2 => 2 + size a + size b1 + size b2
  | ELet _ _ a r | EConst _ _ a r | ESeq a r => 1 + size a + size r
  | EEnd => 0
  end.
Definition sizes (l : list expr) : nat := fold_right (fun a n => size a + n) 0 l.

(** ** What can be read back *)
Definition colons (l : list tok) : bool := match l with t :: _ => punct ":" t && joint t | [] => false end.
Definition banged (l : list tok) : bool := match l with t :: _ => punct "!" t | [] => false end.
Definition plain_word (w : str) : bool := negb (mem_str w (map u ["if"; "let"; "const"; "mut"; "else"; "self"; "fn"]%string)).
Definition starts_path (p : list tok) : bool :=
  match p with TWord w :: _ => negb (mem_str w (map u ["if"; "let"; "const"]%string)) | t :: _ => punct ":" t && joint t | [] => false end.
Definition path_ok (p : list tok) : Prop := starts_path p = true /\ forall rest, colons rest = false -> p_any_path (p ++ rest) = Some (p, rest).
Inductive level := Post | Oper | Ex | Blk.
Definition is_ex (k : level) : Prop := k = Ex \/ k = Blk.
Definition one_expr (l : list expr) (c : bool) : bool := match l, c with [_], false => true | _, _ => false end.
Definition no_lone (l : list expr) (c : bool) : Prop := l = [] -> c = false.
Fixpoint wf (k : level) (e : expr) : Prop :=
  let args l := fold_right (fun a P => wf Ex a /\ P) True l in
  match e with
  | EPath p => path_ok p
  | ELit _ | ENum _ => True
  | ETuple l c => args l /\ no_lone l c /\ one_expr l c = false
  | EArray l c => args l /\ no_lone l c
  | EMacro p l c => path_ok p /\ args l /\ no_lone l c
  | ECall f l c => wf Post f /\ args l /\ no_lone l c
  | EMethod a m l c => wf Post a /\ args l /\ no_lone l c
  | ETry a => wf Post a
  | ERef a => k <> Post /\ wf Oper a
  | EAdd a b => is_ex k /\ wf Oper a /\ wf Oper b
  | EClosure x a => is_ex k /\ wf Ex a
  | EBlock b => wf Blk b
  | EIfLet c x a b1 b2 => wf Oper a /\ wf Blk b1 /\ wf Blk b2
  | ELet m x a r => k = Blk /\ (m = false -> x <> u "mut") /\ wf Ex a /\ wf Blk r
  | EConst x t a r => k = Blk /\ (forall rest, p_type (punct "=") 0 (t ++ pt "=" :: rest) = Some (t, pt "=" :: rest)) /\ wf Ex a /\ wf Blk r
  | ESeq a r => k = Blk /\ wf Ex a /\ wf Blk r
  | EEnd => k = Blk
  end.
Definition wfs (l : list expr) : Prop := fold_right (fun a P => wf Ex a /\ P) True l.

(** ** One step of the parser *)
Lemma p_expr_S : forall n l, p_expr (S n) l =
  match l with
  | t :: TWord x :: t' :: r =>
      if punct "|" t && punct "|" t' then match p_expr n r with Some (e, r') => Some (EClosure x e, r') | None => None end else p_sum n l
  | _ => p_sum n l
  end.
Proof. reflexivity. Qed.
Lemma p_sum_S : forall n l, p_sum (S n) l =
  match p_operand n l with
  | Some (a, t :: r) =>
      if punct "+" t then match p_operand n r with Some (b, r') => Some (EAdd a b, r') | None => None end else Some (a, t :: r)
  | x => x
  end.
Proof. reflexivity. Qed.
Definition p_post (n : nat) (l : list tok) : option (expr * list tok) := match p_primary n l with Some (e, r) => p_suffix n e r | None => None end.
Lemma p_operand_S : forall n t r, p_operand (S n) (t :: r) =
  if punct "&" t then match p_operand n r with Some (e, r') => Some (ERef e, r') | None => None end else p_post n (t :: r).
Proof. reflexivity. Qed.
Lemma p_list_S : forall n d t r, p_list (S n) d (t :: r) =
  if closing d t then Some ([], false, r)
  else match p_expr n (t :: r) with
       | Some (e, t1 :: r1) =>
           if closing d t1 then Some ([e], false, r1)
           else if punct "," t1 then
             match r1 with
             | t2 :: r2 => if closing d t2 then Some ([e], true, r2)
                           else match p_list n d r1 with Some (es, c, r3) => Some (e :: es, c, r3) | None => None end
             | [] => None
             end
           else None
       | _ => None
       end.
Proof. reflexivity. Qed.
Lemma p_block_S : forall n t r, p_block (S n) (t :: r) =
  if closing Brace t then Some (EEnd, r)
  else if keyword "let" t then
    let m := keyword "mut" (hd (TNum []) r) in
    match (if m then tl r else r) with
    | TWord x :: t1 :: r1 =>
        if punct "=" t1 then
          match p_expr n r1 with
          | Some (e, t2 :: r2) => if punct ";" t2 then match p_block n r2 with Some (b, r3) => Some (ELet m x e b, r3) | None => None end else None
          | _ => None
          end
        else None
    | _ => None
    end
  else if keyword "const" t then
    match r with
    | TWord x :: t1 :: r1 =>
        if punct ":" t1 then
          match p_type (punct "=") 0 r1 with
          | Some (ty, _ :: r2) =>
              match p_expr n r2 with
              | Some (e, t2 :: r3) => if punct ";" t2 then match p_block n r3 with Some (b, r4) => Some (EConst x ty e b, r4) | None => None end else None
              | _ => None
              end
          | _ => None
          end
        else None
    | _ => None
    end
  else
    match p_expr n (t :: r) with
    | Some (e, t1 :: r1) =>
        if closing Brace t1 then Some (e, r1)
        else if punct ";" t1 then match p_block n r1 with Some (b, r2) => Some (ESeq e b, r2) | None => None end
        else None
    | _ => None
    end.
Proof. reflexivity. Qed.

(** ** First tokens *)
Definition starts (t : tok) : bool :=
  match t with
  | TWord w => negb (mem_str w (map u ["let"; "const"]%string))
  | TPunct _ j => punct "&" t || punct "|" t || (punct ":" t && j)
  | TClose _ => false
  | _ => true
  end.
Definition starts_post (t : tok) : bool := match t with TPunct _ j => punct ":" t && j | _ => starts t end.
Lemma path_first : forall p, starts_path p = true -> exists t r, p = t :: r /\ starts_post t = true.
Proof.
  intros [|t r] H; [discriminate|]. exists t, r. split; [reflexivity|]. destruct t as [w|c j|s|s|d|d]; try discriminate; [|exact H].
  unfold starts_path in H. unfold starts_post, starts. apply negb_true_iff in H. apply negb_true_iff. destruct (mem_str w (map u ["let"; "const"]%string)) eqn:E; [|reflexivity].
  apply mem_str_In in E. assert (K : In w (map u ["if"; "let"; "const"]%string)) by (right; exact E). apply mem_str_In in K. congruence.
Qed.
Lemma first_post : forall e, wf Post e -> exists t r, show e = t :: r /\ starts_post t = true.
Proof.
  induction e as [p|s|s|l c|l c|p l c|f IHf l c|a IHa m l c|a IHa|a IHa|a IHa b IHb|x a IHa|b IHb|c x a IHa b1 IH1 b2 IH2|m x a IHa r IHr|x t a IHa r IHr|a IHa r IHr|] using expr_rect;
    intros H; cbn [wf show] in *; try (now (eexists _, _; split; [reflexivity|reflexivity])).
  - apply path_first. apply H.
  - destruct (path_first _ (proj1 (proj1 H))) as (t & r & -> & K). eexists _, _. split; [reflexivity|exact K].
  - destruct (IHf (proj1 H)) as (t & r & -> & K). eexists _, _. split; [reflexivity|exact K].
  - destruct (IHa (proj1 H)) as (t & r & -> & K). eexists _, _. split; [reflexivity|exact K].
  - destruct (IHa H) as (t & r & -> & K). eexists _, _. split; [reflexivity|exact K].
  - now destruct H.
  - destruct H as [[|] _]; discriminate.
  - destruct H as [[|] _]; discriminate.
  - destruct H as [H _]; discriminate.
  - destruct H as [H _]; discriminate.
  - destruct H as [H _]; discriminate.
  - discriminate.
Qed.
Definition starts_oper (t : tok) : bool := punct "&" t || starts_post t.
Lemma wf_lower : forall e, wf Oper e -> wf Post e \/ exists a, e = ERef a /\ wf Oper a.
Proof. intros e H. destruct e; cbn [wf] in *; first [left; exact H|right; eexists; split; [reflexivity|exact (proj2 H)]|exfalso; unfold is_ex in H; intuition discriminate]. Qed.
Lemma first_oper : forall e, wf Oper e -> exists t r, show e = t :: r /\ starts_oper t = true.
Proof.
  intros e H. destruct (wf_lower e H) as [K|(a & -> & K)]; [|now eexists _, _].
  destruct (first_post e K) as (t & r & E & Ht). exists t, r. split; [exact E|]. unfold starts_oper. rewrite Ht. apply orb_true_r.
Qed.
Lemma wf_middle : forall e, wf Ex e -> wf Oper e \/ (exists a b, e = EAdd a b /\ wf Oper a /\ wf Oper b) \/ exists x a, e = EClosure x a /\ wf Ex a.
Proof.
  intros e H. destruct e; cbn [wf] in *; first [left; exact H|left; split; [discriminate|exact (proj2 H)]|right; destruct H as (H0 & H); eauto 8; fail|exfalso; intuition discriminate].
Qed.
Lemma wf_upper : forall e, wf Blk e -> e = EEnd \/ wf Ex e \/ (exists m x a r, e = ELet m x a r) \/ (exists x t a r, e = EConst x t a r) \/ exists a r, e = ESeq a r.
Proof. intros e H. destruct e; cbn [wf] in *;
    first [right; left; exact H|right; left; split; [discriminate|exact (proj2 H)]|right; left; split; [now left|exact (proj2 H)]|right; right; eauto 8; fail|now left]. Qed.
Lemma oper_starts : forall t, starts_oper t = true -> starts t = true.
Proof.
  intros [w|c j|s|s|d|d] H; unfold starts_oper in H; cbn [punct starts_post] in H; try exact H. unfold starts. cbn [punct] in *.
  apply orb_prop in H as [H|H]; rewrite H; [reflexivity|]. apply orb_true_r.
Qed.
Lemma first_ex : forall e, wf Ex e -> exists t r, show e = t :: r /\ starts t = true.
Proof.
  intros e H. destruct (wf_middle e H) as [K|[(a & b & -> & K & _)|(x & a & -> & _)]]; [|clear H|now eexists _, _].
  - destruct (first_oper e K) as (t & r & E & Ht). exists t, r. split; [exact E|]. now apply oper_starts.
  - destruct (first_oper a K) as (t & r & E & Ht). exists t, (r ++ pt "+" :: show b). split; [cbn [show]; now rewrite E|]. now apply oper_starts.
Qed.
Lemma size_pos : forall e, wf Ex e -> 1 <= size e.
Proof. intros e H. destruct e; cbn [size]; try lia. cbn in H. discriminate. Qed.

(** ** Reading back *)
(** What may follow an operand, an expression *)
Definition calm (l : list tok) : bool :=
  match l with
  | TOpen Paren :: _ => false
  | t :: _ => negb (punct "?" t || punct "." t || punct "!" t || (punct ":" t && joint t))
  | [] => true
  end.
Definition quiet (l : list tok) : bool := calm l && match l with t :: _ => negb (punct "+" t) | [] => true end.
Lemma calm_suffix : forall n e l, calm l = true -> p_suffix (S n) e l = Some (e, l).
Proof.
  intros n e [|t l] H; [reflexivity|]. destruct t as [w|c j|s|s|d|d]; try reflexivity; [|now destruct d].
  cbn [p_suffix]. unfold calm in H. apply negb_true_iff in H. repeat (apply orb_false_iff in H as [H ?]). cbn [punct] in *. rewrite H, H2. reflexivity.
Qed.
Lemma not_amp : forall t, starts_post t = true -> punct "&" t = false.
Proof.
  intros [w|c j|s|s|d|d] H; try reflexivity. cbn in *. apply andb_prop in H as [H _]. apply N.eqb_eq in H. now subst c.
Qed.
Lemma not_bar : forall t, starts_oper t = true -> punct "|" t = false.
Proof.
  intros [w|c j|s|s|d|d] H; try reflexivity. cbn in *. apply orb_prop in H as [H|H]; [|apply andb_prop in H as [H _]]; apply N.eqb_eq in H; now subst c.
Qed.
Definition reads_post (e : expr) : Prop := forall n rest, colons rest = false -> banged rest = false -> 5 * size e <= n ->
  exists k, n <= k + 5 * size e /\ p_post n (show e ++ rest) = p_suffix (S k) e rest.
Definition reads_oper (e : expr) : Prop := forall n rest, calm rest = true -> 5 * size e + 2 <= n -> p_operand n (show e ++ rest) = Some (e, rest).
Definition reads_ex (e : expr) : Prop := forall n rest, quiet rest = true -> 5 * size e + 4 <= n -> p_expr n (show e ++ rest) = Some (e, rest).
Definition reads_block (e : expr) : Prop := forall n rest, 5 * size e + 5 <= n -> p_block n (show e ++ TClose Brace :: rest) = Some (e, rest).
Definition reads (e : expr) : Prop :=
  (wf Post e -> reads_post e) /\ (wf Oper e -> reads_oper e) /\ (wf Ex e -> reads_ex e) /\ (wf Blk e -> reads_block e).

Lemma calm_split : forall l, calm l = true -> colons l = false /\ banged l = false.
Proof.
  intros [|t l] H; [now split|]. destruct t as [w|c j|s|s|d|d]; try (now split). unfold calm in H. apply negb_true_iff in H.
  repeat (apply orb_false_iff in H as [H ?]). split; assumption.
Qed.
Lemma not_close : forall t d, starts t = true -> closing d t = false.
Proof. intros [w|c j|s|s|e|e] d H; try reflexivity. discriminate. Qed.
Lemma reads_list : forall l, (forall a, In a l -> wf Ex a -> reads_ex a) -> wfs l -> forall c, no_lone l c ->
  forall n d rest, 5 * sizes l + 5 <= n -> p_list n d (enum (map show l) c ++ TClose d :: rest) = Some (l, c, rest).
Proof.
  intros l HI Hl c Hc n d rest Hn. revert n Hn. destruct l as [|a l].
  { intros [|n] Hn; [cbn in Hn; lia|]. rewrite (Hc eq_refl). cbn [enum map commas app]. rewrite p_list_S. cbn [closing]. now destruct d. }
  assert (Hd : closing d (TClose d) = true) by now destruct d.
  revert a HI Hl Hc. induction l as [|b l IH]; intros a HI [Wa Wl] Hc [|n] Hn; try (cbn in Hn; lia).
  - destruct (first_ex a Wa) as (t & r & E & Ht). cbn [enum map commas sizes fold_right] in *. unfold enum. cbn [commas].
    rewrite E, <- !app_assoc. cbn [app]. rewrite p_list_S, (not_close _ d Ht).
    change (t :: r ++ (if c then [pt ","] else []) ++ TClose d :: rest) with ((t :: r) ++ (if c then [pt ","] else []) ++ TClose d :: rest).
    rewrite <- E. destruct c; cbn [app].
    + rewrite (HI a (or_introl eq_refl) Wa n (pt "," :: TClose d :: rest) eq_refl ltac:(lia)). change (closing d (pt ",")) with false. change (punct "," (pt ",")) with true. cbn iota. now rewrite Hd.
    + rewrite (HI a (or_introl eq_refl) Wa n (TClose d :: rest) ltac:(now destruct d) ltac:(lia)). now rewrite Hd.
  - destruct (first_ex a Wa) as (t & r & E & Ht). pose proof Wl as Wl0. destruct Wl0 as [Wb _]. destruct (first_ex b Wb) as (t2 & r2 & E2 & Ht2).
    assert (X : enum (map show (a :: b :: l)) c ++ TClose d :: rest = show a ++ pt "," :: enum (map show (b :: l)) c ++ TClose d :: rest).
    { unfold enum. change (commas (map show (a :: b :: l))) with (show a ++ pt "," :: commas (map show (b :: l))). now rewrite <- !app_assoc. }
    rewrite X. rewrite E. cbn [app]. rewrite p_list_S, (not_close _ d Ht).
    match goal with |- context [p_expr n (t :: r ++ ?x)] => change (t :: r ++ x) with ((t :: r) ++ x) end. rewrite <- E.
    cbn [sizes fold_right] in Hn. fold (sizes l) in Hn. pose proof (size_pos a Wa).
    rewrite (HI a (or_introl eq_refl) Wa n (pt "," :: enum (map show (b :: l)) c ++ TClose d :: rest) eq_refl ltac:(lia)). change (closing d (pt ",")) with false. change (punct "," (pt ",")) with true. cbn iota.
    assert (Y : exists r3, enum (map show (b :: l)) c ++ TClose d :: rest = t2 :: r3).
    { unfold enum. cbn [map commas]. rewrite E2. destruct (map show l); cbn [app]; eauto. }
    destruct Y as [r3 Y]. rewrite Y, (not_close _ d Ht2), <- Y.
    rewrite (IH b (fun x Hx => HI x (or_intror Hx)) Wl ltac:(discriminate) n ltac:(cbn [sizes fold_right]; fold (sizes l); lia)). reflexivity.
Qed.

Lemma p_suffix_call : forall n e r, p_suffix (S n) e (TOpen Paren :: r) = match p_list n Paren r with Some (es, c, r') => p_suffix n (ECall e es c) r' | None => None end.
Proof. reflexivity. Qed.
Lemma p_suffix_method : forall n e m r, p_suffix (S n) e (pt "." :: TWord m :: TOpen Paren :: r) =
  match p_list n Paren r with Some (es, c, r') => p_suffix n (EMethod e m es c) r' | None => None end.
Proof. reflexivity. Qed.
Lemma p_suffix_try : forall n e r, p_suffix (S n) e (pt "?" :: r) = p_suffix n (ETry e) r.
Proof. reflexivity. Qed.
Lemma post_one : forall n e l rest, p_primary n l = Some (e, rest) -> 1 <= size e -> 5 * size e <= n ->
  exists k, n <= k + 5 * size e /\ p_post n l = p_suffix (S k) e rest.
Proof. intros n e l rest H He Hn. exists (n - 1). split; [lia|]. unfold p_post. rewrite H. now replace (S (n - 1)) with n by lia. Qed.
Lemma primary_path : forall n p rest, path_ok p -> colons rest = false -> banged rest = false -> p_primary (S n) (p ++ rest) = Some (EPath p, rest).
Proof.
  intros n p rest [Hs Hp] Hc Hb. pose proof (Hp rest Hc) as E. destruct p as [|t p]; [discriminate|].
  assert (K : match p_any_path ((t :: p) ++ rest) with
              | Some (p, t1 :: TOpen Paren :: r') =>
                  if punct "!" t1 then match p_list n Paren r' with Some (es, c, r2) => Some (EMacro p es c, r2) | None => None end
                  else Some (EPath p, t1 :: TOpen Paren :: r')
              | Some (p, r') => Some (EPath p, r')
              | None => None
              end = Some (EPath (t :: p), rest)).
  { rewrite E. destruct rest as [|t1 [|t2 r]]; [reflexivity|now destruct t1|]. cbn [banged] in Hb. rewrite Hb. destruct t2 as [| | | |[]|]; now destruct t1. }
  destruct t as [w|a j|s|s|d|d]; try discriminate; [|exact K].
  assert (Hw : str_eqb w (u "if") = false).
  { destruct (str_eqb w (u "if")) eqn:X; [|reflexivity]. apply str_eqb_eq in X. subst w. discriminate. }
  cbn [p_primary app]. cbn [keyword]. rewrite Hw. exact K.
Qed.
Lemma primary_macro : forall n p l c rest, path_ok p -> p_list n Paren (enum (map show l) c ++ TClose Paren :: rest) = Some (l, c, rest) ->
  p_primary (S n) (show (EMacro p l c) ++ rest) = Some (EMacro p l c, rest).
Proof.
  intros n p l c rest [Hs Hp] Hl. cbn [show]. rewrite <- app_assoc. cbn [app]. rewrite <- app_assoc. cbn [app].
  pose proof (Hp (pt "!" :: TOpen Paren :: enum (map show l) c ++ TClose Paren :: rest) eq_refl) as E. destruct p as [|t p]; [discriminate|].
  destruct t as [w|a j|s|s|d|d]; try discriminate.
  - assert (Hw : str_eqb w (u "if") = false).
    { destruct (str_eqb w (u "if")) eqn:X; [|reflexivity]. apply str_eqb_eq in X. subst w. discriminate. }
    cbn [p_primary app] in *. cbn [keyword]. rewrite Hw. rewrite E. cbn [punct pt]. rewrite N.eqb_refl. now rewrite Hl.
  - cbn [p_primary app] in *. cbn [keyword]. rewrite E. cbn [punct pt]. rewrite N.eqb_refl. now rewrite Hl.
Qed.
Lemma p_expr_sum : forall n t r, punct "|" t = false -> p_expr (S n) (t :: r) = p_sum n (t :: r).
Proof. intros n t r H. rewrite p_expr_S. destruct r as [|[w|a j|s|s|d|d] [|t2 r]]; try reflexivity. now rewrite H. Qed.
Lemma p_sum_one : forall n l e rest, p_operand n l = Some (e, rest) -> quiet rest = true -> p_sum (S n) l = Some (e, rest).
Proof.
  intros n l e rest H Hq. rewrite p_sum_S, H. destruct rest as [|t r]; [reflexivity|]. apply andb_prop in Hq as [_ Hq]. apply negb_true_iff in Hq. now rewrite Hq.
Qed.
Lemma not_kw : forall t, starts t = true -> keyword "let" t = false /\ keyword "const" t = false.
Proof.
  intros [w|a j|s|s|d|d] H; try now split. cbn [starts] in H. apply negb_true_iff in H. split; cbn [keyword].
  - destruct (str_eqb w (u "let")) eqn:E; [|reflexivity]. apply str_eqb_eq in E. subst w. discriminate.
  - destruct (str_eqb w (u "const")) eqn:E; [|reflexivity]. apply str_eqb_eq in E. subst w. discriminate.
Qed.
Lemma quiet_calm : forall l, quiet l = true -> calm l = true.
Proof. intros l H. now apply andb_prop in H as [H _]. Qed.

Lemma all_read : forall m e, size e <= m -> reads e.
Proof.
  induction m as [m IHm] using (well_founded_induction lt_wf). intros e He.
  assert (SUB : forall a, size a < size e -> reads a) by (intros a Ha; exact (IHm (size a) ltac:(lia) a ltac:(lia))). clear IHm He m.
  assert (ARGS : forall l, sizes l < size e -> wfs l -> forall c, no_lone l c ->
    forall n d rest, 5 * sizes l + 5 <= n -> p_list n d (enum (map show l) c ++ TClose d :: rest) = Some (l, c, rest)).
  { intros l Hl Wl c Hc n d rest Hn. apply reads_list; [|exact Wl|exact Hc|exact Hn]. intros a Ha Wa. apply SUB; [|exact Wa].
    enough (size a <= sizes l) by lia. clear - Ha. induction l as [|b l IH]; [destruct Ha|]. cbn [sizes fold_right]. fold (sizes l). destruct Ha as [<- | Ha]; [|apply IH in Ha]; lia. }
  assert (POST : wf Post e -> reads_post e).
  { intros W n rest Hc Hb Hn. destruct e as [p|s|s|l c|l c|p l c|f l c|a mm l c|a|a|a b|x a|b|cc x a b1 b2|mm x a r|x t a r|a r|]; cbn [wf size] in W, Hn.
    - destruct n as [|n]; [lia|]. apply post_one; [|cbn [size]; lia|exact Hn]. now apply primary_path.
    - destruct n as [|n]; [lia|]. apply post_one; [reflexivity|cbn [size]; lia|exact Hn].
    - destruct n as [|n]; [lia|]. apply post_one; [reflexivity|cbn [size]; lia|exact Hn].
    - destruct W as (Wl & Wc & W1). destruct n as [|n]; [lia|]. fold (sizes l) in Hn. apply post_one; [|cbn [size]; lia|exact Hn].
      cbn [show app p_primary]. rewrite <- app_assoc. cbn [app]. rewrite (ARGS l ltac:(cbn [size]; fold (sizes l); lia) Wl c Wc n Paren rest ltac:(lia)).
      destruct l as [|a [|b l]]; [reflexivity| |reflexivity]. destruct c; [reflexivity|discriminate].
    - destruct W as (Wl & Wc). destruct n as [|n]; [lia|]. fold (sizes l) in Hn. apply post_one; [|cbn [size]; lia|exact Hn].
      cbn [show app p_primary]. rewrite <- app_assoc. cbn [app]. now rewrite (ARGS l ltac:(cbn [size]; fold (sizes l); lia) Wl c Wc n Bracket rest ltac:(lia)).
    - destruct W as (Wp & Wl & Wc). destruct n as [|n]; [lia|]. fold (sizes l) in Hn. apply post_one; [|cbn [size]; lia|exact Hn].
      apply primary_macro; [exact Wp|]. apply ARGS; [cbn [size]; fold (sizes l); lia|exact Wl|exact Wc|lia].
    - destruct W as (Wf & Wl & Wc). fold (sizes l) in Hn. cbn [show]. rewrite <- app_assoc. cbn [app]. rewrite <- app_assoc. cbn [app].
      destruct (proj1 (SUB f ltac:(cbn [size]; lia)) Wf n (TOpen Paren :: enum (map show l) c ++ TClose Paren :: rest) eq_refl eq_refl ltac:(lia)) as (k & Hk & E).
      rewrite E, p_suffix_call, (ARGS l ltac:(cbn [size]; fold (sizes l); lia) Wl c Wc k Paren rest ltac:(lia)).
      exists (k - 1). cbn [size]. fold (sizes l). split; [lia|]. now replace (S (k - 1)) with k by lia.
    - destruct W as (Wf & Wl & Wc). fold (sizes l) in Hn. cbn [show]. rewrite <- app_assoc. cbn [app]. rewrite <- app_assoc. cbn [app].
      destruct (proj1 (SUB a ltac:(cbn [size]; lia)) Wf n (pt "." :: TWord mm :: TOpen Paren :: enum (map show l) c ++ TClose Paren :: rest) eq_refl eq_refl ltac:(lia)) as (k & Hk & E).
      rewrite E, p_suffix_method, (ARGS l ltac:(cbn [size]; fold (sizes l); lia) Wl c Wc k Paren rest ltac:(lia)).
      exists (k - 1). cbn [size]. fold (sizes l). split; [lia|]. now replace (S (k - 1)) with k by lia.
    - cbn [show]. rewrite <- app_assoc. cbn [app].
      destruct (proj1 (SUB a ltac:(cbn [size]; lia)) W n (pt "?" :: rest) eq_refl eq_refl ltac:(lia)) as (k & Hk & E).
      rewrite E, p_suffix_try. exists (k - 1). cbn [size]. split; [lia|]. now replace (S (k - 1)) with k by lia.
    - now destruct W.
    - destruct W as [[|] _]; discriminate.
    - destruct W as [[|] _]; discriminate.
    - destruct n as [|n]; [lia|]. apply post_one; [|cbn [size]; lia|exact Hn]. cbn [show app p_primary]. rewrite <- app_assoc. cbn [app].
      now rewrite (proj2 (proj2 (proj2 (SUB b ltac:(cbn [size]; lia)))) W n rest ltac:(lia)).
    - destruct W as (Wa & W1 & W2). destruct n as [|n]; [lia|]. apply post_one; [|cbn [size]; lia|exact Hn].
      change (show (EIfLet cc x a b1 b2)) with
        (TWord (u "if") :: TWord (u "let") :: TWord cc :: TOpen Paren :: TWord x :: TClose Paren :: pt "=" :: show a
         ++ TOpen Brace :: show b1 ++ TClose Brace :: TWord (u "else") :: TOpen Brace :: show b2 ++ [TClose Brace]).
      repeat (rewrite <- app_assoc || cbn [app]).
      match goal with |- p_primary (S n) (?i :: ?le :: ?cw :: ?o :: ?xw :: ?cl :: ?eq :: ?r) = _ =>
        change (match p_operand n r with
                  | Some (e, TOpen Brace :: r2) =>
                      match p_block n r2 with
                      | Some (a, t3 :: TOpen Brace :: r3) =>
                          if keyword "else" t3 then match p_block n r3 with Some (b, r4) => Some (EIfLet cc x e a b, r4) | None => None end else None
                      | _ => None
                      end
                  | _ => None
                  end = Some (EIfLet cc x a b1 b2, rest)) end.
      match goal with |- context [p_operand n (show a ++ ?r)] => rewrite (proj1 (proj2 (SUB a ltac:(cbn [size]; lia))) Wa n r eq_refl ltac:(lia)) end.
      rewrite (proj2 (proj2 (proj2 (SUB b1 ltac:(cbn [size]; lia)))) W1 n _ ltac:(lia)).
      change (keyword "else" (TWord (u "else"))) with true. cbn iota.
      now rewrite (proj2 (proj2 (proj2 (SUB b2 ltac:(cbn [size]; lia)))) W2 n rest ltac:(lia)).
    - destruct W as [W _]; discriminate.
    - destruct W as [W _]; discriminate.
    - destruct W as [W _]; discriminate.
    - discriminate. }
  assert (OPER : wf Oper e -> reads_oper e).
  { intros W n rest Hc Hn. destruct n as [|n]; [lia|]. destruct (wf_lower e W) as [K|(a & -> & Wa)].
    - destruct (first_post e K) as (t & r & E & Ht). destruct (calm_split rest Hc) as [H1 H2].
      destruct (POST K n rest H1 H2 ltac:(lia)) as (k & Hk & X). rewrite (calm_suffix _ _ _ Hc) in X. rewrite E in *. cbn [app] in *.
      now rewrite p_operand_S, (not_amp _ Ht).
    - cbn [show app]. rewrite p_operand_S. change (punct "&" (pt "&")) with true. cbn iota. cbn [size] in Hn.
      now rewrite (proj1 (proj2 (SUB a ltac:(cbn [size]; lia))) Wa n rest Hc ltac:(lia)). }
  assert (EX : wf Ex e -> reads_ex e).
  { intros W n rest Hq Hn. destruct n as [|[|n]]; [lia|lia|]. destruct (wf_middle e W) as [K|[(a & b & -> & Wa & Wb)|(x & a & -> & Wa)]].
    - destruct (first_oper e K) as (t & r & E & Ht). pose proof (OPER K n rest (quiet_calm _ Hq) ltac:(lia)) as X.
      rewrite E in *. cbn [app] in *. rewrite p_expr_sum by now apply not_bar. now apply p_sum_one.
    - destruct (first_oper a Wa) as (t & r & E & Ht). cbn [size] in Hn.
      pose proof (proj1 (proj2 (SUB a ltac:(cbn [size]; lia))) Wa n (pt "+" :: show b ++ rest) eq_refl ltac:(lia)) as X.
      cbn [show]. rewrite <- app_assoc. cbn [app]. rewrite E in *. cbn [app] in *. rewrite p_expr_sum by now apply not_bar. rewrite p_sum_S, X.
      change (punct "+" (pt "+")) with true. cbn iota. now rewrite (proj1 (proj2 (SUB b ltac:(cbn [size]; lia))) Wb n rest (quiet_calm _ Hq) ltac:(lia)).
    - cbn [show app size] in *. rewrite p_expr_S. change (punct "|" (pt "|") && punct "|" (pt "|")) with true. cbn iota.
      now rewrite (proj1 (proj2 (proj2 (SUB a ltac:(cbn [size]; lia)))) Wa (S n) rest Hq ltac:(lia)). }
  split; [exact POST|]. split; [exact OPER|]. split; [exact EX|].
  intros W n rest Hn. destruct n as [|n]; [lia|].
  destruct (wf_upper e W) as [->|[K|[(mm & x & a & r & ->)|[(x & t & a & r & ->)|(a & r & ->)]]]].
  - reflexivity.
  - destruct (first_ex e K) as (t & r & E & Ht). pose proof (EX K n (TClose Brace :: rest) eq_refl ltac:(lia)) as X. destruct (not_kw t Ht) as [H1 H2].
    rewrite E in *. cbn [app] in *. now rewrite p_block_S, (not_close _ _ Ht), H1, H2, X.
  - destruct W as (_ & Wm & Wa & Wr). cbn [size] in Hn.
    assert (X : p_expr n (show a ++ pt ";" :: show r ++ TClose Brace :: rest) = Some (a, pt ";" :: show r ++ TClose Brace :: rest))
      by (exact (proj1 (proj2 (proj2 (SUB a ltac:(cbn [size]; lia)))) Wa n (pt ";" :: show r ++ TClose Brace :: rest) eq_refl ltac:(lia))).
    assert (Y := proj2 (proj2 (proj2 (SUB r ltac:(cbn [size]; lia)))) Wr n rest ltac:(lia)).
    cbn [show]. destruct mm; cbn [app]; repeat (rewrite <- app_assoc; cbn [app]); rewrite p_block_S; cbn [closing];
      change (keyword "let" (TWord (u "let"))) with true; cbn iota; cbn [hd tl].
    + change (keyword "mut" (TWord (u "mut"))) with true. cbn iota zeta. cbn [tl]. change (punct "=" (pt "=")) with true. cbn iota. rewrite X.
      change (punct ";" (pt ";")) with true. cbn iota. now rewrite Y.
    + assert (Hx : keyword "mut" (TWord x) = false).
      { cbn [keyword]. destruct (str_eqb x (u "mut")) eqn:E; [|reflexivity]. apply str_eqb_eq in E. now destruct (Wm eq_refl). }
      rewrite Hx. cbn iota zeta. change (punct "=" (pt "=")) with true. cbn iota. rewrite X.
      change (punct ";" (pt ";")) with true. cbn iota. now rewrite Y.
  - destruct W as (_ & Wt & Wa & Wr). cbn [size] in Hn.
    assert (X : p_expr n (show a ++ pt ";" :: show r ++ TClose Brace :: rest) = Some (a, pt ";" :: show r ++ TClose Brace :: rest))
      by (exact (proj1 (proj2 (proj2 (SUB a ltac:(cbn [size]; lia)))) Wa n (pt ";" :: show r ++ TClose Brace :: rest) eq_refl ltac:(lia))).
    assert (Y := proj2 (proj2 (proj2 (SUB r ltac:(cbn [size]; lia)))) Wr n rest ltac:(lia)).
    cbn [show app]. repeat (rewrite <- app_assoc; cbn [app]). rewrite p_block_S. cbn [closing].
    change (keyword "let" (TWord (u "const"))) with false. change (keyword "const" (TWord (u "const"))) with true. cbn iota.
    change (punct ":" (pt ":")) with true. cbn iota. rewrite Wt. cbn iota. rewrite X. change (punct ";" (pt ";")) with true. cbn iota. now rewrite Y.
  - destruct W as (_ & Wa & Wr). cbn [size] in Hn.
    assert (X : p_expr n (show a ++ pt ";" :: show r ++ TClose Brace :: rest) = Some (a, pt ";" :: show r ++ TClose Brace :: rest))
      by (exact (proj1 (proj2 (proj2 (SUB a ltac:(cbn [size]; lia)))) Wa n (pt ";" :: show r ++ TClose Brace :: rest) eq_refl ltac:(lia))).
    assert (Y := proj2 (proj2 (proj2 (SUB r ltac:(cbn [size]; lia)))) Wr n rest ltac:(lia)).
    destruct (first_ex a Wa) as (t & r' & E & Ht). destruct (not_kw t Ht) as [H1 H2].
    cbn [show app]. repeat (rewrite <- app_assoc; cbn [app]). rewrite E in *. cbn [app] in *. rewrite p_block_S, (not_close _ _ Ht), H1, H2, X.
    change (closing Brace (pt ";")) with false. change (punct ";" (pt ";")) with true. cbn iota. now rewrite Y.
Qed.
Lemma block_read : forall e n rest, wf Blk e -> 5 * size e + 5 <= n -> p_block n (show e ++ TClose Brace :: rest) = Some (e, rest).
Proof. intros e n rest W Hn. exact (proj2 (proj2 (proj2 (all_read (size e) e (le_n _)))) W n rest Hn). Qed.

(** ** There are at least as many tokens as the size of an expression *)
Lemma path_long : forall p, path_ok p -> 1 <= length p.
Proof. intros [|t p] [H _]; [discriminate|]. cbn [length]. lia. Qed.
Lemma enum_long : forall l c, (forall a, In a l -> size a <= length (show a)) -> sizes l <= length (enum (map show l) c).
Proof.
  intros l c H. unfold enum. rewrite app_length. enough (sizes l <= length (commas (map show l))) by lia.
  induction l as [|a [|b l] IH]; [cbn; lia| |].
  - specialize (H a (or_introl eq_refl)). cbn [sizes fold_right map commas]. lia.
  - change (commas (map show (a :: b :: l))) with (show a ++ pt "," :: commas (map show (b :: l))). rewrite app_length. cbn [length].
    specialize (IH (fun x Hx => H x (or_intror Hx))). specialize (H a (or_introl eq_refl)). cbn [sizes fold_right] in *. lia.
Qed.
Lemma wfs_In : forall l a, wfs l -> In a l -> wf Ex a.
Proof. induction l as [|b l IH]; intros a W Ha; [destruct Ha|]. destruct W as [Wb Wl]. destruct Ha as [<- | Ha]; [exact Wb|now apply IH]. Qed.
Lemma size_long : forall m e k, size e <= m -> wf k e -> size e <= length (show e).
Proof.
  induction m as [m IHm] using (well_founded_induction lt_wf). intros e k He W.
  assert (SUB : forall a k, size a < size e -> wf k a -> size a <= length (show a)) by (intros a j Ha Wa; exact (IHm (size a) ltac:(lia) a j ltac:(lia) Wa)).
  assert (ARGS : forall l c, sizes l < size e -> wfs l -> sizes l <= length (enum (map show l) c)).
  { intros l c Hl Wl. apply enum_long. intros a Ha. apply (SUB a Ex); [|exact (wfs_In l a Wl Ha)].
    enough (size a <= sizes l) by lia. clear - Ha. induction l as [|b l IH]; [destruct Ha|]. cbn [sizes fold_right]. fold (sizes l). destruct Ha as [<- | Ha]; [|apply IH in Ha]; lia. }
  clear IHm He m. destruct e as [p|s|s|l c|l c|p l c|f l c|a mm l c|a|a|a b|x a|b|cc x a b1 b2|mm x a r|x t a r|a r|]; cbn [wf size show length] in *;
    try fold (sizes l) in *; repeat (rewrite !app_length; cbn [length]); try lia.
  - now apply path_long.
  - pose proof (ARGS l c ltac:(lia) (proj1 W)). lia.
  - pose proof (ARGS l c ltac:(lia) (proj1 W)). lia.
  - pose proof (ARGS l c ltac:(lia) (proj1 (proj2 W))). lia.
  - pose proof (ARGS l c ltac:(lia) (proj1 (proj2 W))). pose proof (SUB f Post ltac:(lia) (proj1 W)). lia.
  - pose proof (ARGS l c ltac:(lia) (proj1 (proj2 W))). pose proof (SUB a Post ltac:(lia) (proj1 W)). lia.
  - pose proof (SUB a Post ltac:(lia) W). lia.
  - pose proof (SUB a Oper ltac:(lia) (proj2 W)). lia.
  - pose proof (SUB a Oper ltac:(lia) (proj1 (proj2 W))). pose proof (SUB b Oper ltac:(lia) (proj2 (proj2 W))). lia.
  - pose proof (SUB a Ex ltac:(lia) (proj2 W)). lia.
  - pose proof (SUB b Blk ltac:(lia) W). lia.
  - pose proof (SUB a Oper ltac:(lia) (proj1 W)). pose proof (SUB b1 Blk ltac:(lia) (proj1 (proj2 W))). pose proof (SUB b2 Blk ltac:(lia) (proj2 (proj2 W))). lia.
  - pose proof (SUB a Ex ltac:(lia) (proj1 (proj2 (proj2 W)))). pose proof (SUB r Blk ltac:(lia) (proj2 (proj2 (proj2 W)))). lia.
  - pose proof (SUB a Ex ltac:(lia) (proj1 (proj2 (proj2 W)))). pose proof (SUB r Blk ltac:(lia) (proj2 (proj2 (proj2 W)))). lia.
  - pose proof (SUB a Ex ltac:(lia) (proj1 (proj2 W))). pose proof (SUB r Blk ltac:(lia) (proj2 (proj2 W))). lia.
Qed.

(** ** Paths *)
Fixpoint path_run (st : path_state) (p : list tok) : option path_state :=
  match p with
  | [] => Some st
  | t :: r =>
      match st with
      | AfterSegment => if punct ":" t && joint t then path_run AfterColon r else None
      | AfterColon => if punct ":" t then path_run AfterColons r else None
      | AfterColons => match t with TWord _ => path_run AfterSegment r | _ => if punct "<" t then path_run (InTypes 0) r else None end
      | InTypes d =>
          if punct "<" t then path_run (InTypes (S d)) r
          else if punct ">" t then path_run (match d with O => AfterSegment | S d' => InTypes d' end) r
          else match t with TWord _ | TPunct _ _ => path_run (InTypes d) r | _ => None end
      end
  end.
Lemma path_run_ok : forall p st rest, path_run st p = Some AfterSegment -> colons rest = false -> p_path st (p ++ rest) = Some (p, rest).
Proof.
  induction p as [|t p IH]; intros st rest H Hc.
  - injection H as ->. destruct rest as [|t r]; [reflexivity|]. cbn [app p_path]. cbn [colons] in Hc. now rewrite Hc.
  - cbn [path_run app p_path] in *. destruct st as [| | |d].
    + destruct (punct ":" t && joint t); [|discriminate]. now rewrite IH.
    + destruct (punct ":" t); [|discriminate]. now rewrite IH.
    + destruct t as [w|c j|s|s|e|e]; try (destruct (punct "<" _); [|discriminate]); now rewrite IH.
    + destruct (punct "<" t); [now rewrite IH|]. destruct (punct ">" t); [now rewrite IH|]. destruct t as [w|c j|s|s|e|e]; try discriminate; now rewrite IH.
Qed.
Definition good_path (p : list tok) : bool :=
  starts_path p && match path_run (match p with TWord _ :: _ => AfterColons | _ => AfterSegment end) p with Some AfterSegment => true | _ => false end.
Lemma good_path_ok : forall p, good_path p = true -> path_ok p.
Proof.
  intros p H. apply andb_prop in H as [Hs H]. split; [exact Hs|]. intros rest Hc. destruct p as [|t p]; [discriminate|].
  destruct t as [w|c j|s|s|e|e]; try discriminate.
  - destruct (path_run AfterColons (TWord w :: p)) as [[| | |]|] eqn:E; try discriminate. exact (path_run_ok _ _ rest E Hc).
  - destruct (path_run AfterSegment (TPunct c j :: p)) as [[| | |]|] eqn:E; try discriminate. cbn [starts_path joint] in Hs. apply andb_prop in Hs as [H1 H2]. subst j.
    unfold p_any_path. cbn [app hd]. rewrite H1. exact (path_run_ok _ _ rest E Hc).
Qed.

(** ** Types *)
Section types.
  Variable stop : tok -> bool.
  Definition before (l : list tok) (r : option (list tok * list tok)) : option (list tok * list tok) :=
    match r with Some (p, r') => Some (l ++ p, r') | None => None end.
  Definition skips (l : list tok) : Prop := forall d r, p_type stop d (l ++ r) = before l (p_type stop d r).
  Definition inner (l : list tok) : Prop := forall d r, p_type stop (S d) (l ++ r) = before l (p_type stop (S d) r).
  Lemma before_nil : forall r, before [] r = r.
  Proof. now intros [[p r]|]. Qed.
  Lemma before_app : forall l k r, before (l ++ k) r = before l (before k r).
  Proof. intros l k [[p r]|]; [|reflexivity]. cbn [before]. now rewrite app_assoc. Qed.
  Lemma skips_inner : forall l, skips l -> inner l.
  Proof. intros l H d r. apply H. Qed.
  Lemma skips_nil : skips [].
  Proof. intros d r. now rewrite before_nil. Qed.
  Lemma skips_app : forall l k, skips l -> skips k -> skips (l ++ k).
  Proof. intros l k Hl Hk d r. now rewrite <- app_assoc, Hl, Hk, before_app. Qed.
  Lemma inner_app : forall l k, inner l -> inner k -> inner (l ++ k).
  Proof. intros l k Hl Hk d r. now rewrite <- app_assoc, Hl, Hk, before_app. Qed.
  Lemma skips_tok : forall t, stop t = false -> opens t = false -> shuts t = false -> skips [t].
  Proof. intros t Hs Ho Hc d r. cbn [app p_type]. rewrite Hs, Ho, Hc. now destruct d. Qed.
  Lemma inner_tok : forall t, opens t = false -> shuts t = false -> inner [t].
  Proof. intros t Ho Hc d r. cbn [app p_type]. now rewrite Ho, Hc. Qed.
  Lemma skips_group : forall a l b, stop a = false -> opens a = true -> inner l -> opens b = false -> shuts b = true -> skips (a :: l ++ [b]).
  Proof.
    intros a l b Hs Ho Hl Hb Hc d r. cbn [app p_type]. rewrite Hs, Ho, <- app_assoc. cbn [app].
    assert (K : forall d, p_type stop (S d) (l ++ b :: r) = before (l ++ [b]) (p_type stop d r)).
    { intros d0. rewrite Hl, before_app. f_equal. cbn [p_type]. rewrite Hb, Hc. now destruct (p_type stop d0 r) as [[p r']|]. }
    destruct d; rewrite K; now destruct (p_type stop _ r) as [[p r']|].
  Qed.
  Lemma p_type_ends : forall l t r, skips l -> stop t = true -> p_type stop 0 (l ++ t :: r) = Some (l, t :: r).
  Proof. intros l t r H Ht. rewrite H. cbn [p_type]. rewrite Ht. cbn [before]. now rewrite app_nil_r. Qed.
End types.
