(** * Lemmas: declarations are read back (C71) *)
From Verif Require Import Base Spec_Lex Spec_Call Spec_Code Spec_Decl Model_Ident Model_Path Model_Import Model_Type Model_IntoRs Model_Token Model_Out Model_Print
  Spec_Items Spec_Print Proof_Base Proof_Grammar Proof_Code Proof_Ast Proof_File.

(** ** Types *)
Definition over (rest : list tok) : Prop := match rest with [] => True | t :: _ => punct ":" t = false /\ punct "<" t = false end.
Definition colon (j : bool) : tok := TPunct (ch ":") j.
Lemma ty_word : forall n x r, p_ty (S n) (TWord x :: r) =
  if str_eqb x (u "impl") then match p_ty n r with Some (t, r') => Some (YImpl t, r') | None => None end else p_segs n false [x] r.
Proof. reflexivity. Qed.
Lemma ty_paren : forall n r, p_ty (S n) (TOpen Paren :: r) =
  match p_tys n (closing Paren) r with Some ([t], false, r') => Some (t, r') | Some (ts, _, r') => Some (YTuple ts, r') | None => None end.
Proof. reflexivity. Qed.
Lemma ty_bracket : forall n r, p_ty (S n) (TOpen Bracket :: r) =
  match p_ty n r with Some (t, TClose Bracket :: r') => Some (YSlice t, r') | _ => None end.
Proof. reflexivity. Qed.
Lemma ty_ref : forall n j r, p_ty (S n) (TPunct (ch "&") j :: r) = match p_ty n r with Some (t, r') => Some (YRef t, r') | None => None end.
Proof. reflexivity. Qed.
Lemma ty_life : forall n j x r, p_ty (S n) (TPunct (ch "'") j :: TWord x :: r) = Some (YLife x, r).
Proof. reflexivity. Qed.
Lemma ty_global : forall n i j x r, p_ty (S n) (colon i :: colon j :: TWord x :: r) = p_segs n true [x] r.
Proof. reflexivity. Qed.
Lemma segs_more : forall n g p i j x r, p_segs (S n) g p (colon i :: colon j :: TWord x :: r) = p_segs n g (p ++ [x]) r.
Proof. reflexivity. Qed.
Lemma segs_args : forall n g p j r, p_segs (S n) g p (TPunct (ch "<") j :: r) =
  match p_tys n (punct ">") r with Some (ts, _, r') => Some (YPath g p ts, r') | None => None end.
Proof. reflexivity. Qed.
Lemma segs_over : forall n g p l, over l -> p_segs (S n) g p l = Some (YPath g p [], l).
Proof.
  intros n g p [|t r] H; [reflexivity|]. destruct H as [H1 H2].
  change (p_segs (S n) g p (t :: r)) with
    (if punct ":" t then match r with t1 :: TWord x :: r' => if punct ":" t1 then p_segs n g (p ++ [x]) r' else None | _ => None end
     else if punct "<" t then match p_tys n (punct ">") r with Some (ts, _, r') => Some (YPath g p ts, r') | None => None end
     else Some (YPath g p [], t :: r)).
  now rewrite H1, H2.
Qed.
Lemma tys_S : forall n stop t r, p_tys (S n) stop (t :: r) =
  if stop t then Some ([], false, r)
  else match p_ty n (t :: r) with
       | Some (e, t1 :: r1) =>
           if stop t1 then Some ([e], false, r1)
           else if punct "," t1 then
             match r1 with
             | t2 :: r2 => if stop t2 then Some ([e], true, r2) else match p_tys n stop r1 with Some (es, c, r3) => Some (e :: es, c, r3) | None => None end
             | [] => None
             end
           else None
       | _ => None
       end.
Proof. reflexivity. Qed.

Lemma abs_cons : forall x p, abs_path (x :: p) = colon true :: colon false :: TWord x :: abs_path p.
Proof. reflexivity. Qed.
Lemma local_abs : forall p x, local_path (x :: p) = TWord x :: abs_path p.
Proof.
  induction p as [|y p IH]; intros x; [reflexivity|]. change (local_path (x :: y :: p)) with (word x ++ rs "::" ++ local_path (y :: p)). rewrite IH, abs_cons. reflexivity.
Qed.
Lemma segs_path : forall p n g acc r, length p <= n -> p_segs n g acc (abs_path p ++ r) = p_segs (n - length p) g (acc ++ p) r.
Proof.
  induction p as [|x p IH]; intros n g acc r Hn.
  - rewrite app_nil_r. cbn [length abs_path each flat_map app]. now rewrite Nat.sub_0_r.
  - cbn [length] in *. destruct n as [|n]; [lia|]. rewrite abs_cons. cbn [app]. rewrite segs_more, IH by lia. now rewrite <- app_assoc.
Qed.
Lemma abs_length : forall p, length (abs_path p) = 3 * length p.
Proof. induction p as [|x p IH]; [reflexivity|]. rewrite abs_cons. cbn [length]. lia. Qed.

Section types.
  Context (U : uni).
  Lemma not_impl : forall x, path_segment U x -> str_eqb x (u "impl") = false.
  Proof.
    intros x H. apply not_true_iff_false. intros E. apply str_eqb_eq in E. subst x. destruct H as [[[_ H] | (t & H & _)] | H]; [|discriminate H|discriminate H].
    apply H. clear. vm_compute. tauto.
  Qed.
  Definition starts (l : list tok) : Prop := match l with [] => False | t :: _ => closing Paren t = false /\ punct ">" t = false end.
  Lemma ty_starts : forall t, rust_type U t -> starts (ty_tokens t).
  Proof.
    intros t H. destruct t as [s|t|t|t|l|p l|t|p|p l]; try (now split).
    - cbn [rust_type] in H. destruct H as [[H _] _]. destruct p as [|x p]; [contradiction|]. cbn [ty_tokens]. rewrite abs_cons. now split.
    - cbn [rust_type] in H. destruct H as [Hl [H _]]. cbn [ty_tokens]. rewrite Hl. destruct (segs p) as [|x q]; [contradiction|]. rewrite local_abs. now split.
    - cbn [ty_tokens]. destruct l as [|[| | | | |q [|w [|]]| | |] [|]]; now split.
  Qed.
  Definition reads (t : rty) : Prop := forall n rest, over rest -> 2 * length (ty_tokens t) <= n -> p_ty n (ty_tokens t ++ rest) = Some (as_rust t, rest).
  Lemma args_read : forall stop e l, (stop = closing Paren \/ stop = punct ">") -> stop e = true -> over [e] -> punct "," e = false ->
    (forall t, In t l -> rust_type U t /\ reads t) -> forall n rest, 2 * length (sep_by comma (map ty_tokens l)) + 1 <= n ->
    p_tys n stop (sep_by comma (map ty_tokens l) ++ e :: rest) = Some (map as_rust l, false, rest).
  Proof.
    intros stop e l Hs He Ho Hc. induction l as [|t l IH]; intros H n rest Hn; (destruct n as [|n]; [lia|]).
    - cbn [map sep_by app]. rewrite tys_S. now rewrite He.
    - destruct (H t (or_introl eq_refl)) as [Ht Rt]. pose proof (ty_starts t Ht) as S.
      assert (NS : forall a b, ty_tokens t = a :: b -> stop a = false) by (intros a b E; rewrite E in S; destruct Hs as [-> | ->]; apply S).
      destruct l as [|t2 l].
      + change (sep_by comma (map ty_tokens [t])) with (ty_tokens t) in *.
        assert (E : p_ty n (ty_tokens t ++ e :: rest) = Some (as_rust t, e :: rest)) by (apply Rt; [exact Ho|lia]).
        destruct (ty_tokens t) as [|a b]; [destruct S|]. cbn [app] in *. rewrite tys_S, (NS a b eq_refl), E, He. reflexivity.
      + change (sep_by comma (map ty_tokens (t :: t2 :: l))) with (ty_tokens t ++ comma ++ sep_by comma (map ty_tokens (t2 :: l))) in *.
        set (m := sep_by comma (map ty_tokens (t2 :: l))) in *. rewrite !app_length in Hn. cbn [comma length] in Hn. rewrite <- !app_assoc. cbn [comma app].
        assert (E : p_ty n (ty_tokens t ++ TPunct c_comma false :: m ++ e :: rest) = Some (as_rust t, TPunct c_comma false :: m ++ e :: rest)) by (apply Rt; [now split|lia]).
        assert (F : p_tys n stop (m ++ e :: rest) = Some (map as_rust (t2 :: l), false, rest)).
        { apply IH; [|lia]. intros x Hx. apply H. now right. }
        assert (G : exists a b, m ++ e :: rest = a :: b /\ stop a = false).
        { destruct (H t2 (or_intror (or_introl eq_refl))) as [H2 _]. apply ty_starts in H2.
          assert (M : exists q, m = ty_tokens t2 ++ q) by (subst m; destruct l; [exists []; now rewrite app_nil_r|eexists; reflexivity]). destruct M as [q ->].
          destruct (ty_tokens t2) as [|a b]; [destruct H2|]. cbn [app]. eexists _, _. split; [reflexivity|]. destruct Hs as [-> | ->]; apply H2. }
        destruct (ty_tokens t) as [|a b]; [destruct S|]. cbn [app] in *. rewrite tys_S, (NS a b eq_refl), E.
        assert (C : stop (TPunct c_comma false) = false) by (destruct Hs as [-> | ->]; reflexivity). rewrite C. change (punct "," (TPunct c_comma false)) with true. cbn iota.
        destruct G as (a' & b' & G & Ga). rewrite G in *. rewrite Ga, F. reflexivity.
  Qed.
  Lemma and_list : forall {A} (P : A -> Prop) l, fold_right and True (map P l) -> forall x, In x l -> P x.
  Proof. intros A P l. induction l as [|y l IH]; intros H x Hx; [destruct Hx|]. destruct H as [Hy H]. destruct Hx as [<- | Hx]; [exact Hy|now apply IH]. Qed.
  (** What follows the segments of a path *)
  Definition args_tokens (l : list rty) : list tok := match l with [] => [] | _ => rs "<" ++ sep_by comma (map ty_tokens l) ++ rs ">" end.
  Lemma path_read : forall g p l, (forall t, In t l -> rust_type U t /\ reads t) -> forall n acc rest, over rest -> length p + 2 * length (args_tokens l) + 1 <= n ->
    p_segs n g acc (abs_path p ++ args_tokens l ++ rest) = Some (YPath g (acc ++ p) (map as_rust l), rest).
  Proof.
    intros g p l H n acc rest Hr Hn. rewrite segs_path by lia. destruct (n - length p) as [|m] eqn:E; [lia|]. destruct l as [|t l]; [now apply segs_over|].
    remember (t :: l) as k eqn:Ek. assert (A : args_tokens k = TPunct (ch "<") false :: sep_by comma (map ty_tokens k) ++ [TPunct (ch ">") false]) by (subst k; reflexivity).
    rewrite A in *. cbn [app]. rewrite segs_args. rewrite <- app_assoc. cbn [app].
    cbn [length] in Hn. rewrite app_length in Hn. cbn [length] in Hn.
    rewrite (args_read (punct ">") (TPunct (ch ">") false) k (or_intror eq_refl) eq_refl (conj eq_refl eq_refl) eq_refl H m rest ltac:(lia)). reflexivity.
  Qed.
  Lemma ty_reads : forall t, rust_type U t -> reads t.
  Proof.
    assert (K : forall m t, rty_size t <= m -> rust_type U t -> reads t).
    { induction m as [m IH] using (well_founded_induction lt_wf). intros t Hm H.
      assert (SUB : forall a, rty_size a < rty_size t -> rust_type U a -> reads a) by (intros a Ha; exact (IH (rty_size a) ltac:(lia) a (le_n _))). clear IH Hm m.
      assert (ALL : forall l, fold_right (fun a n => rty_size a + n) 0 l < rty_size t -> fold_right and True (map (rust_type U) l) -> forall a, In a l -> rust_type U a /\ reads a).
      { intros l Hl Ha a Ia. pose proof (rty_size_In l a Ia). pose proof (and_list _ l Ha a Ia). split; [assumption|]. apply SUB; [lia|assumption]. }
      intros n rest Hr Hn. destruct n as [|n]; [exfalso; pose proof (ty_starts t H) as S; destruct (ty_tokens t); [exact S|cbn [length] in Hn; lia]|].
      destruct t as [s|t|t|t|l|p l|t|p|p l]; cbn [rty_size] in SUB, ALL; cbn [rust_type] in H; cbn [as_rust].
      - cbn [ty_tokens word app] in *. rewrite ty_word, (not_impl s (or_introl H)). cbn in Hn. destruct n; [lia|]. now apply segs_over.
      - cbn [ty_tokens] in *. change (rs "Vec<" ++ ty_tokens t ++ rs ">") with (TWord (u "Vec") :: abs_path [] ++ args_tokens [t]) in *. cbn [app]. rewrite ty_word. change (str_eqb (u "Vec") (u "impl")) with false. cbn iota.
        rewrite <- app_assoc. rewrite (path_read false [] [t]); [reflexivity| |exact Hr|].
        + intros a [<- | []]. split; [exact H|apply SUB; [lia|exact H]].
        + cbn [length abs_path each flat_map app] in *. lia.
      - cbn [ty_tokens] in *. change (rs "[" ++ ty_tokens t ++ rs "]") with (TOpen Bracket :: ty_tokens t ++ [TClose Bracket]) in *. cbn [app length] in *. rewrite app_length in Hn. cbn [length] in Hn. rewrite ty_bracket, <- app_assoc. cbn [app].
        rewrite (SUB t ltac:(lia) H n (TClose Bracket :: rest) (conj eq_refl eq_refl) ltac:(lia)). reflexivity.
      - cbn [ty_tokens] in *. change (rs "&" ++ ty_tokens t) with (TPunct (ch "&") false :: ty_tokens t) in *. cbn [app length] in *. rewrite ty_ref. rewrite (SUB t ltac:(lia) H n rest Hr ltac:(lia)). reflexivity.
      - cbn [ty_tokens] in *. change (rs "(" ++ sep_by comma (map ty_tokens l) ++ rs ")") with (TOpen Paren :: sep_by comma (map ty_tokens l) ++ [TClose Paren]) in *. cbn [app length] in *. rewrite app_length in Hn. cbn [length] in Hn.
        rewrite ty_paren, <- app_assoc. cbn [app].
        rewrite (args_read (closing Paren) (TClose Paren) l (or_introl eq_refl) eq_refl (conj eq_refl eq_refl) eq_refl (ALL l ltac:(lia) H) n rest ltac:(lia)).
        destruct l as [|a [|b l]]; reflexivity.
      - destruct H as [[Hp _] H]. destruct p as [|x p]; [contradiction|]. change (ty_tokens (RAbs (x :: p) l)) with (abs_path (x :: p) ++ args_tokens l) in *. rewrite abs_cons in *. cbn [app length] in *. rewrite app_length, abs_length in Hn.
        rewrite ty_global, <- app_assoc. rewrite (path_read true p l (ALL l ltac:(lia) H)); [reflexivity|exact Hr|lia].
      - cbn [ty_tokens] in *.
        assert (E : rs "::pyo3::Bound<'py, " ++ ty_tokens t ++ trailing t ++ rs ">" =
          colon true :: colon false :: TWord (u "pyo3") :: abs_path [u "Bound"] ++ TPunct (ch "<") false :: TPunct (ch "'") true :: TWord (u "py") :: TPunct c_comma false :: ty_tokens t ++ trailing t ++ [TPunct (ch ">") false]) by reflexivity.
        rewrite E in *. clear E. cbn [app length] in *. rewrite app_length, abs_length in Hn. cbn [length] in Hn. rewrite !app_length in Hn. cbn [length] in Hn. rewrite ty_global, <- app_assoc. rewrite segs_path by (cbn [length]; lia).
        destruct (n - length [u "Bound"]) as [|m] eqn:Em; cbn [length] in Em; [lia|]. cbn [app]. rewrite segs_args. destruct m as [|m]; [lia|]. rewrite tys_S. change (punct ">" (TPunct (ch "'") true)) with false. cbn iota.
        destruct m as [|m]; [lia|]. rewrite ty_life. change (punct ">" (TPunct c_comma false)) with false. change (punct "," (TPunct c_comma false)) with true. cbn iota.
        pose proof (ty_starts t H) as S. rewrite <- !app_assoc. cbn [app].
        assert (F : p_tys (1 + m) (punct ">") (ty_tokens t ++ trailing t ++ TPunct (ch ">") false :: rest) = Some ([as_rust t], match trailing t with [] => false | _ => true end, rest)).
        { assert (P : p_ty m (ty_tokens t ++ trailing t ++ TPunct (ch ">") false :: rest) = Some (as_rust t, trailing t ++ TPunct (ch ">") false :: rest)).
          { apply SUB; [lia|exact H| |lia]. destruct t as [| | | | |? [|? [|? []]]| | |]; split; reflexivity. }
          destruct (ty_tokens t) as [|a b]; [destruct S|]. cbn [app] in *. cbn [Nat.add]. rewrite tys_S. destruct S as [_ S]. rewrite S, P. destruct t as [| | | | |? [|? [|? []]]| | |]; reflexivity. }
        destruct (ty_tokens t) as [|a b] eqn:Et; [destruct S|]. cbn [app] in *. destruct S as [_ S]. rewrite S. cbn [Nat.add] in F. rewrite F. reflexivity.
      - destruct H as [Hl [Hp Hs]]. cbn [ty_tokens] in *. rewrite Hl in *. cbn [app]. destruct (segs p) as [|x q]; [contradiction|]. rewrite local_abs in *. cbn [app length] in *. rewrite abs_length in Hn.
        rewrite ty_word, (not_impl x (Hs x (or_introl eq_refl))). pose proof (path_read false q [] ltac:(now intros ? []) n [x] rest Hr) as E. cbn [args_tokens length map app] in E. rewrite Nat.mul_0_r in E.
        rewrite E by lia. reflexivity.
      - destruct H as [[Hp _] H]. destruct p as [|x p]; [contradiction|].
        assert (G : forall toks, toks = rs "impl" ++ abs_path (x :: p) ++ args_tokens l -> 2 * length toks <= S n -> p_ty (S n) (toks ++ rest) = Some (YImpl (YPath true (x :: p) (map as_rust l)), rest)).
        { intros toks -> Hk. change (rs "impl") with [TWord (u "impl")] in *. rewrite abs_cons in *. cbn [app length] in *. rewrite app_length, abs_length in Hk. rewrite ty_word. change (str_eqb (u "impl") (u "impl")) with true. cbn iota.
          destruct n as [|n]; [lia|]. rewrite ty_global, <- app_assoc. rewrite (path_read true p l (ALL l ltac:(lia) H)); [reflexivity|exact Hr|lia]. }
        assert (D : (exists q t, l = [RAbs q [t]]) \/ ty_tokens (RImpl (x :: p) l) = rs "impl" ++ abs_path (x :: p) ++ args_tokens l).
        { destruct l as [|[| | | | |q [|w [|]]| | |] [|]]; try (now right). left. eauto. }
        destruct D as [(q & t & ->) | D]; [|now apply G]. clear G.
        cbn [map fold_right rust_type] in H. destruct H as [[[Hq _] [Ht _]] _]. destruct q as [|y q]; [contradiction|].
        assert (E : ty_tokens (RImpl (x :: p) [RAbs (y :: q) [t]]) =
          TWord (u "impl") :: colon true :: colon false :: TWord x :: abs_path p ++ TPunct (ch "<") false :: colon true :: colon false :: TWord y :: abs_path q ++ TPunct (ch "<") false :: ty_tokens t ++ [TPunct (ch ">") true; TPunct (ch ">") false]).
        { cbn [ty_tokens]. rewrite !abs_cons. reflexivity. }
        rewrite E in *. clear E. cbn [app length] in *. rewrite !app_length in Hn. cbn [length] in Hn. rewrite !app_length in Hn. cbn [length] in Hn. rewrite app_length, !abs_length in Hn. cbn [length] in Hn.
        rewrite ty_word. change (str_eqb (u "impl") (u "impl")) with true. cbn iota. destruct n as [|n]; [lia|]. rewrite ty_global, <- app_assoc. rewrite segs_path by lia. cbn [app].
        destruct (n - length p) as [|m] eqn:Em; [lia|]. rewrite segs_args. rewrite <- app_assoc. cbn [app]. destruct m as [|m]; [lia|]. rewrite tys_S. change (punct ">" (colon true)) with false. cbn iota.
        destruct m as [|m]; [lia|]. rewrite ty_global. rewrite segs_path by lia. cbn [app]. destruct (m - length q) as [|k] eqn:Ek; [lia|]. rewrite segs_args.
        pose proof (args_read (punct ">") (TPunct (ch ">") true) [t] (or_intror eq_refl) eq_refl (conj eq_refl eq_refl) eq_refl) as A. cbn [map sep_by] in A.
        rewrite <- app_assoc. cbn [app]. rewrite (A (ltac:(intros a [<- | []]; split; [exact Ht|apply SUB; [cbn; lia|exact Ht]])) k (TPunct (ch ">") false :: rest) ltac:(lia)). reflexivity. }
    intros t. exact (K _ t (le_n _)).
  Qed.
  Lemma ty_read : forall t, rust_type U t -> read_ty (ty_tokens t) = Some (as_rust t).
  Proof. intros t H. unfold read_ty. pose proof (ty_reads t H (2 * length (ty_tokens t)) [] I (le_n _)) as E. rewrite app_nil_r in E. now rewrite E. Qed.
End types.

(** ** Parts of items *)
Lemma every_app : forall {A B} (f : A -> option B) l1 l2 r1 r2, every f l1 = Some r1 -> every f l2 = Some r2 -> every f (l1 ++ l2) = Some (r1 ++ r2).
Proof.
  intros A B f. induction l1 as [|a l1 IH]; intros l2 r1 r2 H1 H2; cbn [every app] in *; [now injection H1 as <-|].
  destruct (f a); [|discriminate H1]. destruct (every f l1) eqn:E; [|discriminate H1]. injection H1 as <-. now rewrite (IH l2 _ r2 eq_refl H2).
Qed.
Lemma attr_read : forall a, read_attr (inner (GAttr a)) = Some (marked a).
Proof. intros [| | |i]; reflexivity. Qed.
Lemma doc_read : forall s, read_attr (inner (GDoc s)) = Some (ADoc s).
Proof. reflexivity. Qed.
Lemma lead_bare : read_lead bare = Some plain.
Proof. reflexivity. Qed.
Lemma lead_public : forall p f, read_lead p = Some f -> read_lead (as_public p) = Some (made_public f).
Proof. intros [b l] f H. unfold read_lead in *. cbn in *. destruct (every read_attr l); [|discriminate H]. now injection H as <-. Qed.
Lemma lead_attr : forall a b p f, read_lead p = Some f -> read_attr a = Some b -> read_lead (with_attr a p) = Some (add_attr b f).
Proof.
  intros a b [pu l] f H E. unfold read_lead in *. cbn [with_attr l_attrs l_public] in *. destruct (every read_attr l) as [r|] eqn:R; [|discriminate H]. injection H as <-.
  assert (E' : every read_attr [a] = Some [b]) by (cbn [every]; now rewrite E). now rewrite (every_app _ _ _ _ _ R E').
Qed.
Section parts.
  Context (U : uni).
  Lemma result_read : forall t, rust_type U t -> read_ty (rs "::pyo3::PyResult<" ++ ty_tokens t ++ rs ">") = Some (py_result (as_rust t)).
  Proof.
    intros t H. unfold read_ty. change (rs "::pyo3::PyResult<" ++ ty_tokens t ++ rs ">") with (colon true :: colon false :: TWord (u "pyo3") :: abs_path [u "PyResult"] ++ args_tokens [t]).
    set (a := args_tokens [t]). cbn [length]. rewrite app_length, abs_length. cbn [length]. destruct (2 * S (S (S (3 * 1 + length a)))) as [|n] eqn:En; [lia|]. rewrite ty_global.
    rewrite <- (app_nil_r a). subst a. rewrite (path_read U true [u "PyResult"] [t]); [reflexivity| |exact I|rewrite ?app_nil_r in *; cbn [length] in *; lia].
    intros x [<- | []]. split; [exact H|now apply (ty_reads U)].
  Qed.
  Lemma ret_read : forall r, match r with RetType t => rust_type U t | _ => True end -> read_ty (ret_type r) =
    Some (py_result match r with
                 | RetType t => as_rust t
                 | RetSelf => pyo3 ["Bound"%string] [YLife (u "py"); YPath false [u "Self"] []]
                 | RetUnit => YTuple []
                 end).
  Proof. intros [t| |] H; [now apply result_read|reflexivity|reflexivity]. Qed.
  Lemma contract_read : forall k b, contract_ok U k -> read_head (mk_rfn (k_name k) (shown_params k) (ret_type (k_ret k)) b) = Some (head_of k).
  Proof.
    intros k b (_ & Hp & Hr). unfold read_head. cbn [r_params r_ret r_name]. rewrite (ret_read _ Hr).
    assert (P : forall l, (forall n t, In (n, t) l -> rust_ident U n /\ rust_type U t) ->
      every (fun p => match read_ty (snd p) with Some t => Some (fst p, t) | None => None end) (map (fun p : ident * rty => (fst p, ty_tokens (snd p))) l) = Some (map (fun p => (fst p, as_rust (snd p))) l)).
    { induction l as [|[n t] l IH]; intros H; [reflexivity|]. cbn [map every fst snd]. destruct (H n t (or_introl eq_refl)) as [_ Ht]. rewrite (ty_read U t Ht). rewrite IH; [reflexivity|]. intros m t' Hm. apply H. now right. }
    unfold shown_params. cbn [every]. rewrite (P _ Hp). unfold head_of, receiver. destruct (k_self k); reflexivity.
  Qed.
  Lemma target_own : forall n, rust_ident U n -> read_target (word n) = Some (None, YPath false [n] []).
  Proof. intros n H. pose proof (not_impl U n (or_introl H)) as E. unfold read_target, word. change (2 * length [TWord n]) with 2. rewrite ty_word, E. reflexivity. Qed.
  Lemma target_for : forall t n, rust_ident U t -> rust_ident U n ->
    read_target (word t ++ rs "for ::pyo3::Bound<'_, " ++ word n ++ rs ">") = Some (Some (YPath false [t] []), pyo3 ["Bound"%string] [YLife (u "_"); YPath false [n] []]).
  Proof.
    intros t n Ht Hn. pose proof (not_impl U t (or_introl Ht)) as E. unfold read_target. cbn [word app].
    set (r := rs "for ::pyo3::Bound<'_, " ++ TWord n :: rs ">"). change (2 * length (TWord t :: r)) with 28. rewrite ty_word, E.
    change (p_segs 27 false [t] r) with (Some (YPath false [t] [], r)). cbn iota. subst r.
    change (rs "for ::pyo3::Bound<'_, " ++ TWord n :: rs ">") with (TWord (u "for") :: rs "::pyo3::Bound<'_, " ++ TWord n :: rs ">"). cbn iota. change (keyword "for" (TWord (u "for"))) with true. cbn iota.
    assert (R : read_ty (rs "::pyo3::Bound<'_, " ++ TWord n :: rs ">") = Some (pyo3 ["Bound"%string] [YLife (u "_"); YPath false [n] []])).
    { unfold read_ty. change (rs "::pyo3::Bound<'_, " ++ TWord n :: rs ">") with
        (colon true :: colon false :: TWord (u "pyo3") :: colon true :: colon false :: TWord (u "Bound") :: TPunct (ch "<") false :: TPunct (ch "'") true :: TWord (u "_") :: TPunct c_comma false :: TWord n :: [TPunct (ch ">") false]).
      match goal with |- context [p_ty ?k _] => change k with 24 end. rewrite ty_global, segs_more, segs_args, tys_S. change (punct ">" (TPunct (ch "'") true)) with false. cbn iota. rewrite ty_life.
      change (punct ">" (TPunct c_comma false)) with false. change (punct "," (TPunct c_comma false)) with true. cbn iota. change (punct ">" (TWord n)) with false. cbn iota.
      rewrite tys_S. change (punct ">" (TWord n)) with false. cbn iota. rewrite ty_word, (not_impl U n (or_introl Hn)). reflexivity. }
    now rewrite R.
  Qed.
  Lemma use_more : forall p x i j y r, p_use p (TWord x :: colon i :: colon j :: TWord y :: r) = p_use (p ++ [x]) (TWord y :: r).
  Proof. reflexivity. Qed.
  Lemma use_read : forall q p x a, p_use p (TWord x :: abs_path q ++ match a with Some a => rs "as" ++ word a | None => [] end) = Some (OUse (p ++ x :: q) a).
  Proof.
    induction q as [|y q IH]; intros p x a; [destruct a; reflexivity|]. rewrite abs_cons. cbn [app]. rewrite use_more, IH. now rewrite <- app_assoc.
  Qed.
  Lemma names_read : forall l, p_names (each (fun i => word i ++ comma) l ++ [TClose Brace]) = Some l.
  Proof. induction l as [|x l IH]; [reflexivity|]. change (each (fun i => word i ++ comma) (x :: l) ++ [TClose Brace]) with (TWord x :: TPunct c_comma false :: each (fun i => word i ++ comma) l ++ [TClose Brace]).
    change (p_names (TWord x :: TPunct c_comma false :: each (fun i => word i ++ comma) l ++ [TClose Brace])) with (match p_names (each (fun i => word i ++ comma) l ++ [TClose Brace]) with Some ns => Some (x :: ns) | None => None end).
    now rewrite IH.
  Qed.
  Lemma read_use : forall i, rust_path U (use_path i) -> read_other (removelast (frag_tokens (GUse i))) = Some (OUse (use_path i) (use_alias i)).
  Proof.
    intros i [H _]. cbn [frag_tokens]. unfold use_tokens. set (al := match use_alias i with Some a => rs "as" ++ word a | None => [] end). rewrite !app_assoc. change (rs ";") with [TPunct (ch ";") false]. rewrite removelast_last, <- app_assoc.
    destruct (use_path i) as [|x q]; [contradiction|]. rewrite local_abs. change (rs "use") with [TWord (u "use")]. cbn [app]. change (read_other (TWord (u "use") :: ?r)) with (p_use [] r). apply use_read.
  Qed.
  Lemma read_super : forall l, read_other (removelast (frag_tokens (GUseSuper l))) = Some (OUses [u "super"] l).
  Proof.
    intros l. cbn [frag_tokens]. change (rs "};") with ([TClose Brace] ++ [TPunct (ch ";") false]). rewrite !app_assoc, removelast_last, <- app_assoc.
    change (read_other (rs "use super::{" ++ each (fun i => word i ++ comma) l ++ [TClose Brace])) with
      (match p_names (each (fun i => word i ++ comma) l ++ [TClose Brace]) with Some ns => Some (OUses [u "super"] ns) | None => None end). now rewrite names_read.
  Qed.
  Lemma read_alias : forall n, read_other (removelast (frag_tokens (GType n))) = Some (OAlias n (pyo3 ["types"; "PyAny"]%string [])).
  Proof. reflexivity. Qed.
  Lemma read_struct : forall n, read_other (removelast (frag_tokens (GStruct n))) = Some (OStruct n [pyo3 ["PyAny"%string] []]).
  Proof. reflexivity. Qed.
  Lemma read_named : forall n, read_other (rs "::pyo3::pyobject_native_type_named!(" ++ word n ++ rs ")") = Some (OMacro (u "::pyo3::pyobject_native_type_named") [MName n]).
  Proof. reflexivity. Qed.
  Lemma read_info : forall n s, read_other (rs "::pyo3::pyobject_native_type_info!(" ++ word n
         ++ rs ", ::pyo3::pyobject_native_static_type_object!(::pyo3::ffi::PyBaseObject_Type), ::std::option::Option::Some(" ++ lit s ++ rs "))") =
    Some (OMacro (u "::pyo3::pyobject_native_type_info") [MName n; MText (u "::pyo3::pyobject_native_static_type_object!(::pyo3::ffi::PyBaseObject_Type)"); MSome s]).
  Proof. reflexivity. Qed.

  (** ** Items *)
  Lemma states_frag : forall p x, states p x =
    match x with
    | GPub | GDoc _ | GAttr _ | GDecl _ => []
    | GFn d => [CFn p (head_of (f_contract d))]
    | GEmbed _ _ _ => [CFn p (mk_head (u "pyo3_embed_python_source_code") [interpreter] (py_result (YTuple [])))]
    | GUse i => [COther p (OUse (use_path i) (use_alias i))]
    | GUseSuper l => [COther p (OUses [u "super"] l)]
    | GType n => [COther p (OAlias n (pyo3 ["types"; "PyAny"]%string []))]
    | GStruct n => [COther p (OStruct n [pyo3 ["PyAny"%string] []])]
    | GMacros n s =>
        [COther p (OMacro (u "::pyo3::pyobject_native_type_named") [MName n]);
         COther plain (OMacro (u "::pyo3::pyobject_native_type_info")
           [MName n; MText (u "::pyo3::pyobject_native_static_type_object!(::pyo3::ffi::PyBaseObject_Type)"); MSome s])]
    | GImpl n l => [CImpl p None (YPath false [n] []) (states_all plain l)]
    | GImplFor t n l => [CImpl p (Some (YPath false [t] [])) (pyo3 ["Bound"%string] [YLife (u "_"); YPath false [n] []]) (states_all plain l)]
    | GTrait n l => [CTrait p n (states_decls plain l)]
    | GMod n l => [CMod p n (states_all plain l)]
    end.
  Proof. intros p x. destruct x; reflexivity. Qed.
  Lemma read_decls_ok : forall l st p f, items (item_ok U InTrait) st l -> read_lead p = Some f -> every read_decl (decls_of p l) = Some (states_decls f l).
  Proof.
    induction l as [|x l IH]; intros st p f H Hp; [reflexivity|].
    destruct x; cbn [items item_ok] in H; try (now destruct H); try (now (destruct H as [[] _])); try (now (destruct H as [[_ []] _])); try (now (destruct H as [[K _] _]; discriminate K)); cbn [decls_of states_decls].
    - destruct H as [_ H]. now apply trait_private in H.
    - destruct H as [_ H]. apply (IH _ _ _ H). apply lead_attr; [exact Hp|apply doc_read].
    - destruct H as [_ H]. apply (IH _ _ _ H). apply lead_attr; [exact Hp|apply attr_read].
    - destruct H as [(_ & _ & Hk) H]. cbn [every]. unfold read_decl at 1. cbn [fst snd]. rewrite Hp, (contract_read k EEnd Hk). now rewrite (IH _ _ _ H lead_bare).
  Qed.
  Lemma read_items_ok : forall m l, length (tokens l) <= m -> forall pl st p f, pl <> InTrait -> items (item_ok U pl) st l -> read_lead p = Some f ->
    every read_item (shown_all p l) = Some (states_all f l).
  Proof.
    induction m as [m IH] using (well_founded_induction Wf_nat.lt_wf). induction l as [|x l IHl]; intros Hm pl st p f Hpl H Hp; [reflexivity|].
    change (tokens (x :: l)) with (frag_tokens x ++ tokens l) in Hm. rewrite app_length in Hm. specialize (IHl ltac:(lia)).
    assert (IN : forall b pl' , length (tokens b) < length (frag_tokens x) -> pl' <> InTrait -> items (item_ok U pl') Nothing b -> every read_item (shown_all bare b) = Some (states_all plain b)).
    { intros b pl' Hb Hpl' Hi. apply (IH (length (tokens b)) ltac:(lia) b (le_n _) pl' Nothing bare plain Hpl' Hi lead_bare). }
    assert (NX : forall a b, items (item_ok U pl) Nothing l -> every read_item a = Some b -> every read_item (a ++ shown_all bare l) = Some (b ++ states_all plain l)).
    { intros a b Hl Ha. apply every_app; [exact Ha|]. exact (IHl pl Nothing bare plain Hpl Hl lead_bare). }
    assert (LT : forall n b, length (tokens b) < length (rs "impl" ++ word n ++ rs "{" ++ each frag_tokens b ++ rs "}")).
    { intros n b. fold (tokens b). rewrite !app_length. cbn [length word]. change (length (rs "impl")) with 1. lia. }
    destruct x as [|s|a|d|k|i|li|n0|n0|n0 s|n0 b|n0 b|tr n0 b|n0 b|mm file src]; cbn [items] in H; cbn [shown_all states_all]; rewrite ?shown_frag, ?states_frag.
    - destruct H as [_ H]. apply (IHl pl Pub _ _ Hpl H). now apply lead_public.
    - destruct H as [_ H]. apply (IHl pl Attribute _ _ Hpl H). now apply lead_attr.
    - destruct H as [_ H]. apply (IHl pl Attribute _ _ Hpl H). apply lead_attr; [exact Hp|apply attr_read].
    - destruct H as [[[Hk _] _] H]. apply NX; [exact H|]. cbn [every read_item]. rewrite Hp. unfold fn_syntax. now rewrite (contract_read _ _ Hk).
    - destruct H as [(K & _) _]. contradiction.
    - destruct H as [(_ & K & _) H]. apply NX; [exact H|]. cbn [every read_item]. rewrite Hp. now rewrite (read_use i K).
    - destruct H as [_ H]. apply NX; [exact H|]. cbn [every read_item]. rewrite Hp. now rewrite read_super.
    - destruct H as [_ H]. apply NX; [exact H|]. cbn [every read_item]. rewrite Hp. now rewrite read_alias.
    - destruct H as [_ H]. apply NX; [exact H|]. cbn [every read_item]. rewrite Hp. now rewrite read_struct.
    - destruct H as [_ H]. apply NX; [exact H|]. cbn [every read_item]. rewrite Hp, read_named, read_info. reflexivity.
    - destruct H as [(_ & _ & Hn & Hb) H]. apply NX; [exact H|]. cbn [every read_item]. rewrite Hp, (target_own n0 Hn). rewrite (IN b InImpl (LT n0 b) ltac:(discriminate) Hb). reflexivity.
    - destruct H as [(_ & _ & Hb) H]. apply NX; [exact H|]. cbn [every read_item]. rewrite Hp, (read_decls_ok b Nothing bare plain Hb lead_bare). reflexivity.
    - destruct H as [(_ & _ & Ht & Hn & Hb) H]. apply NX; [exact H|]. cbn [every read_item]. rewrite Hp, (target_for tr n0 Ht Hn).
      rewrite (IN b InTraitImpl); [reflexivity| |discriminate|exact Hb]. cbn [frag_tokens]. fold (tokens b). rewrite !app_length. change (length (rs "impl")) with 1. lia.
    - destruct H as [(_ & _ & Hb) H]. apply NX; [exact H|]. cbn [every read_item]. rewrite Hp. rewrite (IN b InModule (LT n0 b) ltac:(discriminate) Hb). reflexivity.
    - destruct H as [_ H]. apply NX; [exact H|]. cbn [every read_item]. rewrite Hp. reflexivity.
  Qed.
  Theorem decls_ok : forall s l, lex U s = Some (tokens l) -> well_formed U InModule l -> fold_right and True (map (frag_fine U) l) -> read_decls U s = Some (states_all plain l).
  Proof.
    intros s l Hs H Hf. unfold read_decls. rewrite (file_read U s l Hs H Hf). exact (read_items_ok _ l (le_n _) InModule Nothing bare plain ltac:(discriminate) H lead_bare).
  Qed.
End parts.
