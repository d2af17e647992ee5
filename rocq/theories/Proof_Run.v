(** * Lemmas: running the generated functions (C70) *)
From Verif Require Import Base Spec_Lex Spec_Call Spec_Code Model_Ident Model_Path Model_Import Model_Type Model_IntoRs Model_Token Model_Out Model_Print
  Spec_Check Proof_Base Proof_Code Proof_Ast.

Section run.
  Context {V : Type}.
  Variable answer : list (op V) -> op V -> option V.
  Notation eval := (eval answer).
  Notation state := (state V).
  Implicit Types s : state.

  (** ** One step *)
  Fixpoint evals (l : list expr) (s : state) (k : list (val V) -> state -> option (ctl V * state)) : option (ctl V * state) :=
    match l with [] => k [] s | e :: r => andthen (eval e s) (fun v s' => evals r s' (fun vs => k (v :: vs))) end.
  Lemma eval_app : forall f p l c s, prim_of (rs f) = Some p -> eval (app_of f l c) s = evals l s (apply_prim answer p).
  Proof. intros f p l c s H. unfold app_of. cbn [Spec_Code.eval]. rewrite H. reflexivity. Qed.
  Lemma eval_var : forall x s, eval (var x) s = match lookup_var s x with Some v => Some (Val v, s) | None => None end.
  Proof. reflexivity. Qed.
  Lemma eval_ref : forall e s, eval (ERef e) s = eval e s.
  Proof. reflexivity. Qed.
  Lemma eval_method0 : forall a m c s, eval (EMethod a m [] c) s = andthen (eval a s) (fun v s' => apply_method answer v m [] s').
  Proof. intros a m c s. destruct a; try reflexivity. destruct p as [|[] [|]]; reflexivity. Qed.
  Lemma eval_try : forall a s, eval (ETry a) s = andthen (eval a s) (fun v s' => match v with VOk w => Some (Val w, s') | VErr => Some (Raise, s') | _ => None end).
  Proof. reflexivity. Qed.
  Lemma eval_array : forall l c s, eval (EArray l c) s = evals l s (fun vs s' => match objects_of vs with Some os => Some (Val (VSeq os), s') | None => None end).
  Proof. reflexivity. Qed.
  Lemma eval_let : forall m x a r s, eval (ELet m x a r) s = andthen (eval a s) (fun v s' => eval r (push m x v s')).
  Proof. reflexivity. Qed.
  Lemma eval_seq : forall a r s, eval (ESeq a r) s = andthen (eval a s) (fun _ s' => eval r s').
  Proof. reflexivity. Qed.
  Lemma eval_block : forall b s, eval (EBlock b) s = andthen (eval b s) (fun v s' => Some (Val v, leave s s')).
  Proof. reflexivity. Qed.
  Lemma evals_nil : forall s k, evals [] s k = k [] s.
  Proof. reflexivity. Qed.
  Lemma evals_cons : forall e r s k, evals (e :: r) s k = andthen (eval e s) (fun v s' => evals r s' (fun vs => k (v :: vs))).
  Proof. reflexivity. Qed.
  Lemma eval_interned : forall e a s, eval (interned e a) s = andthen (eval e s) (fun v s' => match v with VPy => Some (Val (VStr a), s') | _ => None end).
  Proof. reflexivity. Qed.
  Lemma andthen_val : forall (v : val V) s k, andthen (Some (Val v, s)) k = k v s.
  Proof. reflexivity. Qed.
  Lemma andthen_raise : forall s k, andthen (Some (@Raise V, s)) k = Some (Raise, s).
  Proof. reflexivity. Qed.

  (** ** Variables *)
  Definition has_py (s : state) : Prop := lookup_var s (u "py") = Some VPy.
  Lemma lookup_push : forall m x v s y, lookup_var (push m x v s) y = if str_eqb x y then Some v else lookup_var s y.
  Proof. intros m x v s y. unfold lookup_var, push. cbn [vars find fst snd]. now destruct (str_eqb x y). Qed.
  Lemma lookup_same : forall m x v s, lookup_var (push m x v s) x = Some v.
  Proof. intros m x v s. rewrite lookup_push. now rewrite str_eqb_refl. Qed.
  Lemma lookup_other : forall m x v s y, x <> y -> lookup_var (push m x v s) y = lookup_var s y.
  Proof. intros m x v s y H. rewrite lookup_push. destruct (str_eqb x y) eqn:E; [|reflexivity]. apply str_eqb_eq in E. now destruct H. Qed.
  Lemma eval_py : forall s, has_py s -> eval py s = Some (Val VPy, s).
  Proof. intros s H. unfold py. rewrite eval_var. unfold has_py in H. now rewrite H. Qed.
  Lemma eval_known : forall s a, has_py s -> eval (interned py a) s = Some (Val (VStr a), s).
  Proof. intros s a H. now rewrite eval_interned, eval_py. Qed.
  Definition at_log (s : state) (log : list (op V)) : state := mk_state (vars s) (dicts s) log.
  Lemma at_log_py : forall s log, has_py s -> has_py (at_log s log).
  Proof. intros s log H. exact H. Qed.
  Lemma at_log_twice : forall s a b, at_log (at_log s a) b = at_log s b.
  Proof. reflexivity. Qed.
  Lemma at_log_own : forall s, at_log s (asked s) = s.
  Proof. now intros [a b c]. Qed.

  (** ** The object that a function works on *)
  Definition yields (e : expr) (s : state) (r : option V * list (op V)) : Prop :=
    eval e s = match fst r with Some v => Some (Val (VObj v), at_log s (snd r)) | None => Some (Raise, at_log s (snd r)) end.
  Lemma any_yields : forall e s r, yields e s r -> yields (any_of e) s r.
  Proof. intros e s [[v|] log] H; unfold yields, any_of in *; cbn [fst snd] in *; rewrite eval_method0, H; reflexivity. Qed.
  Lemma walk_yields : forall attrs e s v log, has_py s -> yields e s (Some v, log) ->
    yields (fold_left (fun acc a => ETry (app_of "::pyo3::types::PyAnyMethods::getattr" [EMethod acc (u "as_any") [] false; interned py a] false)) attrs e) s (walk answer attrs v log).
  Proof.
    assert (R : forall attrs e s log, yields e s (None, log) ->
      yields (fold_left (fun acc a => ETry (app_of "::pyo3::types::PyAnyMethods::getattr" [EMethod acc (u "as_any") [] false; interned py a] false)) attrs e) s (None, log)).
    { induction attrs as [|a attrs IH]; intros e s log H; [exact H|]. cbn [fold_left]. apply IH. pose proof (any_yields e s _ H) as A. unfold yields in *. cbn [fst snd] in *.
      rewrite eval_try, (eval_app _ PGetAttr) by (vm_compute; reflexivity). rewrite evals_cons. unfold any_of in A. now rewrite A. }
    induction attrs as [|a attrs IH]; intros e s v log Hp H; [exact H|]. cbn [fold_left walk perform].
    assert (K : eval (ETry (app_of "::pyo3::types::PyAnyMethods::getattr" [EMethod e (u "as_any") [] false; interned py a] false)) s =
      match answer log (OGet v a) with Some w => Some (Val (VObj w), at_log s (log ++ [OGet v a])) | None => Some (Raise, at_log s (log ++ [OGet v a])) end).
    { pose proof (any_yields e s _ H) as A. unfold yields, any_of in A. cbn [fst snd] in A.
      rewrite eval_try, (eval_app _ PGetAttr) by (vm_compute; reflexivity). rewrite evals_cons, A, andthen_val, evals_cons, eval_known by exact Hp.
      rewrite andthen_val, evals_nil. cbn [apply_prim]. unfold ask. cbn [asked at_log vars dicts]. destruct (answer log (OGet v a)) as [w|]; reflexivity. }
    unfold perform. destruct (answer log (OGet v a)) as [w|] eqn:E.
    - apply IH; [exact Hp|]. unfold yields. exact K.
    - apply R. exact K.
  Qed.
  Definition self_ok (self : option V) (s : state) : Prop := match self with Some o => lookup_var s (u "self") = Some (VObj o) | None => True end.
  Lemma fetch_yields : forall self d s, (d = DSelf -> self <> None) -> (d <> DSelf -> has_py s) -> self_ok self s -> yields (disp_ast d) s (fetch answer self d (asked s)).
  Proof.
    intros self [|l] s Hd Hp Hs.
    - destruct self as [o|]; [|now destruct (Hd eq_refl)]. unfold yields. cbn [disp_ast fetch fst snd]. rewrite eval_var, Hs. now rewrite at_log_own.
    - specialize (Hp ltac:(discriminate)). cbn [disp_ast fetch]. unfold lookup_ast.
      assert (K : eval (ETry (EMethod py (u "import_bound") [interned py (lk_import l)] false)) s =
        match answer (asked s) (OImport (lk_import l)) with Some w => Some (Val (VObj w), at_log s (asked s ++ [OImport (lk_import l)])) | None => Some (Raise, at_log s (asked s ++ [OImport (lk_import l)])) end).
      { rewrite eval_try. change (eval (EMethod py (u "import_bound") [interned py (lk_import l)] false) s) with
          (andthen (eval py s) (fun v s' => evals [interned py (lk_import l)] s' (apply_method answer v (u "import_bound")))).
        rewrite eval_py by exact Hp. rewrite andthen_val, evals_cons, eval_known by exact Hp. rewrite andthen_val, evals_nil.
        change (apply_method answer VPy (u "import_bound") [VStr (lk_import l)] s) with (ask answer VObj (OImport (lk_import l)) s). unfold ask.
        destruct (answer (asked s) (OImport (lk_import l))); reflexivity. }
      unfold perform. destruct (answer (asked s) (OImport (lk_import l))) as [m|] eqn:E.
      + apply walk_yields; [exact Hp|]. exact K.
      + revert K. generalize (ETry (EMethod py (u "import_bound") [interned py (lk_import l)] false)). induction (lk_attrs l) as [|a attrs IH]; intros e K; [exact K|].
        cbn [fold_left]. apply IH. assert (A := any_yields e s (None, asked s ++ [OImport (lk_import l)]) K). unfold yields, any_of in A. cbn [fst snd] in A.
        rewrite eval_try, (eval_app _ PGetAttr) by (vm_compute; reflexivity). rewrite evals_cons. now rewrite A.
  Qed.

  (** ** Preparations *)
  Definition holds (s : state) (x : str) (r : rval V) : Prop :=
    match r with
    | VOne v => exists w, lookup_var s x = Some w /\ object_of w = Some v
    | VTuple l => lookup_var s x = Some (VItems l)
    | VDict d => exists i, lookup_var s x = Some (VDictAt i) /\ nth_error (dicts s) i = Some d
    end.
  (** [s'] has the dictionaries of [s] and more, and the same variables apart from those in [l]. *)
  Definition later (l : list str) (s s' : state) : Prop :=
    asked s' = asked s /\ (exists more, dicts s' = dicts s ++ more) /\ forall y, ~ In y l -> lookup_var s' y = lookup_var s y.
  Lemma later_trans : forall l k a b c, later l a b -> later k b c -> later (l ++ k) a c.
  Proof.
    intros l k a b c (A1 & [m1 A2] & A3) (B1 & [m2 B2] & B3). split; [congruence|]. split; [exists (m1 ++ m2); now rewrite B2, A2, app_assoc|].
    intros y Hy. rewrite B3, A3; [reflexivity| |]; intros K; apply Hy, in_or_app; auto.
  Qed.
  Lemma later_holds : forall l s s' x r, later l s s' -> ~ In x l -> holds s x r -> holds s' x r.
  Proof.
    intros l s s' x r (_ & [more D] & L) Hx H. destruct r as [v|t|d]; cbn [holds] in *; rewrite (L x Hx); [exact H|exact H|].
    destruct H as (i & Hi & Hd). exists i. split; [exact Hi|]. rewrite D, nth_error_app1; [exact Hd|]. apply nth_error_Some. congruence.
  Qed.
  Lemma later_push : forall m x v s, later [x] s (push m x v s).
  Proof. intros m x v s. split; [reflexivity|]. split; [exists []; now rewrite app_nil_r|]. intros y Hy. apply lookup_other. intros ->. apply Hy. now left. Qed.
  Lemma later_more : forall l k s s', incl l k -> later l s s' -> later k s s'.
  Proof. intros l k s s' H (A & B & C). split; [exact A|]. split; [exact B|]. intros y Hy. apply C. intros K. now apply Hy, H. Qed.

  Lemma prim_dict : prim_of (rs "::pyo3::types::IntoPyDict::into_py_dict_bound") = Some PIntoDict.
  Proof. vm_compute. reflexivity. Qed.
  Lemma prim_tuple : prim_of (rs "::pyo3::IntoPy::<::pyo3::Py<::pyo3::types::PyTuple>>::into_py") = Some PIntoTuple.
  Proof. vm_compute. reflexivity. Qed.
  Lemma prim_any : prim_of (rs "::pyo3::IntoPy::<::pyo3::Py<::pyo3::types::PyAny>>::into_py") = Some PIntoAny.
  Proof. vm_compute. reflexivity. Qed.
  (* the value of [f(x, py)] *)
  Lemma eval_two : forall f p x s w, prim_of (rs f) = Some p -> has_py s -> lookup_var s x = Some w -> eval (app_of f [var x; py] false) s = apply_prim answer p [w; VPy] s.
  Proof. intros f p x s w Hf Hp Hx. rewrite (eval_app _ p _ _ _ Hf), evals_cons, eval_var, Hx, andthen_val, evals_cons, eval_py by exact Hp. reflexivity. Qed.
  Lemma eval_bind : forall x s w, has_py s -> lookup_var s x = Some w -> match w with VObj _ | VItems _ => True | _ => False end ->
    eval (EMethod (var x) (u "bind") [py] false) s = Some (Val w, s).
  Proof.
    intros x s w Hp Hx Hw. change (eval (EMethod (var x) (u "bind") [py] false) s) with (andthen (eval (var x) s) (fun v s' => evals [py] s' (apply_method answer v (u "bind")))).
    rewrite eval_var, Hx, andthen_val, evals_cons, eval_py by exact Hp. rewrite andthen_val, evals_nil. destruct w; try destruct Hw; reflexivity.
  Qed.
  Lemma has_py_push : forall m x v s, x <> u "py" -> has_py s -> has_py (push m x v s).
  Proof. intros m x v s Hx H. unfold has_py. now rewrite lookup_other. Qed.
  Lemma new_dict_eval : forall s, has_py s -> eval new_dict_ast s = Some (Val (VDictAt (length (dicts s))), mk_state (vars s) (dicts s ++ [[]]) (asked s)).
  Proof. intros s Hp. unfold new_dict_ast. rewrite (eval_app _ PNewDict) by (vm_compute; reflexivity). rewrite evals_cons, eval_py by exact Hp. reflexivity. Qed.
  Lemma leave_same : forall s l d a, leave s (mk_state (l ++ vars s) d a) = mk_state (vars s) d a.
  Proof. intros s l d a. unfold leave. cbn [vars dicts asked]. rewrite app_length. replace (length l + length (vars s) - length (vars s)) with (length l) by lia. now rewrite skipn_app, skipn_all, Nat.sub_diag. Qed.
  Definition dict_add (d : list (str * V)) (s : state) : state := mk_state (vars s) (dicts s ++ [d]) (asked s).
  Lemma dict_add_later : forall d x i m s, later [x] s (push m x (VDictAt i) (dict_add d s)).
  Proof. intros d x i m s. split; [reflexivity|]. split; [now exists [d]|]. intros y Hy. rewrite lookup_other; [reflexivity|]. intros ->. apply Hy. now left. Qed.
  Lemma dict_add_holds : forall d x m s, holds (push m x (VDictAt (length (dicts s))) (dict_add d s)) x (VDict d).
  Proof. intros d x m s. exists (length (dicts s)). split; [apply lookup_same|]. cbn [push dicts dict_add]. rewrite nth_error_app2 by lia. now rewrite Nat.sub_diag. Qed.
  Lemma prep_step : forall x p a rv s rest, x <> u "py" -> (p <> PrepNone -> has_py s) -> lookup_var s x = Some (VGiven a) -> prepared p a = Some rv ->
    exists s', eval (prep_ast (x, p) rest) s = eval rest s' /\ later [x] s s' /\ holds s' x rv.
  Proof.
    intros x p a rv s rest Hx Hp Hl Hr.
    assert (O : forall v, rv = VOne v -> holds (push false x (VObj v) s) x rv) by (intros v ->; exists (VObj v); split; [apply lookup_same|reflexivity]).
    assert (TWO : forall f q w, prim_of (rs f) = Some q -> has_py s -> apply_prim answer q [VGiven a; VPy] s = Some (Val w, s) -> match w with VObj _ | VItems _ => True | _ => False end ->
      holds (push false x w s) x rv ->
      exists s', eval (ELet false x (app_of f [var x; py] false) (ELet false x (EMethod (var x) (u "bind") [py] false) rest)) s = eval rest s' /\ later [x] s s' /\ holds s' x rv).
    { intros f q w Hf Hpy E Hw Hh. exists (push false x w (push false x w s)). split; [|split].
      - rewrite eval_let, (eval_two f q x s (VGiven a) Hf Hpy Hl), E, andthen_val, eval_let.
        rewrite (eval_bind x _ w); [reflexivity|now apply has_py_push|apply lookup_same|exact Hw].
      - apply (later_more ([x] ++ [x])); [intros y [<- | [<- | []]]; now left|]. eapply later_trans; apply later_push.
      - destruct rv as [v|l|d]; cbn [holds] in *; rewrite lookup_same in Hh |- *; exact Hh. }
    destruct p; cbn [prep_ast fst snd].
    - exists s. split; [reflexivity|]. split; [split; [reflexivity|]; split; [exists []; now rewrite app_nil_r|reflexivity]|].
      destruct a as [v|l|[d|]]; try discriminate. injection Hr as <-. exists (VGiven (AOne v)). now split.
    - specialize (Hp ltac:(discriminate)). destruct a as [v|l|[d|]]; try discriminate. injection Hr as <-.
      exists (push false x (VObj v) s). split; [|split; [apply later_push|now apply O]].
      unfold prep_ast. cbn [fst snd]. rewrite eval_let, (eval_two "::pyo3::types::IntoPyDict::into_py_dict_bound" PIntoDict x s (VGiven (AOne v)) prim_dict Hp Hl). reflexivity.
    - specialize (Hp ltac:(discriminate)). unfold prep_ast. cbn [fst snd]. destruct a as [v|l|[d|]]; try discriminate; injection Hr as <-.
      + apply (TWO "::pyo3::IntoPy::<::pyo3::Py<::pyo3::types::PyTuple>>::into_py"%string PIntoTuple (VObj v)); [exact prim_tuple|exact Hp|reflexivity|exact I|now apply O].
      + apply (TWO "::pyo3::IntoPy::<::pyo3::Py<::pyo3::types::PyTuple>>::into_py"%string PIntoTuple (VItems l)); [exact prim_tuple|exact Hp|reflexivity|exact I|]. apply lookup_same.
    - specialize (Hp ltac:(discriminate)). unfold prep_ast. cbn [fst snd]. destruct a as [v|l|[d|]]; try discriminate; injection Hr as <-.
      apply (TWO "::pyo3::IntoPy::<::pyo3::Py<::pyo3::types::PyAny>>::into_py"%string PIntoAny (VObj v)); [exact prim_any|exact Hp|reflexivity|exact I|now apply O].
    - specialize (Hp ltac:(discriminate)). unfold prep_ast. cbn [fst snd].
      set (b1 := app_of "::pyo3::types::IntoPyDict::into_py_dict_bound" [var x; py] false). fold new_dict_ast.
      assert (IF : eval (EIfLet (u "Some") x (var x) b1 new_dict_ast) s =
        andthen (eval (var x) s) (fun v s' =>
            let other := andthen (eval new_dict_ast s') (fun w s2 => Some (Val w, leave s' s2)) in
            let given w := andthen (eval b1 (push false x w s')) (fun w s2 => Some (Val w, leave s' s2)) in
            match v with
            | VGiven (AOptDict (Some d)) => given (VPairs d)
            | VGiven (AOptDict None) => other
            | VGiven (AOne o) => given (VGiven (AOne o))
            | _ => None
            end)) by reflexivity.
      rewrite eval_let, IF, eval_var, Hl, andthen_val. cbn zeta.
      assert (B1 : forall w, eval b1 (push false x w s) = apply_prim answer PIntoDict [w; VPy] (push false x w s)).
      { intros w. unfold b1. apply eval_two; [exact prim_dict|now apply has_py_push|apply lookup_same]. }
      destruct a as [v|l|[d|]]; try discriminate; injection Hr as <-.
      + exists (push false x (VObj v) s). split; [|split; [apply later_push|now apply O]]. rewrite B1. cbn [apply_prim]. rewrite andthen_val, andthen_val.
        unfold push at 2. rewrite (leave_same s [(x, (false, VGiven (AOne v)))]). now destruct s.
      + exists (push false x (VDictAt (length (dicts s))) (dict_add d s)). split; [|split; [apply dict_add_later|apply dict_add_holds]].
        rewrite B1. cbn [apply_prim]. unfold new_dict. rewrite andthen_val, andthen_val. unfold push at 4. cbn [vars push]. now rewrite (leave_same s [(x, (false, VPairs d))]).
      + exists (push false x (VDictAt (length (dicts s))) (dict_add [] s)). split; [|split; [apply dict_add_later|apply dict_add_holds]].
        rewrite new_dict_eval by exact Hp. rewrite andthen_val, andthen_val. now rewrite (leave_same s []).
  Qed.
  Lemma preps_run : forall ps l rho s rest, call_env ps l = Some rho -> NoDup (map fst ps) -> (forall x, In x (map fst ps) -> x <> u "py") ->
    (existsb (fun e => match snd e with PrepNone => false | _ => true end) ps = true -> has_py s) ->
    (forall x a, In (x, a) (combine (map fst ps) l) -> lookup_var s x = Some (VGiven a)) ->
    exists s', eval (fold_right prep_ast rest ps) s = eval rest s' /\ later (map fst ps) s s' /\ forall x r, In (x, r) rho -> holds s' x r.
  Proof.
    induction ps as [|[x p] ps IH]; intros l rho s rest Hc Hn Hx Hp Hl.
    - destruct l; [|discriminate]. injection Hc as <-. exists s. split; [reflexivity|]. split; [|intros ? ? []].
      split; [reflexivity|]. split; [exists []; now rewrite app_nil_r|reflexivity].
    - destruct l as [|a l]; [discriminate|]. cbn [call_env] in Hc. destruct (prepared p a) as [rv|] eqn:Er; [|discriminate]. destruct (call_env ps l) as [rho'|] eqn:Ec; [|discriminate]. injection Hc as <-.
      cbn [map fst] in *. inversion Hn as [|y l' Hnx Hn']. subst.
      destruct (prep_step x p a rv s (fold_right prep_ast rest ps)) as (s1 & E1 & L1 & H1); [apply Hx; now left| |apply Hl; now left|exact Er|].
      { intros Hnp. apply Hp. cbn [existsb snd]. now destruct p. }
      destruct (IH l rho' s1 rest Ec Hn') as (s2 & E2 & L2 & H2).
      + intros y Hy. apply Hx. now right.
      + intros K. unfold has_py. rewrite (proj2 (proj2 L1)); [apply Hp; cbn [existsb]; rewrite K; apply orb_true_r|]. intros [E | []]. exact (Hx x (or_introl eq_refl) E).
      + intros y b Hy. rewrite (proj2 (proj2 L1)); [apply Hl; now right|]. intros [<- | []]. apply Hnx. exact (in_combine_l _ _ _ _ Hy).
      + exists s2. split; [cbn [fold_right]; now rewrite E1|]. split; [exact (later_trans [x] (map fst ps) s s1 s2 L1 L2)|].
        intros y r [K|K]; [|now apply H2]. injection K as <- <-. exact (later_holds _ _ _ _ _ L2 Hnx H1).
  Qed.

  (** ** Arguments *)
  Lemma prim_object : prim_of (rs "::pyo3::ToPyObject::to_object") = Some PToObject.
  Proof. vm_compute. reflexivity. Qed.
  Lemma prim_new_tuple : prim_of (rs "::pyo3::types::PyTuple::new_bound") = Some PNewTuple.
  Proof. vm_compute. reflexivity. Qed.
  Lemma prim_capacity : prim_of (rs "Vec::with_capacity") = Some PWithCapacity.
  Proof. vm_compute. reflexivity. Qed.
  Lemma prim_len : prim_of (rs "::pyo3::types::PyTupleMethods::len") = Some PLen.
  Proof. vm_compute. reflexivity. Qed.
  Lemma prim_iter : prim_of (rs "::pyo3::types::PyTupleMethods::iter") = Some PIter.
  Proof. vm_compute. reflexivity. Qed.
  Lemma prim_set_item : prim_of (rs "::pyo3::types::PyDictMethods::set_item") = Some PSetItem.
  Proof. vm_compute. reflexivity. Qed.
  Lemma prim_some : prim_of (rs "Some") = Some PSome.
  Proof. vm_compute. reflexivity. Qed.

  Lemma eval_object : forall s x w v, has_py s -> lookup_var s x = Some w -> object_of w = Some v -> eval (object_ast x) s = Some (Val (VObj v), s).
  Proof.
    intros s x w v Hp Hx Hw. unfold object_ast. rewrite (eval_app _ _ _ _ _ prim_object), evals_cons, eval_ref, eval_var, Hx, andthen_val, evals_cons, eval_py by exact Hp.
    rewrite andthen_val, evals_nil. cbn [apply_prim]. now rewrite Hw.
  Qed.
  Definition all_hold (rho : renv V) (s : state) : Prop := forall x r, In (x, r) rho -> holds s x r.
  Lemma var_In : forall (rho : renv V) x r, Spec_Call.var rho x = Some r -> In (x, r) rho.
  Proof.
    induction rho as [|[y v] rho IH]; intros x r H; [discriminate|]. cbn [Spec_Call.var] in H. destruct (str_eqb y x) eqn:E; [|right; now apply IH].
    apply str_eqb_eq in E. injection H as <-. subst y. now left.
  Qed.
  Lemma one_holds : forall rho s x v, all_hold rho s -> one rho x = Some v -> exists w, lookup_var s x = Some w /\ object_of w = Some v.
  Proof. intros rho s x v H Hx. unfold one in Hx. destruct (Spec_Call.var rho x) as [[o|l|d]|] eqn:E; try discriminate. injection Hx as <-. exact (H x (VOne o) (var_In _ _ _ E)). Qed.
  Lemma evals_objects : forall rho s l vs k, has_py s -> all_hold rho s -> ones rho l = Some vs -> evals (map object_ast l) s k = k (map VObj vs) s.
  Proof.
    intros rho s l. induction l as [|x l IH]; intros vs k Hp Ha Ho; cbn [ones map] in *.
    - injection Ho as <-. reflexivity.
    - destruct (one rho x) as [v|] eqn:E1; [|discriminate]. destruct (ones rho l) as [vs'|] eqn:E2; [|discriminate]. injection Ho as <-.
      destruct (one_holds rho s x v Ha E1) as (w & Hw & Hv). rewrite evals_cons, (eval_object s x w v Hp Hw Hv), andthen_val. exact (IH vs' _ Hp Ha eq_refl).
  Qed.
  Lemma objects_map : forall vs : list V, objects_of (map VObj vs) = Some vs.
  Proof. induction vs as [|v vs IH]; [reflexivity|]. cbn [map objects_of object_of]. now rewrite IH. Qed.
  Lemma eval_objects : forall rho s l vs, has_py s -> all_hold rho s -> ones rho l = Some vs -> eval (array l) s = Some (Val (VSeq vs), s).
  Proof. intros rho s l vs Hp Ha Ho. unfold array. rewrite eval_array, (evals_objects rho s l vs _ Hp Ha Ho). now rewrite objects_map. Qed.
  Lemma eval_new_tuple : forall s e l, has_py s -> eval e s = Some (Val (VSeq l), s) -> eval (new_tuple e) s = Some (Val (VItems l), s).
  Proof.
    intros s e l Hp He. unfold new_tuple. rewrite (eval_app _ _ _ _ _ prim_new_tuple), evals_cons, eval_py by exact Hp. now rewrite andthen_val, evals_cons, He.
  Qed.
  Lemma tup_holds : forall rho s x l, all_hold rho s -> tup rho x = Some l -> lookup_var s x = Some (VItems l).
  Proof. intros rho s x l H Hx. unfold tup in Hx. destruct (Spec_Call.var rho x) as [[o|l'|d]|] eqn:E; try discriminate. injection Hx as <-. exact (H x (VTuple l') (var_In _ _ _ E)). Qed.
  Definition no_own (rho : renv V) : Prop := forall x r, In (x, r) rho -> x <> u "py" /\ x <> args_name /\ x <> kwargs_name /\ x <> arg_name.
  Lemma push_holds : forall rho s m x v, all_hold rho s -> (forall y r, In (y, r) rho -> x <> y) -> all_hold rho (push m x v s).
  Proof. intros rho s m x v H Hx y r Hy. apply (later_holds [x] s); [apply later_push| |now apply H]. intros [E | []]. exact (Hx y r Hy E). Qed.
  Lemma eval_extend : forall s b new old, eval b (push true args_name (VSeq old) s) = Some (Val (VSeq new), push true args_name (VSeq old) s) ->
    eval (EMethod (var args_name) (u "extend") [b] false) (push true args_name (VSeq old) s) = Some (Val VUnit, push true args_name (VSeq (old ++ new)) s).
  Proof.
    intros s b new old H.
    replace (eval (EMethod (var args_name) (u "extend") [b] false) (push true args_name (VSeq old) s)) with
      (andthen (eval b (push true args_name (VSeq old) s)) (fun v s' =>
                match lookup_var s' args_name, v with
                | Some (VSeq old), VSeq new => match assign (vars s') args_name (VSeq (old ++ new)) with Some l' => Some (Val VUnit, mk_state l' (dicts s') (asked s')) | None => None end
                | _, _ => None
                end)) by (destruct b; reflexivity).
    rewrite H, andthen_val, lookup_same. reflexivity.
  Qed.
  Lemma eval_map : forall s f a c l, let e := app_of f a c in has_py s -> eval e s = Some (Val (VSeq l), s) -> eval (EMethod e (u "map") [EClosure arg_name (object_ast arg_name)] false) s = Some (Val (VSeq l), s).
  Proof.
    intros s f a c l e Hp He.
    assert (L : forall os done, (fix each (os : list V) (s : state) (done : list V) {struct os} : option (ctl V * state) :=
                       match os with
                       | [] => Some (Val (VSeq done), s)
                       | o :: r => andthen (eval (object_ast arg_name) (push false arg_name (VObj o) s)) (fun w s2 =>
                           match object_of w with Some o' => each r (leave s s2) (done ++ [o']) | None => None end)
                       end) os s done = Some (Val (VSeq (done ++ os)), s)).
    { induction os as [|o os IH]; intros done; [now rewrite app_nil_r|].
      rewrite (eval_object _ arg_name (VObj o) o); [|apply has_py_push; [discriminate|exact Hp]|apply lookup_same|reflexivity]. rewrite andthen_val. cbn [object_of].
      unfold push. rewrite (leave_same s [(arg_name, (false, VObj o))]). replace (mk_state (vars s) (dicts s) (asked s)) with s by now destruct s. rewrite IH. now rewrite <- app_assoc. }
    specialize (L l []). cbn [app] in L.
    assert (K : eval (EMethod e (u "map") [EClosure arg_name (object_ast arg_name)] false) s =
      andthen (eval e s) (fun v s' => match v with
                | VSeq os => (fix each (os : list V) (s : state) (done : list V) {struct os} : option (ctl V * state) :=
                       match os with
                       | [] => Some (Val (VSeq done), s)
                       | o :: r => andthen (eval (object_ast arg_name) (push false arg_name (VObj o) s)) (fun w s2 =>
                           match object_of w with Some o' => each r (leave s s2) (done ++ [o']) | None => None end)
                       end) os s' []
                | _ => None
                end)).
    { reflexivity. }
    rewrite K, He, andthen_val. exact L.
  Qed.
  Lemma eval_positional : forall rho s p pos, has_py s -> all_hold rho s -> no_own rho -> eval_pos rho p = Some pos ->
    exists w, eval (pos_ast p) s = Some (Val w, s) /\ positional_of w = Some pos.
  Proof.
    intros rho s [|v|l|l v] pos Hp Ha Hn H; cbn [eval_pos pos_ast] in *.
    - injection H as <-. exists VUnit. now split.
    - exists (VItems pos). split; [|reflexivity]. rewrite eval_var, (tup_holds rho s v pos Ha H). reflexivity.
    - exists (VItems pos). split; [|reflexivity]. apply eval_new_tuple; [exact Hp|]. now apply (eval_objects rho).
    - destruct (ones rho l) as [a|] eqn:E1; [|discriminate]. destruct (tup rho v) as [b|] eqn:E2; [|discriminate]. injection H as <-.
      exists (VItems (a ++ b)). split; [|reflexivity].
      assert (P : forall x, has_py (push true args_name x s)) by (intros x; apply has_py_push; [discriminate|exact Hp]).
      assert (A : forall x, all_hold rho (push true args_name x s)) by (intros x; apply push_holds; [exact Ha|]; intros y r Hy E; destruct (Hn y r Hy) as (_ & K & _); now apply K).
      rewrite eval_block, eval_let, (eval_app _ _ _ _ _ prim_capacity), evals_cons.
      assert (N : eval (EAdd (ENum (dec (N.of_nat (length l)) ++ u "usize")) (app_of "::pyo3::types::PyTupleMethods::len" [var v] false)) s = Some (Val VNum, s)).
      { change (eval (EAdd (ENum (dec (N.of_nat (length l)) ++ u "usize")) (app_of "::pyo3::types::PyTupleMethods::len" [var v] false)) s) with
          (andthen (eval (app_of "::pyo3::types::PyTupleMethods::len" [var v] false) s) (fun w s2 => match w with VNum => Some (Val (@VNum V), s2) | _ => None end)).
        rewrite (eval_app _ _ _ _ _ prim_len), evals_cons, eval_var, (tup_holds rho s v b Ha E2). reflexivity. }
      rewrite N, andthen_val, evals_nil. cbn [apply_prim]. rewrite andthen_val, eval_seq.
      rewrite (eval_extend s (array l) a []) by (apply (eval_objects rho); [apply P|apply A|exact E1]). rewrite andthen_val, eval_seq. cbn [app].
      rewrite (eval_extend s _ b a).
      2:{ apply eval_map; [apply P|]. rewrite (eval_app _ _ _ _ _ prim_iter), evals_cons, eval_var, (tup_holds rho _ v b (A _) E2). reflexivity. }
      rewrite andthen_val, (eval_new_tuple _ _ (a ++ b)); [|apply P|now rewrite eval_var, lookup_same].
      rewrite andthen_val. unfold push. rewrite (leave_same s [(args_name, (true, VSeq (a ++ b)))]). now destruct s.
  Qed.
  Lemma change_nth : forall {A} (l : list A) i a b, nth_error l i = Some b -> nth_error (change l i a) i = Some a.
  Proof. intros A l. induction l as [|c l IH]; intros [|i] a b H; try discriminate; [reflexivity|]. cbn [change nth_error] in *. exact (IH i a b H). Qed.
  Definition ones_hold (rho : renv V) (s : state) : Prop := forall x v, one rho x = Some v -> exists w, lookup_var s x = Some w /\ object_of w = Some v.
  Lemma eval_items : forall rho i l d s kw, ones_hold rho s -> has_py s -> lookup_var s kwargs_name = Some (VDictAt i) -> nth_error (dicts s) i = Some d -> set_items rho d l = Some kw ->
    exists ds, eval (items_ast l) s = Some (Val (VDictAt i), mk_state (vars s) ds (asked s)) /\ nth_error ds i = Some kw.
  Proof.
    intros rho i. induction l as [|[k x] l IH]; intros d s kw Ha Hp Hk Hd H; cbn [set_items] in H.
    - injection H as <-. exists (dicts s). split; [|exact Hd]. unfold items_ast. cbn [fold_right]. rewrite eval_var, Hk. now destruct s.
    - destruct (one rho x) as [v|] eqn:E; [|discriminate]. destruct (Ha x v E) as (w & Hw & Hv).
      destruct (IH (set_item d k v) (mk_state (vars s) (change (dicts s) i (set_item d k v)) (asked s)) kw Ha Hp Hk (change_nth _ _ _ _ Hd) H) as (ds & E2 & N).
      exists ds. split; [|exact N]. unfold items_ast. cbn [fold_right fst snd]. fold (items_ast l).
      rewrite eval_seq, (eval_app _ _ _ _ _ prim_set_item), evals_cons, eval_ref, eval_var, Hk, andthen_val, evals_cons, eval_known by exact Hp.
      rewrite andthen_val, evals_cons, eval_var, Hw, andthen_val, evals_nil. cbn [apply_prim]. rewrite Hv, Hd, andthen_val. exact E2.
  Qed.
  Lemma ones_all : forall rho s, all_hold rho s -> ones_hold rho s.
  Proof. intros rho s H x v Hx. exact (one_holds rho s x v H Hx). Qed.
  Lemma dic_holds : forall rho s x d, all_hold rho s -> dic rho x = Some d -> exists i, lookup_var s x = Some (VDictAt i) /\ nth_error (dicts s) i = Some d.
  Proof. intros rho s x d H Hx. unfold dic in Hx. destruct (Spec_Call.var rho x) as [[o|l'|d']|] eqn:E; try discriminate. injection Hx as <-. exact (H x (VDict d') (var_In _ _ _ E)). Qed.
  Lemma kwargs_holds : forall rho s v, no_own rho -> all_hold rho s -> ones_hold rho (push false kwargs_name v s).
  Proof. intros rho s v Hn Ha. apply ones_all, push_holds; [exact Ha|]. intros y r Hy E. destruct (Hn y r Hy) as (_ & _ & K & _). now apply K. Qed.
  Lemma eval_keywords : forall rho s k kw, has_py s -> all_hold rho s -> no_own rho -> eval_kw rho k = Some kw ->
    exists i ds, eval (kw_ast k) s = Some (Val (VDictAt i), mk_state (vars s) ds (asked s)) /\ nth_error ds i = Some kw.
  Proof.
    intros rho s [x|x l| |l] kw Hp Ha Hn H; cbn [eval_kw kw_ast] in *.
    - destruct (dic_holds rho s x kw Ha H) as (i & Hi & Hd). exists i, (dicts s). split; [|exact Hd]. rewrite eval_var, Hi. now destruct s.
    - destruct (dic rho x) as [d|] eqn:E; [|discriminate]. destruct (dic_holds rho s x d Ha E) as (i & Hi & Hd).
      destruct (eval_items rho i l d (push false kwargs_name (VDictAt i) s) kw) as (ds & E2 & N); [now apply kwargs_holds|apply has_py_push; [discriminate|exact Hp]|apply lookup_same|exact Hd|exact H|].
      exists i, ds. split; [|exact N]. rewrite eval_block, eval_let, eval_var, Hi, andthen_val, E2, andthen_val. cbn [push vars asked].
      now rewrite (leave_same s [(kwargs_name, (false, VDictAt i))]).
    - injection H as <-. exists (length (dicts s)), (dicts s ++ [[]]). split; [now apply new_dict_eval|]. rewrite nth_error_app2 by lia. now rewrite Nat.sub_diag.
    - set (i := length (dicts s)). set (s1 := mk_state (vars s) (dicts s ++ [[]]) (asked s)).
      assert (L : later [] s s1) by (split; [reflexivity|]; split; [now exists [[]]|reflexivity]).
      assert (A1 : all_hold rho s1) by (intros y r Hy; apply (later_holds [] s); [exact L|intros []|now apply Ha]).
      destruct (eval_items rho i l [] (push false kwargs_name (VDictAt i) s1) kw) as (ds & E2 & N); [now apply kwargs_holds|apply has_py_push; [discriminate|exact Hp]|apply lookup_same| |exact H|].
      { cbn [push dicts s1]. unfold i. rewrite nth_error_app2 by lia. now rewrite Nat.sub_diag. }
      exists i, ds. split; [|exact N]. rewrite eval_block, eval_let, new_dict_eval by exact Hp. rewrite andthen_val. fold i s1. rewrite E2, andthen_val. cbn [push vars asked s1].
      now rewrite (leave_same s [(kwargs_name, (false, VDictAt i))]).
  Qed.

  (** ** The call itself *)
  Lemma at_log_holds : forall rho s log, all_hold rho s -> all_hold rho (at_log s log).
  Proof. intros rho s log H x r Hx. exact (H x r Hx). Qed.
  Lemma eval_some : forall rho s k kw, has_py s -> all_hold rho s -> no_own rho -> eval_kw rho k = Some kw ->
    exists i ds, eval (some_kw k) s = Some (Val (VSome (VDictAt i)), mk_state (vars s) ds (asked s)) /\ nth_error ds i = Some kw.
  Proof.
    intros rho s k kw Hp Ha Hn H. destruct (eval_keywords rho s k kw Hp Ha Hn H) as (i & ds & E & N). exists i, ds. split; [|exact N].
    unfold some_kw. now rewrite (eval_app _ _ _ _ _ prim_some), evals_cons, eval_ref, E.
  Qed.
  Lemma prim_call : prim_of (rs "::pyo3::types::PyAnyMethods::call") = Some PCall.
  Proof. vm_compute. reflexivity. Qed.
  Lemma prim_call1 : prim_of (rs "::pyo3::types::PyAnyMethods::call1") = Some PCall1.
  Proof. vm_compute. reflexivity. Qed.
  Lemma prim_call0 : prim_of (rs "::pyo3::types::PyAnyMethods::call0") = Some PCall0.
  Proof. vm_compute. reflexivity. Qed.
  Lemma prim_call_method : prim_of (rs "::pyo3::types::PyAnyMethods::call_method") = Some PCallMethod.
  Proof. vm_compute. reflexivity. Qed.
  Lemma prim_call_method1 : prim_of (rs "::pyo3::types::PyAnyMethods::call_method1") = Some PCallMethod1.
  Proof. vm_compute. reflexivity. Qed.
  Lemma prim_call_method0 : prim_of (rs "::pyo3::types::PyAnyMethods::call_method0") = Some PCallMethod0.
  Proof. vm_compute. reflexivity. Qed.
  Lemma prim_getattr : prim_of (rs "::pyo3::types::PyAnyMethods::getattr") = Some PGetAttr.
  Proof. vm_compute. reflexivity. Qed.
  Lemma prim_setattr : prim_of (rs "::pyo3::types::PyAnyMethods::setattr") = Some PSetAttr.
  Proof. vm_compute. reflexivity. Qed.
  Lemma prim_extract : prim_of (rs "::pyo3::types::PyAnyMethods::extract") = Some PExtract.
  Proof. vm_compute. reflexivity. Qed.

  (** An expression that fetches the object and then asks for something *)
  Definition asking (e : expr) (s : state) (r : option V * list (op V)) (f : V -> val V) (o : V -> op V) : Prop :=
    match r with
    | (Some v, log) => exists s', asked s' = log /\ eval e s = ask answer f (o v) s'
    | (None, log) => eval e s = Some (Raise, at_log s log)
    end.
  Lemma raised_app : forall s d log f p l, yields (disp_ast d) s (None, log) -> prim_of (rs f) = Some p -> eval (app_of f (any_of (disp_ast d) :: l) false) s = Some (Raise, at_log s log).
  Proof. intros s d log f p l HD Hf. rewrite (eval_app _ _ _ _ _ Hf), evals_cons. pose proof (any_yields _ _ _ HD) as Y. unfold yields in Y. cbn [fst snd] in Y. now rewrite Y. Qed.
  Lemma found_app : forall s d v log f p l, yields (disp_ast d) s (Some v, log) -> prim_of (rs f) = Some p ->
    eval (app_of f (any_of (disp_ast d) :: l) false) s = evals l (at_log s log) (fun vs => apply_prim answer p (VObj v :: vs)).
  Proof. intros s d v log f p l HD Hf. rewrite (eval_app _ _ _ _ _ Hf), evals_cons. pose proof (any_yields _ _ _ HD) as Y. unfold yields in Y. cbn [fst snd] in Y. now rewrite Y. Qed.
  Section call.
    Variables (rho : renv V) (s : state) (d : disp) (r : option V * list (op V)).
    Hypothesis HD : yields (disp_ast d) s r.
    Hypothesis HA : all_hold rho s.
    Hypothesis HN : no_own rho.
    Hypothesis HP : has_py s.
    Lemma call_asks : forall a pos kw, eval_args rho a = Some (pos, kw) -> asking (call_ast (disp_ast d) a) s r VObj (fun o => OCall o pos kw).
    Proof.
      intros a pos kw H. pose proof HD as Y. destruct r as [[v|] log]; unfold asking.
      2:{ destruct a; cbn [call_ast]; [apply (raised_app _ _ _ _ _ _ Y prim_call)|apply (raised_app _ _ _ _ _ _ Y prim_call1)|apply (raised_app _ _ _ _ _ _ Y prim_call0)]. }
      assert (F : forall f p l, prim_of (rs f) = Some p -> eval (app_of f (any_of (disp_ast d) :: l) false) s = evals l (at_log s log) (fun vs => apply_prim answer p (VObj v :: vs))).
      { intros f p l Hf. exact (found_app _ _ _ _ f p l Y Hf). }
      destruct a as [p k|p|]; cbn [call_ast eval_args] in *.
      - destruct (eval_pos rho p) as [x|] eqn:E1; [|discriminate]. destruct (eval_kw rho k) as [y|] eqn:E2; [|discriminate]. injection H as -> ->.
        destruct (eval_positional rho (at_log s log) p pos HP (at_log_holds _ _ log HA) HN E1) as (w & Ew & Pw).
        destruct (eval_some rho (at_log s log) k kw HP (at_log_holds _ _ log HA) HN E2) as (i & ds & Ek & N).
        eexists. split; [|rewrite (F _ _ _ prim_call), evals_cons, Ew, andthen_val, evals_cons, Ek, andthen_val, evals_nil; cbn [apply_prim]; rewrite Pw; cbn [dict_at dicts]; rewrite N; reflexivity].
        reflexivity.
      - destruct (eval_pos rho p) as [x|] eqn:E1; [|discriminate]. injection H as -> <-.
        destruct (eval_positional rho (at_log s log) p pos HP (at_log_holds _ _ log HA) HN E1) as (w & Ew & Pw).
        exists (at_log s log). split; [reflexivity|]. rewrite (F _ _ _ prim_call1), evals_cons, Ew, andthen_val, evals_nil. cbn [apply_prim]. now rewrite Pw.
      - injection H as <- <-. exists (at_log s log). split; [reflexivity|]. now rewrite (F _ _ _ prim_call0).
    Qed.
    Lemma call_method_asks : forall m a pos kw, eval_args rho a = Some (pos, kw) -> asking (call_method_ast (disp_ast d) m a) s r VObj (fun o => OMethod o m pos kw).
    Proof.
      intros m a pos kw H. pose proof HD as Y. destruct r as [[v|] log]; unfold asking.
      2:{ destruct a; cbn [call_method_ast]; [apply (raised_app _ _ _ _ _ _ Y prim_call_method)|apply (raised_app _ _ _ _ _ _ Y prim_call_method1)|apply (raised_app _ _ _ _ _ _ Y prim_call_method0)]. }
      assert (F : forall f p l, prim_of (rs f) = Some p -> eval (app_of f (any_of (disp_ast d) :: interned py m :: l) false) s = evals l (at_log s log) (fun vs => apply_prim answer p (VObj v :: VStr m :: vs))).
      { intros f p l Hf. rewrite (found_app _ _ _ _ f p _ Y Hf). rewrite evals_cons, eval_known by exact HP. reflexivity. }
      destruct a as [p k|p|]; cbn [call_method_ast eval_args] in *.
      - destruct (eval_pos rho p) as [x|] eqn:E1; [|discriminate]. destruct (eval_kw rho k) as [y|] eqn:E2; [|discriminate]. injection H as -> ->.
        destruct (eval_positional rho (at_log s log) p pos HP (at_log_holds _ _ log HA) HN E1) as (w & Ew & Pw).
        destruct (eval_some rho (at_log s log) k kw HP (at_log_holds _ _ log HA) HN E2) as (i & ds & Ek & N).
        eexists. split; [|rewrite (F _ _ _ prim_call_method), evals_cons, Ew, andthen_val, evals_cons, Ek, andthen_val, evals_nil; cbn [apply_prim]; rewrite Pw; cbn [dict_at dicts]; rewrite N; reflexivity].
        reflexivity.
      - destruct (eval_pos rho p) as [x|] eqn:E1; [|discriminate]. injection H as -> <-.
        destruct (eval_positional rho (at_log s log) p pos HP (at_log_holds _ _ log HA) HN E1) as (w & Ew & Pw).
        exists (at_log s log). split; [reflexivity|]. rewrite (F _ _ _ prim_call_method1), evals_cons, Ew, andthen_val, evals_nil. cbn [apply_prim]. now rewrite Pw.
      - injection H as <- <-. exists (at_log s log). split; [reflexivity|]. now rewrite (F _ _ _ prim_call_method0).
    Qed.
    Lemma set_asks : forall n x w v, lookup_var s x = Some w -> object_of w = Some v ->
      asking (app_of "::pyo3::types::PyAnyMethods::setattr" [any_of (disp_ast d); interned py n; Proof_Ast.var x] false) s r (fun _ => VUnit) (fun o => OSet o n v).
    Proof.
      intros n x w v Hx Hw. pose proof HD as Y. destruct r as [[o|] log]; unfold asking.
      2:{ exact (raised_app _ _ _ _ _ _ Y prim_setattr). }
      exists (at_log s log). split; [reflexivity|]. rewrite (found_app _ _ _ _ _ _ _ Y prim_setattr).
      rewrite evals_cons, eval_known by exact HP. rewrite andthen_val, evals_cons, eval_var. change (lookup_var (at_log s log) x) with (lookup_var s x).
      rewrite Hx, andthen_val, evals_nil. cbn [apply_prim]. now rewrite Hw.
    Qed.
  End call.
  Lemma get_asks : forall s d r e n, yields (disp_ast d) s r -> (forall log, eval e (at_log s log) = Some (Val VPy, at_log s log)) ->
    asking (app_of "::pyo3::types::PyAnyMethods::getattr" [any_of (disp_ast d); interned e n] false) s r VObj (fun o => OGet o n).
  Proof.
    intros s d r e n HD He. destruct r as [[o|] log]; unfold asking.
    2:{ exact (raised_app _ _ _ _ _ _ HD prim_getattr). }
    exists (at_log s log). split; [reflexivity|]. rewrite (found_app _ _ _ _ _ _ _ HD prim_getattr). rewrite evals_cons, eval_interned, He. reflexivity.
  Qed.

  Definition finish (r : option (ctl V * state)) : option (result V * list (op V)) :=
    match r with
    | Some (Raise, s) | Some (Val VErr, s) => Some (Raised, asked s)
    | Some (Val (VExtract v), s) => Some (Extracted v, asked s)
    | Some (Val (VOk VUnit), s) => Some (Finished, asked s)
    | _ => None
    end.
  Lemma finish_extract : forall e s r o, asking e s r VObj o ->
    finish (eval (extract e) s) = Some (match r with (Some v, log) => match perform answer (o v) log with (Some w, log2) => (Extracted w, log2) | (None, log2) => (Raised, log2) end | (None, log) => (Raised, log) end).
  Proof.
    intros e s [[v|] log] o H; unfold asking in H.
    - destruct H as (s' & Ha & E). unfold extract. rewrite (eval_app _ _ _ _ _ prim_extract), evals_cons, eval_ref, eval_try, E. unfold ask, perform. rewrite Ha.
      destruct (answer log (o v)); reflexivity.
    - unfold extract. rewrite (eval_app _ _ _ _ _ prim_extract), evals_cons, eval_ref, eval_try, H. reflexivity.
  Qed.
  Lemma finish_set : forall e s r o, asking e s r (fun _ => VUnit) o ->
    finish (eval e s) = Some (match r with (Some v, log) => match perform answer (o v) log with (Some w, log2) => (Finished, log2) | (None, log2) => (Raised, log2) end | (None, log) => (Raised, log) end).
  Proof.
    intros e s [[v|] log] o H; unfold asking in H.
    - destruct H as (s' & Ha & E). rewrite E. unfold ask, perform. rewrite Ha. destruct (answer log (o v)); reflexivity.
    - now rewrite H.
  Qed.

  (** ** Whole functions *)
  Definition recv (self : option V) : val V := match self with Some o => VObj o | None => VPy end.
  Lemma lookup_args : forall names (l : list (rarg V)) x a ds log, NoDup names -> In (x, a) (combine names l) ->
    lookup_var (mk_state (combine names (map (pair false) (map VGiven l))) ds log) x = Some (VGiven a).
  Proof.
    induction names as [|y names IH]; intros [|b l] x a ds log Hn Hi; try destruct Hi as [].
    - injection H as -> ->. unfold lookup_var. cbn [map combine vars find fst snd]. now rewrite str_eqb_refl.
    - inversion Hn as [|z n' Hy Hn']. subst. unfold lookup_var. cbn [map combine vars find fst snd]. destruct (str_eqb y x) eqn:E.
      + apply str_eqb_eq in E. subst y. destruct Hy. exact (in_combine_l _ _ _ _ H).
      + exact (IH l x a ds log Hn' H).
  Qed.
  Lemma call_env_length : forall ps (l : list (rarg V)) rho, call_env ps l = Some rho -> length l = length ps /\ map fst rho = map fst ps.
  Proof.
    induction ps as [|[x p] ps IH]; intros [|a l] rho H; try discriminate; cbn [call_env] in H; [injection H as <-; now split|].
    destruct (prepared p a); [|discriminate]. destruct (call_env ps l) as [rho'|] eqn:E; [|discriminate]. injection H as <-. destruct (IH l rho' E) as [H1 H2]. cbn [length map fst]. split; congruence.
  Qed.
  Lemma run_fn : forall d self l log r, let k := f_contract d in
    match self with Some _ => true | None => false end = k_self k -> (f_disp d = DSelf -> k_self k = true) -> (f_let_py d = true -> k_self k = true) ->
    (Spec_Check.needs_py d = true -> Spec_Check.has_py d = true) ->
    map fst (f_prep d) = map fst (k_params k) -> NoDup (map fst (k_params k)) -> (forall x, In x (map fst (k_params k)) -> ~ In x Spec_Check.own_names) ->
    match f_body d with BGet _ => k_params k = [] | BSet _ v => map fst (k_params k) = [v] | _ => True end ->
    does answer d self l log = Some r -> run answer (fn_syntax d) (recv self :: map VGiven l) log = Some r.
  Proof.
    intros d self l log r k Hself Hdisp Hlet Hpy Hnames Hdup Hown Hbody H.
    assert (RHO : exists rho, call_env (f_prep d) l = Some rho /\ match f_body d with BGet _ => True | BSet _ v => exists o, l = [AOne o] /\ rho = [(v, VOne o)] | BCall a | BCallMethod _ a => exists pos kw, eval_args rho a = Some (pos, kw) end).
    { unfold does in H. destruct (f_body d) as [a|m a|n|n v] eqn:Eb.
      - destruct (python_call d l) as [[pos kw]|] eqn:E; [|discriminate]. unfold python_call in E. destruct (call_env (f_prep d) l) as [rho|]; [|discriminate]. rewrite Eb in E. cbn [body_args] in E. eauto.
      - destruct (python_call d l) as [[pos kw]|] eqn:E; [|discriminate]. unfold python_call in E. destruct (call_env (f_prep d) l) as [rho|]; [|discriminate]. rewrite Eb in E. cbn [body_args] in E. eauto.
      - destruct l; [|discriminate]. rewrite Hbody in Hnames. destruct (f_prep d); [|discriminate]. exists []. now split.
      - destruct l as [|[o|t|q] [|b l]]; try discriminate. rewrite Hbody in Hnames. destruct (f_prep d) as [|[x p] [|]]; try discriminate. injection Hnames as ->. exists [(v, VOne o)]. split; [reflexivity|]. now exists o. }
    destruct RHO as (rho & Henv & Hrho). destruct (call_env_length _ _ _ Henv) as [Hlen Hkeys].
    assert (LEN : length l = length (k_params k)) by (rewrite Hlen, <- (map_length fst), Hnames; apply map_length).
    set (names := map fst (k_params k)) in *. set (base := combine names (map (pair false) (map VGiven l))).
    set (rn := if k_self k then u "self" else u "py"). set (s0 := mk_state ((rn, (false, recv self)) :: base) [] log).
    assert (RUN : run answer (fn_syntax d) (recv self :: map VGiven l) log = finish (eval (fn_ast d) s0)).
    { unfold run. cbn [fn_syntax r_params shown_params r_body length map combine fst]. rewrite !map_length. fold k. rewrite LEN, Nat.eqb_refl. unfold finish.
      replace (map fst (map (fun p => (fst p, ty_tokens (snd p))) (k_params k))) with names by (unfold names; rewrite map_map; reflexivity).
      replace (fst (receiver k)) with rn by (unfold receiver, rn; now destruct (k_self k)). reflexivity. }
    rewrite RUN. clear RUN.
    assert (OWN : forall x, In x names -> x <> u "self" /\ x <> u "py" /\ x <> args_name /\ x <> kwargs_name /\ x <> arg_name).
    { intros x Hx. repeat split; intros ->; apply (Hown _ Hx); unfold Spec_Check.own_names; cbn [map]; [left; reflexivity|right; left; reflexivity|right; right; left; reflexivity|right; right; right; left; reflexivity|right; right; right; right; left; reflexivity]. }
    (* after [let py = self.py();] *)
    set (body := fold_right prep_ast (body_ast (f_disp d) (f_body d)) (f_prep d)).
    assert (S1 : exists s1, eval (fn_ast d) s0 = eval body s1 /\ asked s1 = log /\ (Spec_Check.has_py d = true -> has_py s1) /\ self_ok self s1 /\
      forall x a, In (x, a) (combine names l) -> lookup_var s1 x = Some (VGiven a)).
    { assert (A0 : forall x a, In (x, a) (combine names l) -> lookup_var s0 x = Some (VGiven a)).
      { intros x a Hi. destruct (OWN x (in_combine_l _ _ _ _ Hi)) as (O1 & O2 & _). change s0 with (push false rn (recv self) (mk_state base [] log)). rewrite lookup_other; [now apply lookup_args|].
        unfold rn. destruct (k_self k); intros E; [now apply O1|now apply O2]. }
      assert (B0 : self_ok self s0).
      { destruct self as [o|]; [|exact I]. unfold self_ok, s0, rn. rewrite <- Hself. reflexivity. }
      unfold fn_ast. fold body. destruct (f_let_py d) eqn:El.
      - specialize (Hlet eq_refl). rewrite Hlet in Hself. destruct self as [o|]; [|discriminate]. exists (push false (u "py") VPy s0). split; [|split; [reflexivity|split; [intros _; apply lookup_same|split]]].
        + rewrite eval_let. unfold self_py. rewrite eval_method0, eval_var, B0. reflexivity.
        + cbn [self_ok]. rewrite lookup_other; [exact B0|discriminate].
        + intros x a Hi. destruct (OWN x (in_combine_l _ _ _ _ Hi)) as (_ & O2 & _). rewrite lookup_other; [now apply A0|]. intros E. now apply O2.
      - exists s0. split; [reflexivity|]. split; [reflexivity|]. split; [|split; [exact B0|exact A0]].
        unfold Spec_Check.has_py. fold k. rewrite El, orb_false_r. intros E. apply negb_true_iff in E. unfold has_py, s0, rn. rewrite E in *. destruct self; [discriminate|]. reflexivity. }
    destruct S1 as (s1 & -> & Hasked & Hp1 & Hs1 & Ha1). unfold body. clear body.
    destruct (preps_run (f_prep d) l rho s1 (body_ast (f_disp d) (f_body d)) Henv) as (s2 & -> & L2 & H2).
    { now rewrite Hnames. }
    { intros x Hx. rewrite Hnames in Hx. now apply OWN. }
    { intros E. apply Hp1, Hpy. unfold Spec_Check.needs_py. now destruct (f_body d), (f_disp d). }
    { rewrite Hnames. exact Ha1. }
    rewrite Hnames in L2. destruct L2 as (A2 & _ & V2).
    assert (P2 : Spec_Check.needs_py d = true -> has_py s2).
    { intros E. unfold has_py. rewrite V2; [apply Hp1, Hpy, E|]. intros K. now destruct (OWN _ K) as (_ & K' & _). }
    assert (Self2 : self_ok self s2).
    { destruct self as [o|]; [|exact I]. cbn [self_ok] in *. rewrite V2; [exact Hs1|]. intros K. now destruct (OWN _ K) as (K' & _). }
    assert (NO : no_own rho).
    { intros x q Hx. apply (in_map fst) in Hx. rewrite Hkeys, Hnames in Hx. now destruct (OWN _ Hx) as (_ & O). }
    assert (Y : yields (disp_ast (f_disp d)) s2 (fetch answer self (f_disp d) log)).
    { rewrite <- Hasked, <- A2. apply fetch_yields; [|intros E; apply P2|exact Self2].
      - intros E. rewrite (Hdisp E) in Hself. destruct self; [discriminate|]. discriminate Hself.
      - unfold Spec_Check.needs_py. now destruct (f_body d), (f_disp d). }
    unfold does in H. unfold inquire in H. destruct (f_body d) as [a|m a|n|n v] eqn:Eb; cbn [body_ast].
    - destruct Hrho as (pos & kw & Ea). unfold python_call in H. rewrite Henv, Eb in H. cbn [body_args] in H. rewrite Ea in H. rewrite <- H.
      apply (finish_extract _ s2 (fetch answer self (f_disp d) log) (fun o => OCall o pos kw)). apply (call_asks rho); [exact Y|exact H2|exact NO|apply P2; unfold Spec_Check.needs_py; now rewrite Eb|exact Ea].
    - destruct Hrho as (pos & kw & Ea). unfold python_call in H. rewrite Henv, Eb in H. cbn [body_args] in H. rewrite Ea in H. rewrite <- H.
      apply (finish_extract _ s2 (fetch answer self (f_disp d) log) (fun o => OMethod o m pos kw)). apply (call_method_asks rho); [exact Y|exact H2|exact NO|apply P2; unfold Spec_Check.needs_py; now rewrite Eb|exact Ea].
    - destruct l; [|discriminate]. rewrite <- H.
      apply (finish_extract _ s2 (fetch answer self (f_disp d) log) (fun o => OGet o n)). apply get_asks; [exact Y|]. intros lg. destruct (f_disp d) eqn:Ed.
      + rewrite (Hdisp eq_refl) in Hself. destruct self as [o|]; [|discriminate]. unfold self_py. rewrite eval_method0, eval_var. change (lookup_var (at_log s2 lg) (u "self")) with (lookup_var s2 (u "self")). now rewrite Self2.
      + apply eval_py. apply P2. unfold Spec_Check.needs_py. now rewrite Eb, Ed.
    - destruct Hrho as (o & -> & ->). rewrite <- H.
      destruct (H2 v (VOne o) (or_introl eq_refl)) as (w & Hw & Hv).
      apply (finish_set _ s2 (fetch answer self (f_disp d) log) (fun x => OSet x n o)). refine (set_asks s2 (f_disp d) _ Y _ n v w o Hw Hv). apply P2. unfold Spec_Check.needs_py. now rewrite Eb.
  Qed.
End run.
