(** * Lemmas: the syntax of the generated functions (C70) *)
From Verif Require Import Base Spec_Lex Spec_Call Spec_Code Model_Ident Model_Path Model_Import Model_Type Model_IntoRs Model_Token Model_Out Model_Print
  Proof_Base Proof_Code.

(** ** Types *)
Fixpoint rty_size (t : rty) : nat :=
  match t with
  | RName _ | RLocal _ => 1
  | RVec t | RSlice t | RRef t | RBound t => S (rty_size t)
  | RTup l | RAbs _ l | RImpl _ l => S (fold_right (fun a n => rty_size a + n) 0 l)
  end.
Lemma rty_size_In : forall l a, In a l -> rty_size a <= fold_right (fun a n => rty_size a + n) 0 l.
Proof. induction l as [|b l IH]; intros a H; [destruct H|]. cbn [fold_right]. destruct H as [<- | H]; [|apply IH in H]; lia. Qed.
Section types.
  Variable stop : tok -> bool.
  Hypothesis stop_word : forall s, stop (TWord s) = false.
  Hypothesis stop_punct : forall c j, In c (map ch [":"; "&"; "<"]%char) -> stop (TPunct c j) = false.
  Hypothesis stop_paren : stop (TOpen Paren) = false.
  Hypothesis stop_bracket : stop (TOpen Bracket) = false.
  Lemma skips_word : forall s, skips stop (word s).
  Proof. intros s. apply skips_tok; [apply stop_word|reflexivity|reflexivity]. Qed.
  Lemma skips_colons : skips stop (rs "::").
  Proof.
    change (rs "::") with ([TPunct (ch ":") true] ++ [TPunct (ch ":") false]).
    apply skips_app; (apply skips_tok; [apply stop_punct; now left|reflexivity|reflexivity]).
  Qed.
  Lemma skips_each : forall {A} (f : A -> list tok) l, (forall x, skips stop (f x)) -> skips stop (each f l).
  Proof. intros A f l H. induction l as [|x l IH]; [apply skips_nil|]. cbn [each flat_map]. now apply skips_app. Qed.
  Lemma skips_abs : forall p, skips stop (abs_path p).
  Proof. intros p. apply skips_each. intros s. apply skips_app; [apply skips_colons|apply skips_word]. Qed.
  Lemma inner_sep : forall l, (forall x, In x l -> inner stop x) -> inner stop (sep_by comma l).
  Proof.
    induction l as [|x [|y l] IH]; intros H; [apply skips_inner, skips_nil|apply H; now left|].
    change (sep_by comma (x :: y :: l)) with (x ++ comma ++ sep_by comma (y :: l)). apply inner_app; [apply H; now left|]. apply inner_app; [|apply IH; intros z Hz; apply H; now right].
    now apply inner_tok.
  Qed.
  Lemma skips_angle : forall l, inner stop l -> skips stop (rs "<" ++ l ++ rs ">").
  Proof.
    intros l H. change (rs "<" ++ l ++ rs ">") with (TPunct (ch "<") false :: l ++ [TPunct (ch ">") false]).
    apply skips_group; try reflexivity; [|exact H]. apply stop_punct. right. right. now left.
  Qed.
  Lemma skips_args : forall l, (forall x, In x l -> skips stop (ty_tokens x)) ->
    skips stop (match l with [] => [] | _ => rs "<" ++ sep_by comma (map ty_tokens l) ++ rs ">" end).
  Proof.
    intros l H. assert (K : inner stop (sep_by comma (map ty_tokens l))).
    { apply inner_sep. intros x Hx. apply in_map_iff in Hx as (a & <- & Ha). now apply skips_inner, H. }
    destruct l; [apply skips_nil|]. now apply skips_angle.
  Qed.
  Lemma skips_ty : forall t, skips stop (ty_tokens t).
  Proof.
    assert (K : forall n t, rty_size t <= n -> skips stop (ty_tokens t)).
    { induction n as [n IH] using (well_founded_induction lt_wf). intros t Ht.
      assert (SUB : forall a, rty_size a < rty_size t -> skips stop (ty_tokens a)) by (intros a Ha; exact (IH (rty_size a) ltac:(lia) a (le_n _))).
      clear IH Ht. destruct t as [s|t|t|t|l|p l|t|p|p l]; cbn [rty_size] in SUB; cbn [ty_tokens].
      - apply skips_word.
      - change (rs "Vec<" ++ ty_tokens t ++ rs ">") with (word (u "Vec") ++ rs "<" ++ ty_tokens t ++ rs ">").
        apply skips_app; [apply skips_word|]. apply skips_angle, skips_inner, SUB. lia.
      - change (rs "[" ++ ty_tokens t ++ rs "]") with (TOpen Bracket :: ty_tokens t ++ [TClose Bracket]).
        apply skips_group; try reflexivity; [exact stop_bracket|]. apply skips_inner, SUB. lia.
      - apply skips_app; [|apply SUB; lia]. apply skips_tok; [apply stop_punct; right; now left|reflexivity|reflexivity].
      - change (rs "(" ++ sep_by comma (map ty_tokens l) ++ rs ")") with (TOpen Paren :: sep_by comma (map ty_tokens l) ++ [TClose Paren]).
        apply skips_group; try reflexivity; [exact stop_paren|]. apply inner_sep. intros x Hx. apply in_map_iff in Hx as (a & <- & Ha).
        apply skips_inner, SUB. pose proof (rty_size_In l a Ha). lia.
      - apply skips_app; [apply skips_abs|]. apply skips_args. intros a Ha. apply SUB. pose proof (rty_size_In l a Ha). lia.
      - replace (rs "::pyo3::Bound<'py, " ++ ty_tokens t ++ trailing t ++ rs ">")
          with (abs_path [u "pyo3"; u "Bound"] ++ rs "<" ++ ((rs "'py," ++ ty_tokens t ++ trailing t) ++ rs ">")) by (rewrite <- !app_assoc; reflexivity).
        apply skips_app; [apply skips_abs|]. apply skips_angle. apply inner_app; [|apply inner_app].
        + change (rs "'py,") with ([TPunct (ch "'") true] ++ [TWord (u "py")] ++ [TPunct (ch ",") false]).
          apply inner_app; [|apply inner_app]; now apply inner_tok.
        + apply skips_inner, SUB. lia.
        + destruct t as [| | | | |q [|a [|b [|]]]| | |]; try apply skips_inner, skips_nil. now apply inner_tok.
      - apply skips_app; [destruct (leading_colon p); [apply skips_colons|apply skips_nil]|]. unfold local_path.
        induction (segs p) as [|x [|y l] IH]; [apply skips_nil|apply skips_word|].
        change (sep_by (rs "::") (map word (x :: y :: l))) with (word x ++ rs "::" ++ sep_by (rs "::") (map word (y :: l))).
        apply skips_app; [apply skips_word|]. apply skips_app; [apply skips_colons|exact IH].
      - assert (D : skips stop (rs "impl" ++ abs_path p ++ match l with [] => [] | _ => rs "<" ++ sep_by comma (map ty_tokens l) ++ rs ">" end)).
        { apply skips_app; [exact (skips_word (u "impl"))|]. apply skips_app; [apply skips_abs|]. apply skips_args. intros a Ha. apply SUB. pose proof (rty_size_In l a Ha). lia. }
        destruct l as [|[s|t|t|t|k|q [|t [|t' k]]|t|p'|p' k] [|b l]]; try exact D. clear D.
        change (rs "impl" ++ abs_path p ++ rs "<" ++ abs_path q ++ rs "<" ++ ty_tokens t ++ rs ">>")
          with (word (u "impl") ++ abs_path p ++ rs "<" ++ abs_path q ++ rs "<" ++ ty_tokens t ++ ([TPunct (ch ">") true] ++ [TPunct (ch ">") false])).
        replace (word (u "impl") ++ abs_path p ++ rs "<" ++ abs_path q ++ rs "<" ++ ty_tokens t ++ ([TPunct (ch ">") true] ++ [TPunct (ch ">") false]))
          with (word (u "impl") ++ abs_path p ++ (rs "<" ++ (abs_path q ++ (TPunct (ch "<") false :: ty_tokens t ++ [TPunct (ch ">") true])) ++ rs ">"))
          by (change (rs ">") with [TPunct (ch ">") false]; change (rs "<") with [TPunct (ch "<") false]; repeat (rewrite <- app_assoc || cbn [app]); reflexivity).
        apply skips_app; [apply skips_word|]. apply skips_app; [apply skips_abs|]. apply skips_angle, skips_inner, skips_app; [apply skips_abs|].
        apply skips_group; try reflexivity; [apply stop_punct; right; right; now left|]. apply skips_inner, SUB. cbn [rty_size fold_right]. lia. }
    intros t. exact (K _ t (le_n _)).
  Qed.
End types.
Lemma type_param : forall t, skips ends_param (ty_tokens t).
Proof. intros t. apply skips_ty; try reflexivity. intros c j H. repeat (destruct H as [<- | H]; [reflexivity|]). destruct H. Qed.

(** ** Signatures *)
Definition receiver (k : contract) : str * list tok := if k_self k then (u "self", rs "&'py") else (u "py", rs "::pyo3::marker::Python<'py>").
Definition shown_params (k : contract) : list (str * list tok) := receiver k :: map (fun p => (fst p, ty_tokens (snd p))) (k_params k).
Definition ret_type (r : ret) : list tok :=
  match r with
  | RetType t => rs "::pyo3::PyResult<" ++ ty_tokens t ++ rs ">"
  | RetSelf => rs "::pyo3::PyResult<::pyo3::Bound<'py, Self>>"
  | RetUnit => rs "::pyo3::PyResult<()>"
  end.
Lemma param_more : forall n x t (l : list tok), p_params (S n) (param_tokens (x, t) ++ l) =
  match p_type ends_param 0 (ty_tokens t ++ l) with
  | Some (ty, t0 :: r') => if closing Paren t0 then Some ([(x, ty)], r') else match p_params n r' with Some (ps, r2) => Some ((x, ty) :: ps, r2) | None => None end
  | _ => None
  end.
Proof.
  intros n x t l. unfold param_tokens. cbn [fst snd]. rewrite <- !app_assoc. change (rs ":") with [TPunct (ch ":") false]. cbn [word app p_params closing punct].
  rewrite N.eqb_refl. destruct (p_type ends_param 0 (ty_tokens t ++ l)) as [[ty [|t0 r']]|]; reflexivity.
Qed.
Lemma params_read : forall ps n r (c : bool), (c = true -> ps <> []) -> length ps < n ->
  p_params n (sep_by comma (map param_tokens ps) ++ (if c then comma else []) ++ TClose Paren :: r) = Some (map (fun p => (fst p, ty_tokens (snd p))) ps, r).
Proof.
  induction ps as [|[x t] ps IH]; intros n r c Hc Hn.
  - destruct c; [now destruct (Hc eq_refl)|]. destruct n as [|n]; [lia|]. reflexivity.
  - cbn [length] in Hn. destruct n as [|n]; [lia|]. destruct ps as [|q ps].
    + cbn [map sep_by]. rewrite param_more. destruct c; cbn [app comma].
      * rewrite p_type_ends; [|apply type_param|reflexivity]. destruct n as [|n]; [cbn in Hn; lia|]. reflexivity.
      * rewrite p_type_ends; [|apply type_param|reflexivity]. reflexivity.
    + change (sep_by comma (map param_tokens ((x, t) :: q :: ps))) with (param_tokens (x, t) ++ comma ++ sep_by comma (map param_tokens (q :: ps))).
      rewrite <- !app_assoc, param_more. cbn [comma app]. rewrite p_type_ends; [|apply type_param|reflexivity].
      change (closing Paren (TPunct c_comma false)) with false. cbn iota. fold comma. rewrite (IH n r c ltac:(discriminate) ltac:(lia)). reflexivity.
Qed.
Lemma ret_skips : forall stop, stop = opens_block \/ stop = punct ";" -> forall r, skips stop (ret_type r).
Proof.
  intros stop Hs.
  assert (W : forall s, stop (TWord s) = false) by (destruct Hs as [-> | ->]; reflexivity).
  assert (P : forall c j, In c (map ch [":"; "&"; "<"]%char) -> stop (TPunct c j) = false).
  { intros c j H. repeat (destruct H as [<- | H]; [destruct Hs as [-> | ->]; reflexivity|]). destruct H. }
  assert (Po : stop (TOpen Paren) = false) by (destruct Hs as [-> | ->]; reflexivity).
  assert (Bo : stop (TOpen Bracket) = false) by (destruct Hs as [-> | ->]; reflexivity).
  assert (Lt : stop (TPunct (ch "<") false) = false) by (apply P; right; right; now left).
  intros [t| |]; unfold ret_type.
  - change (rs "::pyo3::PyResult<" ++ ty_tokens t ++ rs ">") with (abs_path [u "pyo3"; u "PyResult"] ++ rs "<" ++ ty_tokens t ++ rs ">").
    apply skips_app; [now apply skips_abs|]. apply skips_angle; [exact P|]. now apply skips_inner, skips_ty.
  - intros d r. change (rs "::pyo3::PyResult<::pyo3::Bound<'py, Self>>") with
      (abs_path [u "pyo3"; u "PyResult"] ++ (TPunct (ch "<") false :: (abs_path [u "pyo3"; u "Bound"] ++ (TPunct (ch "<") false :: rs "'py, Self" ++ [TPunct (ch ">") true])) ++ [TPunct (ch ">") false])).
    revert d r. apply skips_app; [now apply skips_abs|]. apply skips_group; try reflexivity; try assumption. apply inner_app; [now apply skips_inner, skips_abs|]. apply skips_inner, skips_group; try reflexivity; try assumption.
    change (rs "'py, Self") with ([TPunct (ch "'") true] ++ [TWord (u "py")] ++ [TPunct (ch ",") false] ++ [TWord (u "Self")]). repeat apply inner_app; now apply inner_tok.
  - intros d r. change (rs "::pyo3::PyResult<()>") with (abs_path [u "pyo3"; u "PyResult"] ++ (TPunct (ch "<") false :: (TOpen Paren :: [] ++ [TClose Paren]) ++ [TPunct (ch ">") false])).
    revert d r. apply skips_app; [now apply skips_abs|]. apply skips_group; try reflexivity; try assumption. apply skips_inner, skips_group; try reflexivity; try assumption. apply skips_inner, skips_nil.
Qed.
Definition py_type_tokens : list tok := rs "::pyo3::marker::Python<'py>".
Lemma py_type_skips : skips ends_param py_type_tokens.
Proof.
  change py_type_tokens with (abs_path [u "pyo3"; u "marker"; u "Python"] ++ rs "<" ++ rs "'py" ++ rs ">").
  assert (W : forall s, ends_param (TWord s) = false) by reflexivity.
  assert (P : forall c j, In c (map ch [":"; "&"; "<"]%char) -> ends_param (TPunct c j) = false).
  { intros c j H. repeat (destruct H as [<- | H]; [reflexivity|]). destruct H. }
  apply skips_app; [now apply skips_abs|]. apply skips_angle; [exact P|]. change (rs "'py") with ([TPunct (ch "'") true] ++ [TWord (u "py")]). apply inner_app; now apply inner_tok.
Qed.
Lemma all_params_read : forall k n r, (k_ret k = RetUnit -> k_params k <> []) -> S (length (k_params k)) < n ->
  p_params n ((if k_self k then rs "&'py self," else rs "py: ::pyo3::marker::Python<'py>,")
    ++ sep_by comma (map param_tokens (k_params k)) ++ (match k_ret k with RetUnit => comma | _ => [] end) ++ TClose Paren :: r) = Some (shown_params k, r).
Proof.
  intros k n r Hu Hn. destruct n as [|n]; [lia|].
  assert (P := params_read (k_params k) n r (match k_ret k with RetUnit => true | _ => false end)).
  replace (if match k_ret k with RetUnit => true | _ => false end then comma else []) with (match k_ret k with RetUnit => comma | _ => [] end) in P by now destruct (k_ret k).
  specialize (P ltac:(destruct (k_ret k); [discriminate|discriminate|auto]) ltac:(lia)). revert P.
  generalize (sep_by comma (map param_tokens (k_params k)) ++ (match k_ret k with RetUnit => comma | _ => [] end) ++ TClose Paren :: r). intros l P. unfold shown_params, receiver.
  destruct (k_self k).
  - change (rs "&'py self," ++ l) with ([TPunct (ch "&") false; TPunct (ch "'") true; TWord (u "py"); TWord (u "self"); TPunct (ch ",") false] ++ l). cbn [app p_params closing punct].
    rewrite N.eqb_refl. change (str_eqb (u "self") (u "self")) with true. cbn iota. rewrite P. reflexivity.
  - change (rs "py: ::pyo3::marker::Python<'py>,") with (TWord (u "py") :: TPunct (ch ":") false :: py_type_tokens ++ [TPunct (ch ",") false]). cbn [app p_params closing punct].
    rewrite N.eqb_refl. rewrite <- app_assoc. cbn [app]. rewrite p_type_ends; [|exact py_type_skips|reflexivity]. cbn [closing]. rewrite P. reflexivity.
Qed.
Lemma sep_long : forall l, length l <= length (sep_by comma (map param_tokens l)).
Proof.
  induction l as [|a [|b l] IH]; [cbn; lia|cbn [map sep_by]; unfold param_tokens; rewrite !app_length; cbn [word length]; lia|].
  change (sep_by comma (map param_tokens (a :: b :: l))) with (param_tokens a ++ comma ++ sep_by comma (map param_tokens (b :: l))).
  rewrite !app_length. cbn [length comma] in *. lia.
Qed.
Lemma head_read : forall stop t k rest, stop = opens_block \/ stop = punct ";" -> stop t = true -> (k_ret k = RetUnit -> k_params k <> []) ->
  p_head stop (contract_tokens k ++ t :: rest) = Some (mk_rfn (k_name k) (shown_params k) (ret_type (k_ret k)) EEnd, rest).
Proof.
  intros stop t k rest Hs Ht Hu. unfold contract_tokens. repeat rewrite <- app_assoc.
  change (rs "fn") with [TWord (u "fn")]. change (rs "<'py>(") with [TPunct (ch "<") false; TPunct (ch "'") true; TWord (u "py"); TPunct (ch ">") false; TOpen Paren].
  change (rs ")") with [TClose Paren].
  replace (ret_tokens (k_ret k)) with (TPunct (ch "-") true :: TPunct (ch ">") false :: ret_type (k_ret k)) by now destruct (k_ret k).
  cbn [word app]. set (q := (if k_self k then rs "&'py self," else rs "py: ::pyo3::marker::Python<'py>,")).
  set (ps := sep_by comma (map param_tokens (k_params k))). set (c := match k_ret k with RetUnit => comma | _ => [] end).
  set (tail := TPunct (ch "-") true :: TPunct (ch ">") false :: ret_type (k_ret k) ++ t :: rest).
  unfold p_head. change (keyword "fn" (TWord (u "fn"))) with true. change (punct "<" (TPunct (ch "<") false)) with true. change (punct "'" (TPunct (ch "'") true)) with true.
  change (punct ">" (TPunct (ch ">") false)) with true. cbn [andb].
  assert (P : p_params (length (q ++ ps ++ c ++ TClose Paren :: tail)) (q ++ ps ++ c ++ TClose Paren :: tail) = Some (shown_params k, tail)).
  { apply all_params_read; [exact Hu|]. rewrite !app_length. cbn [length]. pose proof (sep_long (k_params k)). fold ps in H. enough (2 <= length q) by lia. subst q. destruct (k_self k); vm_compute; lia. }
  rewrite P. clear P. unfold tail at 1. change (punct "-" (TPunct (ch "-") true)) with true. cbn [andb].
  rewrite (p_type_ends stop (ret_type (k_ret k)) t rest (ret_skips stop Hs _) Ht). reflexivity.
Qed.
Lemma fn_read : forall k b rest, wf Blk b -> (k_ret k = RetUnit -> k_params k <> []) ->
  p_fn (contract_tokens k ++ rs "{" ++ show b ++ rs "}" ++ rest) = Some (mk_rfn (k_name k) (shown_params k) (ret_type (k_ret k)) b, rest).
Proof.
  intros k b rest Wb Hu. change (rs "{") with [TOpen Brace]. change (rs "}") with [TClose Brace]. cbn [app]. unfold p_fn.
  rewrite (head_read opens_block (TOpen Brace) k _ (or_introl eq_refl) eq_refl Hu). cbn [r_name r_params r_ret].
  rewrite block_read; [reflexivity|exact Wb|]. pose proof (size_long (size b) b Blk (le_n _) Wb). rewrite app_length. cbn [length]. rewrite app_length. cbn [length]. lia.
Qed.

(** ** Bodies *)
Definition var (x : str) : expr := EPath [TWord x].
Definition app_of (s : string) (l : list expr) (c : bool) : expr := ECall (EPath (rs s)) l c.
Definition py : expr := var (u "py").
Definition interned (e : expr) (a : str) : expr := EMacro (rs "::pyo3::intern") [e; ELit a] false.
Definition args_name : str := u "__internal__args".
Definition arg_name : str := u "__internal__arg".
Definition kwargs_name : str := u "__internal__kwargs".

Definition prep_ast (e : ident * prep) (rest : expr) : expr :=
  let x := fst e in
  let into s := ELet false x (app_of s [var x; py] false) in
  match snd e with
  | PrepNone => rest
  | PrepIntoDict => into "::pyo3::types::IntoPyDict::into_py_dict_bound"%string rest
  | PrepIntoTuple => into "::pyo3::IntoPy::<::pyo3::Py<::pyo3::types::PyTuple>>::into_py"%string (ELet false x (EMethod (var x) (u "bind") [py] false) rest)
  | PrepIntoAny => into "::pyo3::IntoPy::<::pyo3::Py<::pyo3::types::PyAny>>::into_py"%string (ELet false x (EMethod (var x) (u "bind") [py] false) rest)
  | PrepOptDict => ELet false x (EIfLet (u "Some") x (var x) (app_of "::pyo3::types::IntoPyDict::into_py_dict_bound" [var x; py] false)
                                        (app_of "::pyo3::types::PyDict::new_bound" [py] false)) rest
  end.
Definition lookup_ast (l : lookup) : expr :=
  fold_left (fun acc a => ETry (app_of "::pyo3::types::PyAnyMethods::getattr" [EMethod acc (u "as_any") [] false; interned py a] false))
            (lk_attrs l) (ETry (EMethod py (u "import_bound") [interned py (lk_import l)] false)).
Definition disp_ast (d : disp) : expr := match d with DSelf => var (u "self") | DImport l => lookup_ast l end.
Definition object_ast (i : ident) : expr := app_of "::pyo3::ToPyObject::to_object" [ERef (var i); py] false.
Definition is_nil {A} (l : list A) : bool := match l with [] => true | _ => false end.
Definition array (l : list ident) : expr := EArray (map object_ast l) (negb (is_nil l)).
Definition new_tuple (e : expr) : expr := app_of "::pyo3::types::PyTuple::new_bound" [py; e] true.
Definition pos_ast (a : pos_args) : expr :=
  match a with
  | PAUnit => ETuple [] false
  | PAVar v => var v
  | PAFixed l => new_tuple (array l)
  | PABoth l v =>
      EBlock (ELet true args_name (app_of "Vec::with_capacity" [EAdd (ENum (dec (N.of_nat (length l)) ++ u "usize")) (app_of "::pyo3::types::PyTupleMethods::len" [var v] false)] false)
        (ESeq (EMethod (var args_name) (u "extend") [array l] false)
        (ESeq (EMethod (var args_name) (u "extend")
                 [EMethod (app_of "::pyo3::types::PyTupleMethods::iter" [var v] false) (u "map") [EClosure arg_name (object_ast arg_name)] false] false)
        (new_tuple (var args_name)))))
  end.
Definition items_ast (l : list (str * ident)) : expr :=
  fold_right (fun e r => ESeq (app_of "::pyo3::types::PyDictMethods::set_item" [ERef (var kwargs_name); interned py (fst e); var (snd e)] false) r) (var kwargs_name) l.
Definition new_dict_ast : expr := app_of "::pyo3::types::PyDict::new_bound" [py] false.
Definition kw_ast (k : kw_args) : expr :=
  match k with
  | KAVar v => var v
  | KABoth v l => EBlock (ELet false kwargs_name (var v) (items_ast l))
  | KANew => new_dict_ast
  | KAFixed l => EBlock (ELet false kwargs_name new_dict_ast (items_ast l))
  end.
Definition any_of (e : expr) : expr := EMethod e (u "as_any") [] false.
Definition some_kw (k : kw_args) : expr := app_of "Some" [ERef (kw_ast k)] false.
Definition call_ast (d : expr) (a : args) : expr :=
  match a with
  | ArgsBoth p k => app_of "::pyo3::types::PyAnyMethods::call" [any_of d; pos_ast p; some_kw k] false
  | ArgsPos p => app_of "::pyo3::types::PyAnyMethods::call1" [any_of d; pos_ast p] false
  | ArgsNone => app_of "::pyo3::types::PyAnyMethods::call0" [any_of d] false
  end.
Definition call_method_ast (d : expr) (m : str) (a : args) : expr :=
  match a with
  | ArgsBoth p k => app_of "::pyo3::types::PyAnyMethods::call_method" [any_of d; interned py m; pos_ast p; some_kw k] false
  | ArgsPos p => app_of "::pyo3::types::PyAnyMethods::call_method1" [any_of d; interned py m; pos_ast p] false
  | ArgsNone => app_of "::pyo3::types::PyAnyMethods::call_method0" [any_of d; interned py m] false
  end.
Definition self_py : expr := EMethod (var (u "self")) (u "py") [] false.
Definition extract (e : expr) : expr := app_of "::pyo3::types::PyAnyMethods::extract" [ERef (ETry e)] false.
Definition body_ast (d : disp) (b : body) : expr :=
  match b with
  | BCall a => extract (call_ast (disp_ast d) a)
  | BCallMethod m a => extract (call_method_ast (disp_ast d) m a)
  | BGet n => extract (app_of "::pyo3::types::PyAnyMethods::getattr" [any_of (disp_ast d); interned (match d with DSelf => self_py | DImport _ => py end) n] false)
  | BSet n v => app_of "::pyo3::types::PyAnyMethods::setattr" [any_of (disp_ast d); interned py n; var v] false
  end.
Definition fn_ast (f : fn_def) : expr :=
  let b := fold_right prep_ast (body_ast (f_disp f) (f_body f)) (f_prep f) in
  if f_let_py f then ELet false (u "py") self_py b else b.

Lemma show_objects : forall l, enum (map show (map object_ast l)) (negb (is_nil l)) = each object_tokens l.
Proof.
  intros [|x l]; [reflexivity|]. cbn [is_nil negb]. revert x. induction l as [|y l IH]; intros x.
  - unfold enum. cbn [map commas each flat_map]. rewrite app_nil_r. reflexivity.
  - specialize (IH y). unfold enum in *. change (commas (map show (map object_ast (x :: y :: l)))) with (show (object_ast x) ++ pt "," :: commas (map show (map object_ast (y :: l)))).
    rewrite <- app_assoc. cbn [app]. rewrite IH. reflexivity.
Qed.
Lemma show_array : forall l, show (array l) = rs "[" ++ each object_tokens l ++ rs "]".
Proof. intros l. unfold array. cbn [show]. rewrite show_objects. reflexivity. Qed.
Lemma show_pos : forall p, show (pos_ast p) = pos_tokens p.
Proof.
  intros [|v|l|l v]; cbn [pos_ast pos_tokens]; [reflexivity|reflexivity| |].
  - unfold new_tuple, app_of. cbn [show map]. rewrite show_array. unfold enum. cbn [commas]. repeat (rewrite <- app_assoc || cbn [app]). reflexivity.
  - cbn [show map app_of]. rewrite show_array. unfold enum. cbn [commas]. repeat (rewrite <- app_assoc || cbn [app]). reflexivity.
Qed.
Lemma show_items : forall l, show (items_ast l) = each item_tokens l ++ word kwargs_name.
Proof.
  induction l as [|e l IH]; [reflexivity|]. change (items_ast (e :: l)) with
    (ESeq (app_of "::pyo3::types::PyDictMethods::set_item" [ERef (var kwargs_name); interned py (fst e); var (snd e)] false) (items_ast l)).
  cbn [each flat_map]. rewrite <- app_assoc. fold (each item_tokens l). rewrite <- IH. cbn [show]. reflexivity.
Qed.
Lemma show_kw : forall k, show (kw_ast k) = kw_tokens k.
Proof.
  intros [v|v l| |l]; cbn [kw_ast kw_tokens]; [reflexivity| |reflexivity|].
  - cbn [show]. rewrite show_items. repeat (rewrite <- app_assoc || cbn [app]). reflexivity.
  - cbn [show]. rewrite show_items. repeat (rewrite <- app_assoc || cbn [app]). reflexivity.
Qed.
Lemma show_lookup : forall l, show (lookup_ast l) = lookup_tokens l.
Proof.
  intros [i attrs]. unfold lookup_ast, lookup_tokens. cbn [lk_attrs lk_import].
  assert (E : show (ETry (EMethod py (u "import_bound") [interned py i] false)) = rs "py.import_bound(::pyo3::intern!(py, " ++ lit i ++ rs "))?") by reflexivity.
  revert E. generalize (ETry (EMethod py (u "import_bound") [interned py i] false)) (rs "py.import_bound(::pyo3::intern!(py, " ++ lit i ++ rs "))?").
  induction attrs as [|a attrs IH]; intros e t E; [exact E|]. cbn [fold_left]. apply IH. cbn [show app_of map]. rewrite E. unfold enum. cbn [commas].
  repeat (rewrite <- app_assoc || cbn [app]). reflexivity.
Qed.
Lemma show_disp : forall d, show (disp_ast d) = disp_tokens d.
Proof. intros [|l]; [reflexivity|]. apply show_lookup. Qed.
Lemma show_call : forall d a, show (call_ast (disp_ast d) a) = call_tokens (disp_tokens d) a.
Proof.
  intros d [p k|p|]; cbn [call_ast call_tokens]; unfold app_of, any_of, some_kw, app_of; cbn [show map]; rewrite ?show_disp, ?show_pos, ?show_kw; unfold enum; cbn [commas];
    repeat (rewrite <- app_assoc || cbn [app]); reflexivity.
Qed.
Lemma show_call_method : forall d m a, show (call_method_ast (disp_ast d) m a) = call_method_tokens (disp_tokens d) m a.
Proof.
  intros d m [p k|p|]; cbn [call_method_ast call_method_tokens]; unfold app_of, any_of, some_kw, app_of; cbn [show map]; rewrite ?show_disp, ?show_pos, ?show_kw; unfold enum; cbn [commas];
    repeat (rewrite <- app_assoc || cbn [app]); reflexivity.
Qed.
Lemma show_body : forall d b, show (body_ast d b) = body_tokens d b.
Proof.
  intros d [a|m a|n|n v]; cbn [body_ast body_tokens]; unfold extract, app_of; cbn [show map]; rewrite ?show_call, ?show_call_method; unfold any_of; cbn [show map]; rewrite ?show_disp;
    unfold enum; cbn [commas]; try (destruct d; cbn [show]); repeat (rewrite <- app_assoc || cbn [app]); reflexivity.
Qed.
Lemma show_prep : forall e r, show (prep_ast e r) = prep_tokens e ++ show r.
Proof.
  intros [x p] r. destruct p; unfold prep_ast, prep_tokens; cbn [fst snd]; [reflexivity|..]; cbn [show map app_of]; unfold enum; cbn [commas]; repeat (rewrite <- app_assoc || cbn [app]); reflexivity.
Qed.
Lemma show_fn : forall f, fn_tokens f = contract_tokens (f_contract f) ++ rs "{" ++ show (fn_ast f) ++ rs "}".
Proof.
  intros f. unfold fn_tokens, fn_ast. do 2 f_equal.
  assert (E : show (fold_right prep_ast (body_ast (f_disp f) (f_body f)) (f_prep f)) = each prep_tokens (f_prep f) ++ body_tokens (f_disp f) (f_body f)).
  { induction (f_prep f) as [|e l IH]; [apply show_body|]. cbn [fold_right each flat_map]. rewrite show_prep, IH. now rewrite app_assoc. }
  destruct (f_let_py f); cbn [show]; rewrite E; repeat (rewrite <- app_assoc || cbn [app]); reflexivity.
Qed.

(** ** They can be read back *)
Definition good_name (x : str) : Prop := mem_str x (map u ["if"; "let"; "const"; "mut"]%string) = false.
Lemma good_path_var : forall x, good_name x -> path_ok [TWord x].
Proof.
  intros x H. apply good_path_ok. unfold good_path. cbn [path_run]. apply andb_true_intro. split; [|reflexivity]. cbn [starts_path]. apply negb_true_iff.
  destruct (mem_str x (map u ["if"; "let"; "const"]%string)) eqn:E; [|reflexivity]. apply mem_str_In in E. unfold good_name in H. apply not_true_iff_false in H. destruct H.
  apply mem_str_In. apply in_map_iff in E as (s & <- & E). apply in_map. destruct E as [<- | [<- | [<- | []]]]; cbn; auto 6.
Qed.
Lemma good_not_mut : forall x, good_name x -> x <> u "mut".
Proof. intros x H ->. discriminate. Qed.
Ltac closed_path := apply good_path_ok; vm_compute; reflexivity.
Lemma wf_py : forall k, wf k py.
Proof. intros k. closed_path. Qed.
Lemma wf_var : forall k x, good_name x -> wf k (var x).
Proof. intros k x H. now apply good_path_var. Qed.
Lemma wf_app : forall k s l c, good_path (rs s) = true -> wfs l -> no_lone l c -> wf k (app_of s l c).
Proof. intros k s l c Hs Hl Hc. cbn [app_of wf]. split; [now apply good_path_ok|]. split; assumption. Qed.
Lemma wf_interned : forall k e a, wf Ex e -> wf k (interned e a).
Proof. intros k e a H. cbn [interned wf]. split; [closed_path|]. split; [|discriminate]. cbn [fold_right wf]. auto. Qed.
Ltac wf_simple := cbn [wfs fold_right wf any_of]; repeat split; try (left; reflexivity); try (right; reflexivity); try discriminate; try closed_path; try exact I.
Lemma wf_lookup : forall l k, wf k (lookup_ast l).
Proof.
  intros [i attrs] k. unfold lookup_ast. cbn [lk_attrs lk_import].
  assert (W : wf Post (ETry (EMethod py (u "import_bound") [interned py i] false))).
  { cbn [wf fold_right]. split; [apply wf_py|]. split; [|discriminate]. split; [|exact I]. apply wf_interned, wf_py. }
  assert (K : wf Post (fold_left (fun acc a => ETry (app_of "::pyo3::types::PyAnyMethods::getattr" [EMethod acc (u "as_any") [] false; interned py a] false)) attrs
    (ETry (EMethod py (u "import_bound") [interned py i] false)))).
  { revert W. generalize (ETry (EMethod py (u "import_bound") [interned py i] false)). induction attrs as [|a attrs IH]; intros e W; [exact W|]. cbn [fold_left]. apply IH.
    cbn [wf]. apply wf_app; [vm_compute; reflexivity| |discriminate]. cbn [wfs fold_right wf]. split; [|split; [apply (wf_interned Ex), wf_py|exact I]]. split; [exact W|]. split; [exact I|now intros _]. }
  remember (fold_left _ attrs _) as e eqn:E. assert (Q : exists a, e = ETry a).
  { subst e. clear. generalize (EMethod py (u "import_bound") [interned py i] false). induction attrs as [|a attrs IH]; intros b; [now exists b|]. cbn [fold_left]. apply IH. }
  destruct Q as [a ->]. exact K.
Qed.
Lemma wf_disp : forall d k, wf k (disp_ast d).
Proof. intros [|l] k; [closed_path|apply wf_lookup]. Qed.
Lemma wf_object : forall k x, good_name x -> wf k (object_ast x).
Proof.
  intros k x H. apply wf_app; [vm_compute; reflexivity| |discriminate]. cbn [wfs fold_right wf]. split; [split; [discriminate|now apply wf_var]|]. split; [apply (wf_py Ex)|exact I].
Qed.
Lemma wf_array : forall k l, (forall x, In x l -> good_name x) -> wf k (array l).
Proof.
  intros k l H. unfold array. cbn [wf]. split; [|now destruct l]. fold (wfs (map object_ast l)).
  induction l as [|x l IH]; [exact I|]. cbn [map wfs fold_right]. split; [apply wf_object, H; now left|]. apply IH. intros y Hy. apply H. now right.
Qed.
Lemma wf_tuple : forall k e, wf Ex e -> wf k (new_tuple e).
Proof. intros k e H. apply wf_app; [vm_compute; reflexivity| |discriminate]. cbn [wfs fold_right]. split; [apply wf_py|]. now split. Qed.
Lemma wf_pos : forall k p, (forall x, In x (pos_vars p) -> good_name x) -> wf k (pos_ast p).
Proof.
  intros k [|v|l|l v] H; cbn [pos_ast pos_vars] in *.
  - cbn [wf fold_right]. repeat split.
  - apply wf_var, H. now left.
  - apply wf_tuple, wf_array, H.
  - assert (Hv : good_name v) by (apply H, in_or_app; right; now left).
    assert (Ha : forall k, wf k (array l)) by (intros k0; apply wf_array; intros x Hx; apply H, in_or_app; now left).
    cbn [wf]. split; [reflexivity|]. split; [discriminate|]. split.
    { apply wf_app; [vm_compute; reflexivity| |discriminate]. cbn [wfs fold_right wf]. split; [|exact I]. split; [now left|]. split; [exact I|].
      apply (wf_app Oper); [vm_compute; reflexivity| |discriminate]. cbn [wfs fold_right]. split; [now apply wf_var|exact I]. }
    assert (Wa : forall k, wf k (var args_name)) by (intros k0; apply wf_var; reflexivity).
    split; [reflexivity|]. split.
    { split; [apply Wa|]. cbn [fold_right]. split; [split; [apply Ha|exact I]|discriminate]. }
    split; [reflexivity|]. split.
    { split; [apply Wa|]. cbn [fold_right wf]. split; [|discriminate]. split; [|exact I]. split.
      { apply (wf_app Post); [vm_compute; reflexivity| |discriminate]. cbn [wfs fold_right]. split; [now apply wf_var|exact I]. }
      split; [|discriminate]. split; [|exact I]. split; [now left|]. now apply (wf_object Ex). }
    apply wf_tuple, Wa.
Qed.
Lemma wf_items : forall l, (forall e, In e l -> good_name (snd e)) -> wf Blk (items_ast l).
Proof.
  induction l as [|e l IH]; intros H; [closed_path|]. unfold items_ast. cbn [fold_right wf]. fold (items_ast l). split; [reflexivity|]. split; [|apply IH; intros x Hx; apply H; now right].
  apply (wf_app Ex); [vm_compute; reflexivity| |discriminate]. cbn [wfs fold_right wf]. split; [split; [discriminate|closed_path]|]. split; [apply (wf_interned Ex), wf_py|].
  split; [|exact I]. apply (wf_var Ex), H. now left.
Qed.
Lemma wf_new_dict : forall k, wf k new_dict_ast.
Proof. intros k. apply wf_app; [vm_compute; reflexivity| |discriminate]. cbn [wfs fold_right]. split; [apply wf_py|exact I]. Qed.
Lemma wf_kw : forall k kw, (forall x, In x (kw_vars kw) -> good_name x) -> wf k (kw_ast kw).
Proof.
  intros k [v|v l| |l] H; cbn [kw_ast kw_vars] in *.
  - apply wf_var, H. now left.
  - cbn [wf]. split; [reflexivity|]. split; [discriminate|]. split; [apply (wf_var Ex), H; now left|]. apply wf_items. intros e He. apply H. right. now apply in_map.
  - apply wf_new_dict.
  - cbn [wf]. split; [reflexivity|]. split; [discriminate|]. split; [apply (wf_new_dict Ex)|]. apply wf_items. intros e He. apply H. now apply in_map.
Qed.
Lemma wf_any : forall k d, wf k (any_of (disp_ast d)).
Proof. intros k d. cbn [any_of wf fold_right]. split; [apply wf_disp|]. now split. Qed.
Lemma wf_some : forall k kw, (forall x, In x (kw_vars kw) -> good_name x) -> wf k (some_kw kw).
Proof.
  intros k kw H. apply wf_app; [vm_compute; reflexivity| |discriminate]. cbn [wfs fold_right wf]. split; [|exact I]. split; [discriminate|]. now apply wf_kw.
Qed.
Lemma wf_call : forall k d a, (forall x, In x (args_vars a) -> good_name x) -> wf k (call_ast (disp_ast d) a).
Proof.
  intros k d [p kw|p|] H; cbn [call_ast args_vars] in *; (apply wf_app; [vm_compute; reflexivity| |discriminate]); cbn [wfs fold_right].
  - split; [apply wf_any|]. split; [apply wf_pos; intros x Hx; apply H, in_or_app; now left|]. split; [|exact I]. apply wf_some. intros x Hx. apply H, in_or_app. now right.
  - split; [apply wf_any|]. split; [now apply wf_pos|exact I].
  - split; [apply wf_any|exact I].
Qed.
Lemma wf_call_method : forall k d m a, (forall x, In x (args_vars a) -> good_name x) -> wf k (call_method_ast (disp_ast d) m a).
Proof.
  intros k d m [p kw|p|] H; cbn [call_method_ast args_vars] in *; (apply wf_app; [vm_compute; reflexivity| |discriminate]); cbn [wfs fold_right];
    (split; [apply wf_any|]; split; [apply (wf_interned Ex), wf_py|]).
  - split; [apply wf_pos; intros x Hx; apply H, in_or_app; now left|]. split; [|exact I]. apply wf_some. intros x Hx. apply H, in_or_app. now right.
  - split; [now apply wf_pos|exact I].
  - exact I.
Qed.
Lemma wf_extract : forall k e, wf Post e -> wf k (extract e).
Proof. intros k e H. apply wf_app; [vm_compute; reflexivity| |discriminate]. cbn [wfs fold_right wf]. split; [|exact I]. split; [discriminate|exact H]. Qed.
Lemma wf_body : forall d b, (forall x, In x (body_vars b) -> good_name x) -> wf Blk (body_ast d b).
Proof.
  intros d [a|m a|n|n v] H; cbn [body_ast body_vars] in *.
  - now apply wf_extract, wf_call.
  - now apply wf_extract, wf_call_method.
  - apply wf_extract. apply wf_app; [vm_compute; reflexivity| |discriminate]. cbn [wfs fold_right]. split; [apply wf_any|]. split; [|exact I]. apply (wf_interned Ex).
    destruct d; [|apply wf_py]. cbn [self_py wf fold_right]. split; [closed_path|]. now split.
  - apply wf_app; [vm_compute; reflexivity| |discriminate]. cbn [wfs fold_right]. split; [apply wf_any|]. split; [apply (wf_interned Ex), wf_py|]. split; [|exact I].
    apply (wf_var Ex), H. now left.
Qed.
Lemma wf_into : forall x s r, good_path (rs s) = true -> good_name x -> wf Blk r -> wf Blk (ELet false x (app_of s [var x; py] false) r).
Proof.
  intros x s r Hs Hx Hr. cbn [wf]. split; [reflexivity|]. split; [intros _; now apply good_not_mut|]. split; [|exact Hr].
  apply (wf_app Ex); [exact Hs| |discriminate]. cbn [wfs fold_right]. split; [now apply wf_var|]. split; [apply wf_py|exact I].
Qed.
Lemma wf_bind : forall x r, good_name x -> wf Blk r -> wf Blk (ELet false x (EMethod (var x) (u "bind") [py] false) r).
Proof.
  intros x r Hx Hr. cbn [wf]. split; [reflexivity|]. split; [intros _; now apply good_not_mut|]. split; [|exact Hr].
  split; [now apply (wf_var Post)|]. cbn [fold_right]. split; [split; [apply wf_py|exact I]|discriminate].
Qed.
Lemma wf_prep : forall e r, good_name (fst e) -> wf Blk r -> wf Blk (prep_ast e r).
Proof.
  intros [x p] r Hx Hr. cbn [fst] in Hx. unfold prep_ast. cbn [fst snd]. destruct p.
  - exact Hr.
  - apply wf_into; [vm_compute; reflexivity|exact Hx|exact Hr].
  - apply wf_into; [vm_compute; reflexivity|exact Hx|]. now apply wf_bind.
  - apply wf_into; [vm_compute; reflexivity|exact Hx|]. now apply wf_bind.
  - cbn [wf]. split; [reflexivity|]. split; [intros _; now apply good_not_mut|]. split; [|exact Hr]. split; [now apply (wf_var Oper)|]. split; [|apply (wf_new_dict Blk)].
    apply (wf_app Blk); [vm_compute; reflexivity| |discriminate]. cbn [wfs fold_right]. split; [now apply wf_var|]. split; [apply wf_py|exact I].
Qed.
Lemma wf_fn : forall f, (forall x, In x (map fst (f_prep f)) -> good_name x) -> (forall x, In x (body_vars (f_body f)) -> good_name x) -> wf Blk (fn_ast f).
Proof.
  intros f Hp Hb. unfold fn_ast.
  assert (W : wf Blk (fold_right prep_ast (body_ast (f_disp f) (f_body f)) (f_prep f))).
  { induction (f_prep f) as [|e l IH]; [now apply wf_body|]. cbn [fold_right]. apply wf_prep; [apply Hp; now left|]. apply IH. intros x Hx. apply Hp. now right. }
  destruct (f_let_py f); [|exact W]. cbn [wf]. split; [reflexivity|]. split; [discriminate|]. split; [|exact W]. cbn [self_py wf fold_right]. split; [closed_path|]. now split.
Qed.
(** A function is read back as its syntax. *)
Definition fn_syntax (f : fn_def) : rfn := mk_rfn (k_name (f_contract f)) (shown_params (f_contract f)) (ret_type (k_ret (f_contract f))) (fn_ast f).
Lemma fn_def_read : forall f rest, (forall x, In x (map fst (f_prep f)) -> good_name x) -> (forall x, In x (body_vars (f_body f)) -> good_name x) ->
  (k_ret (f_contract f) = RetUnit -> k_params (f_contract f) <> []) -> p_fn (fn_tokens f ++ rest) = Some (fn_syntax f, rest).
Proof.
  intros f rest Hp Hb Hu. rewrite show_fn. repeat rewrite <- app_assoc. apply fn_read; [now apply wf_fn|exact Hu].
Qed.

(** ** The function that embeds a source *)
Definition intern_in (a : str) : expr := EMacro (rs "pyo3::intern") [py; ELit a] false.
Definition embed_ast (m file src : str) : expr :=
  EConst (u "SOURCE_CODE") (rs "&str") (ELit src)
    (app_of "pyo3::types::PyAnyMethods::set_item"
       [ERef (ETry (app_of "pyo3::types::PyAnyMethods::getattr"
                      [EMethod (ETry (EMethod py (u "import_bound") [intern_in (u "sys")] false)) (u "as_any") [] false; intern_in (u "modules")] true));
        ELit m;
        ETry (app_of "pyo3::types::PyModule::from_code_bound" [py; var (u "SOURCE_CODE"); ELit file; ELit m] true)] true).
Definition embed_syntax (m file src : str) : rfn := mk_rfn (u "pyo3_embed_python_source_code") [(u "py", py_type_tokens)] (ret_type RetUnit) (embed_ast m file src).
Lemma embed_shown : forall m file src, embed_tokens m file src =
  rs "fn pyo3_embed_python_source_code<'py>(" ++ (rs "py:" ++ py_type_tokens ++ rs ")") ++ rs "->" ++ ret_type RetUnit ++ rs "{" ++ show (embed_ast m file src) ++ rs "}".
Proof. intros m file src. unfold embed_tokens, embed_ast. rewrite !app_assoc. cbn [show]. reflexivity. Qed.
Lemma wf_embed : forall m file src, wf Blk (embed_ast m file src).
Proof.
  assert (Wi : forall a, wf Ex (intern_in a)).
  { intros a. cbn [intern_in wf]. split; [closed_path|]. split; [|discriminate]. cbn [fold_right wf]. split; [apply (wf_py Ex)|auto]. }
  intros m file src. unfold embed_ast. cbn [wf]. split; [reflexivity|]. split; [reflexivity|]. split; [exact I|].
  apply wf_app; [vm_compute; reflexivity| |discriminate]. cbn [wfs fold_right]. split; [|split; [exact I|split; [|exact I]]].
  - cbn [wf]. split; [discriminate|]. apply wf_app; [vm_compute; reflexivity| |discriminate]. cbn [wfs fold_right]. split; [|split; [apply Wi|exact I]].
    cbn [wf]. split; [|now split]. split; [apply wf_py|]. split; [cbn [fold_right]; split; [apply Wi|exact I]|discriminate].
  - cbn [wf]. apply wf_app; [vm_compute; reflexivity| |discriminate]. cbn [wfs fold_right]. split; [apply (wf_py Ex)|]. split; [now apply wf_var|]. now repeat split.
Qed.
Lemma embed_read : forall m file src rest, p_fn (embed_tokens m file src ++ rest) = Some (embed_syntax m file src, rest).
Proof.
  intros m file src rest. pose proof (wf_embed m file src) as W. rewrite embed_shown. unfold embed_syntax. revert W. generalize (embed_ast m file src). intros b W.
  change (rs "fn pyo3_embed_python_source_code<'py>(") with
    [TWord (u "fn"); TWord (u "pyo3_embed_python_source_code"); TPunct (ch "<") false; TPunct (ch "'") true; TWord (u "py"); TPunct (ch ">") false; TOpen Paren].
  change (rs "py:") with [TWord (u "py"); TPunct (ch ":") false]. change (rs ")") with [TClose Paren]. change (rs "->") with [TPunct (ch "-") true; TPunct (ch ">") false].
  change (rs "{") with [TOpen Brace]. change (rs "}") with [TClose Brace]. repeat (rewrite <- app_assoc || cbn [app]).
  set (tail := TPunct (ch "-") true :: TPunct (ch ">") false :: ret_type RetUnit ++ TOpen Brace :: show b ++ TClose Brace :: rest).
  assert (P : p_params (length (TWord (u "py") :: TPunct (ch ":") false :: py_type_tokens ++ TClose Paren :: tail)) (TWord (u "py") :: TPunct (ch ":") false :: py_type_tokens ++ TClose Paren :: tail)
    = Some ([(u "py", py_type_tokens)], tail)).
  { cbn [length p_params closing punct]. rewrite N.eqb_refl. rewrite p_type_ends; [|exact py_type_skips|reflexivity]. reflexivity. }
  assert (H : p_head opens_block (TWord (u "fn") :: TWord (u "pyo3_embed_python_source_code") :: TPunct (ch "<") false :: TPunct (ch "'") true :: TWord (u "py") :: TPunct (ch ">") false :: TOpen Paren
      :: TWord (u "py") :: TPunct (ch ":") false :: py_type_tokens ++ TClose Paren :: tail)
    = Some (mk_rfn (u "pyo3_embed_python_source_code") [(u "py", py_type_tokens)] (ret_type RetUnit) EEnd, show b ++ TClose Brace :: rest)).
  { unfold p_head. change (keyword "fn" (TWord (u "fn"))) with true. change (punct "<" (TPunct (ch "<") false)) with true. change (punct "'" (TPunct (ch "'") true)) with true.
    change (punct ">" (TPunct (ch ">") false)) with true. cbn [andb]. rewrite P. unfold tail at 1. change (punct "-" (TPunct (ch "-") true)) with true. cbn [andb].
    rewrite (p_type_ends opens_block (ret_type RetUnit) (TOpen Brace) _ (ret_skips _ (or_introl eq_refl) _) eq_refl). reflexivity. }
  unfold p_fn. rewrite H. cbn [r_name r_params r_ret]. rewrite block_read; [reflexivity|exact W|]. pose proof (size_long (size b) b Blk (le_n _) W). subst tail. cbn [length].
  rewrite app_length. cbn [length]. rewrite app_length. cbn [length]. rewrite app_length. cbn [length]. lia.
Qed.
