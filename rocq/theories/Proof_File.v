(** * Lemmas: the items of a file are read back (C70) *)
From Verif Require Import Base Spec_Lex Spec_Call Spec_Code Model_Ident Model_Path Model_Import Model_Type Model_IntoRs Model_Token Model_Out Model_Print
  Spec_Items Spec_Print Proof_Base Proof_Grammar Proof_Code Proof_Ast.

(** ** What is read *)
Definition inner (x : frag) : list tok := removelast (tl (frag_tokens x)).
Fixpoint decls_of (p : lead) (l : list frag) : list (lead * rfn) :=
  match l with
  | [] => []
  | x :: r =>
      match x with
      | GDecl k => (p, mk_rfn (k_name k) (shown_params k) (ret_type (k_ret k)) EEnd) :: decls_of bare r
      | GDoc _ | GAttr _ => decls_of (with_attr (inner x) p) r
      | _ => decls_of p r
      end
  end.
Fixpoint shown (p : lead) (x : frag) : list item :=
  let fix all (p : lead) (l : list frag) : list item :=
    match l with
    | [] => []
    | y :: r => match y with GPub => all (as_public p) r | GDoc _ | GAttr _ => all (with_attr (inner y) p) r | _ => shown p y ++ all bare r end
    end in
  match x with
  | GPub | GDoc _ | GAttr _ | GDecl _ => []
  | GFn d => [IFn p (fn_syntax d)]
  | GEmbed m file src => [IFn p (embed_syntax m file src)]
  | GUse _ | GUseSuper _ | GType _ | GStruct _ => [IOther p (removelast (frag_tokens x))]
  | GMacros n s =>
      [IOther p (rs "::pyo3::pyobject_native_type_named!(" ++ word n ++ rs ")");
       IOther bare (rs "::pyo3::pyobject_native_type_info!(" ++ word n
         ++ rs ", ::pyo3::pyobject_native_static_type_object!(::pyo3::ffi::PyBaseObject_Type), ::std::option::Option::Some(" ++ lit s ++ rs "))")]
  | GImpl n l => [IImpl p (word n) (all bare l)]
  | GImplFor t n l => [IImpl p (word t ++ rs "for ::pyo3::Bound<'_, " ++ word n ++ rs ">") (all bare l)]
  | GTrait n l => [ITrait p n (decls_of bare l)]
  | GMod n l => [IMod p n (all bare l)]
  end.
Fixpoint shown_all (p : lead) (l : list frag) : list item :=
  match l with
  | [] => []
  | y :: r => match y with GPub => shown_all (as_public p) r | GDoc _ | GAttr _ => shown_all (with_attr (inner y) p) r | _ => shown p y ++ shown_all bare r end
  end.

(** ** Steps *)
Lemma p_items_S : forall n public t r, p_items (S n) public (t :: r) =
  let more i r := match p_items n bare r with Some (is, r') => Some (i :: is, r') | None => None end in
  if closing Brace t then Some ([], t :: r)
  else if punct "#" t then match upto (closing Bracket) r with Some (a, r') => p_items n (with_attr a public) r' | None => None end
  else if keyword "pub" t then p_items n (as_public public) r
  else if keyword "fn" t then match p_fn (t :: r) with Some (f, r') => more (IFn public f) r' | None => None end
  else if keyword "mod" t then
    match r with
    | TWord x :: TOpen Brace :: r1 => match p_items n bare r1 with Some (is, TClose Brace :: r2) => more (IMod public x is) r2 | _ => None end
    | _ => None
    end
  else if keyword "impl" t then
    match upto opens_block r with
    | Some (h, r1) => match p_items n bare r1 with Some (is, TClose Brace :: r2) => more (IImpl public h is) r2 | _ => None end
    | None => None
    end
  else if keyword "trait" t then
    match r with
    | TWord x :: TOpen Brace :: r1 => match p_decls n bare r1 with Some (fs, r2) => more (ITrait public x fs) r2 | None => None end
    | _ => None
    end
  else match upto (punct ";") (t :: r) with Some (p, r1) => more (IOther public p) r1 | None => None end.
Proof. reflexivity. Qed.
Lemma p_decls_S : forall n p t r, p_decls (S n) p (t :: r) =
  if closing Brace t then Some ([], r)
  else if punct "#" t then match upto (closing Bracket) r with Some (a, r') => p_decls n (with_attr a p) r' | None => None end
  else match p_head (punct ";") (t :: r) with
       | Some (f, r') => match p_decls n bare r' with Some (fs, r2) => Some ((p, f) :: fs, r2) | None => None end
       | None => None
       end.
Proof. reflexivity. Qed.
Definition clear (stop : tok -> bool) (l : list tok) : Prop := forallb (fun t => negb (stop t)) l = true.
Lemma upto_ok : forall stop a t r, clear stop a -> stop t = true -> upto stop (a ++ t :: r) = Some (a, r).
Proof.
  intros stop a t r. unfold clear. induction a as [|b a IH]; intros Ha Ht; cbn [app upto].
  - now rewrite Ht.
  - cbn [forallb] in Ha. apply andb_true_iff in Ha as [Hb Ha]. apply negb_true_iff in Hb. now rewrite Hb, (IH Ha Ht).
Qed.
Lemma clear_app : forall stop a b, clear stop a -> clear stop b -> clear stop (a ++ b).
Proof. intros stop a b Ha Hb. unfold clear. rewrite forallb_app. now rewrite Ha, Hb. Qed.
Lemma clear_each : forall {A} stop (f : A -> list tok) l, (forall a, clear stop (f a)) -> clear stop (each f l).
Proof. intros A stop f l H. induction l as [|a l IH]; [reflexivity|]. cbn [each flat_map]. apply clear_app; [apply H|exact IH]. Qed.
Lemma clear_local : forall stop p, (forall s, stop (TWord s) = false) -> (forall j, stop (TPunct (ch ":") j) = false) -> clear stop (local_path p).
Proof.
  intros stop p Hw Hc. unfold local_path. induction p as [|a [|b p] IH]; [reflexivity| |].
  - cbn. unfold clear. cbn [forallb word]. now rewrite Hw.
  - change (sep_by (rs "::") (map word (a :: b :: p))) with (word a ++ rs "::" ++ sep_by (rs "::") (map word (b :: p))). apply clear_app; [|apply clear_app; [|exact IH]].
    + unfold clear. cbn [forallb word]. now rewrite Hw.
    + change (rs "::") with [TPunct (ch ":") true; TPunct (ch ":") false]. unfold clear. cbn [forallb]. now rewrite !Hc.
Qed.
(** An attribute, and what ends with a semicolon *)
Lemma attribute_shape : forall x, match x with GDoc _ | GAttr _ => True | _ => False end -> exists j a, frag_tokens x = TPunct (ch "#") j :: a ++ [TClose Bracket] /\ inner x = a /\ clear (closing Bracket) a.
Proof.
  intros x Hx. destruct x as [|s|a| | | | | | | | | | | |]; try easy; cbn [frag_tokens].
  - eexists false, (TOpen Bracket :: TWord (u "doc") :: TPunct (ch "=") false :: lit s). now repeat split.
  - destruct a as [| | |i]; cbn [attr_tokens].
    + eexists false, (removelast (tl (rs "#[allow(clippy::all, clippy::nursery, clippy::pedantic, non_camel_case_types, non_snake_case, non_upper_case_globals, unused)]"))). now repeat split.
    + eexists false, (removelast (tl (rs "#[repr(transparent)]"))). now repeat split.
    + eexists false, (removelast (tl (rs "#[automatically_derived]"))). now repeat split.
    + eexists false, (rs "[doc(alias =" ++ lit i ++ rs ")"). now repeat split.
Qed.
Definition first_other (t : tok) : bool :=
  negb (closing Brace t || punct "#" t || keyword "pub" t || keyword "fn" t || keyword "mod" t || keyword "impl" t || keyword "trait" t).
Lemma other_read : forall n public t a r, first_other t = true -> clear (punct ";") (t :: a) -> p_items (S n) public ((t :: a) ++ TPunct (ch ";") false :: r) =
  match p_items n bare r with Some (is, r') => Some (IOther public (t :: a) :: is, r') | None => None end.
Proof.
  intros n public t a r Ht Ha. unfold first_other in Ht. apply negb_true_iff in Ht. repeat (apply orb_false_iff in Ht as [Ht ?]).
  pose proof (upto_ok (punct ";") (t :: a) (TPunct (ch ";") false) r Ha eq_refl) as K. cbn [app] in *. rewrite p_items_S. cbv zeta.
  repeat match goal with H : _ t = false |- _ => rewrite H; clear H end. now rewrite K.
Qed.
Lemma other_shape : forall x, match x with GUse _ | GUseSuper _ | GType _ | GStruct _ => True | _ => False end ->
  exists t a, frag_tokens x = (t :: a) ++ [TPunct (ch ";") false] /\ first_other t = true /\ clear (punct ";") (t :: a).
Proof.
  intros x Hx. destruct x as [| | | | |i|l|n|n| | | | | |]; try easy; cbn [frag_tokens].
  - exists (TWord (u "use")), (local_path (use_path i) ++ match use_alias i with Some a => rs "as" ++ word a | None => [] end). split; [|split].
    + unfold use_tokens. change (rs "use") with [TWord (u "use")]. cbn [app]. rewrite <- !app_assoc. reflexivity.
    + reflexivity.
    + change (TWord (u "use") :: ?a) with ([TWord (u "use")] ++ a). apply clear_app; [reflexivity|]. apply clear_app; [now apply clear_local|]. now destruct (use_alias i).
  - exists (TWord (u "use")), (rs "super::{" ++ each (fun i => word i ++ comma) l ++ rs "}"). split; [|split].
    + change (rs "use super::{") with (TWord (u "use") :: rs "super::{"). change (rs "};") with (rs "}" ++ [TPunct (ch ";") false]). cbn [app]. now rewrite <- !app_assoc.
    + reflexivity.
    + change (TWord (u "use") :: ?a) with ([TWord (u "use")] ++ a). apply clear_app; [reflexivity|]. apply clear_app; [reflexivity|]. apply clear_app; [|reflexivity]. now apply clear_each.
  - exists (TWord (u "type")), (word n ++ rs "= ::pyo3::types::PyAny"). now split; [|split].
  - exists (TWord (u "struct")), (word n ++ rs "(::pyo3::PyAny)"). now split; [|split].
Qed.

(** ** Reading *)
Section read.
  Variable U : uni.
  Lemma ident_good : forall x, rust_ident U x -> good_name x.
  Proof.
    intros x H. unfold good_name. destruct (mem_str x _) eqn:E; [|reflexivity]. exfalso. apply mem_str_In in E.
    repeat (destruct E as [<- | E]; [destruct H as [[_ H]|(t & H & _)]; [apply H; vm_compute; tauto|discriminate H]|]). destruct E.
  Qed.
  Lemma vars_names : forall b x, In x (body_vars b) -> In x (body_names b).
  Proof.
    assert (P : forall p x, In x (pos_vars p) -> In x (pos_names p)).
    { intros [|v|l|l v] x; cbn [pos_vars pos_names]; auto. intros H. apply in_app_or in H as [H|[H|[]]]; [now right|now left]. }
    assert (K : forall k x, In x (kw_vars k) -> In x (kw_names k)) by (intros [v|v l| |l] x; auto).
    intros [a|m a|n|n v] x; auto; (destruct a as [p k|p|]; cbn [body_vars body_names args_vars args_names]; auto; intros H; apply in_app_or in H as [H|H]; apply in_or_app; auto).
  Qed.
  Lemma fine_read : forall d rest, fn_fine U d -> p_fn (fn_tokens d ++ rest) = Some (fn_syntax d, rest).
  Proof. intros d rest (E & Hp & Hb). apply fn_def_read; [intros x Hx; now apply ident_good, Hp|intros x Hx; now apply ident_good, Hb, vars_names|exact E]. Qed.

  Lemma fn_starts : forall d, exists a, fn_tokens d = TWord (u "fn") :: a.
  Proof. intros d. unfold fn_tokens, contract_tokens. change (rs "fn") with [TWord (u "fn")]. cbn [app]. now eexists. Qed.
  Lemma trait_private : forall l, ~ items (item_ok U InTrait) Pub l.
  Proof. intros [|y l]; cbn [items]; [discriminate|]. destruct y; cbn [item_ok]; intros [H _]; try contradiction; try (now apply H); try discriminate H; try (now destruct H as [_ []]); try (destruct H as [K H]; discriminate K); destruct H as (_ & K & _); discriminate K. Qed.
  Lemma decls_read : forall l st, items (item_ok U InTrait) st l -> fold_right and True (map (frag_fine U) l) -> forall n p rest, length (tokens l) < n ->
    p_decls n p (tokens l ++ TClose Brace :: rest) = Some (decls_of p l, rest).
  Proof.
    induction l as [|x l IH]; intros st H Hf n p rest Hn; destruct n as [|n]; try lia; [reflexivity|]. cbn [map fold_right] in Hf. destruct Hf as [Hx Hf].
    change (tokens (x :: l)) with (frag_tokens x ++ tokens l) in *. rewrite app_length in Hn. rewrite <- app_assoc.
    assert (A : match x with GDoc _ | GAttr _ => True | _ => False end -> (exists st', items (item_ok U InTrait) st' l) ->
      p_decls (S n) p (frag_tokens x ++ tokens l ++ TClose Brace :: rest) = Some (decls_of p (x :: l), rest)).
    { intros Ha (st' & Hl). destruct (attribute_shape x Ha) as (j & a & E & Ei & Ca). rewrite E in *. rewrite <- app_comm_cons, <- app_assoc. cbn [app]. rewrite p_decls_S. cbn [closing]. change (punct "#" (TPunct (ch "#") j)) with true. cbn iota.
      rewrite (upto_ok _ a (TClose Bracket) _ Ca eq_refl). cbn [length] in Hn. rewrite (IH st' Hl Hf n _ rest ltac:(lia)). destruct x; try easy; cbn [decls_of]; now rewrite Ei. }
    destruct x; cbn [items item_ok] in H; try (now destruct H); try (now (destruct H as [[] _])); try (now (destruct H as [[_ []] _])); try (now (destruct H as [[K _] _]; discriminate K)).
    - destruct H as [_ H]. now apply trait_private in H.
    - apply A; [exact I|]. destruct H as [_ H]. eauto.
    - apply A; [exact I|]. destruct H as [_ H]. eauto.
    - destruct H as [(_ & _ & Hk) H]. cbn [frag_tokens] in *. change (rs ";") with [TPunct (ch ";") false] in *. rewrite <- app_assoc. cbn [app].
      pose proof (head_read (punct ";") (TPunct (ch ";") false) k (tokens l ++ TClose Brace :: rest) (or_intror eq_refl) eq_refl Hx) as E. rewrite app_length in Hn. cbn [length] in Hn.
      assert (S0 : exists a, contract_tokens k = TWord (u "fn") :: a) by (unfold contract_tokens; change (rs "fn") with [TWord (u "fn")]; cbn [app]; now eexists).
      destruct S0 as [a S0]. rewrite S0 in *. cbn [app] in *. rewrite p_decls_S. cbn [closing punct]. rewrite E. rewrite (IH Nothing H Hf n bare rest ltac:(lia)). reflexivity.
  Qed.

  Lemma shown_frag : forall p x, shown p x =
    match x with
    | GPub | GDoc _ | GAttr _ | GDecl _ => []
    | GFn d => [IFn p (fn_syntax d)]
    | GEmbed m file src => [IFn p (embed_syntax m file src)]
    | GUse _ | GUseSuper _ | GType _ | GStruct _ => [IOther p (removelast (frag_tokens x))]
    | GMacros n s =>
        [IOther p (rs "::pyo3::pyobject_native_type_named!(" ++ word n ++ rs ")");
         IOther bare (rs "::pyo3::pyobject_native_type_info!(" ++ word n
           ++ rs ", ::pyo3::pyobject_native_static_type_object!(::pyo3::ffi::PyBaseObject_Type), ::std::option::Option::Some(" ++ lit s ++ rs "))")]
    | GImpl n l => [IImpl p (word n) (shown_all bare l)]
    | GImplFor t n l => [IImpl p (word t ++ rs "for ::pyo3::Bound<'_, " ++ word n ++ rs ">") (shown_all bare l)]
    | GTrait n l => [ITrait p n (decls_of bare l)]
    | GMod n l => [IMod p n (shown_all bare l)]
    end.
  Proof.
    intros p x. destruct x; reflexivity.
  Qed.
  Definition ended (rest : list tok) : Prop := rest = [] \/ exists r, rest = TClose Brace :: r.
  Definition reads_items (l : list frag) : Prop := forall pl st, pl <> InTrait -> items (item_ok U pl) st l -> fold_right and True (map (frag_fine U) l) ->
    forall n public rest, ended rest -> length (tokens l) < n -> p_items n public (tokens l ++ rest) = Some (shown_all public l, rest).
  Lemma block_items : forall l pl, reads_items l -> pl <> InTrait -> items (item_ok U pl) Nothing l -> fold_right and True (map (frag_fine U) l) ->
    forall n rest, length (tokens l) < n -> p_items n bare (tokens l ++ TClose Brace :: rest) = Some (shown_all bare l, TClose Brace :: rest).
  Proof. intros l pl R Hp H Hf n rest Hn. apply (R pl Nothing); try assumption. right. now exists rest. Qed.
  Lemma items_read : forall m l, length (tokens l) <= m -> reads_items l.
  Proof.
    induction m as [m IH] using (well_founded_induction Wf_nat.lt_wf). intros l Hm pl st Hpl H Hf n public rest Hr Hn. destruct n as [|n]; [lia|]. destruct l as [|x l].
    { cbn [tokens each flat_map app shown_all]. destruct Hr as [-> | (r & ->)]; reflexivity. }
    cbn [map fold_right] in Hf. destruct Hf as [Hx Hf]. change (tokens (x :: l)) with (frag_tokens x ++ tokens l) in *. rewrite app_length in Hn, Hm. rewrite <- app_assoc.
    assert (Rl : 0 < length (frag_tokens x) -> reads_items l) by (intros K; apply (IH (length (tokens l))); lia).
    assert (A : match x with GDoc _ | GAttr _ => True | _ => False end -> (exists st', items (item_ok U pl) st' l) ->
      p_items (S n) public (frag_tokens x ++ tokens l ++ rest) = Some (shown_all (with_attr (inner x) public) l, rest)).
    { intros Ha (st' & Hl). destruct (attribute_shape x Ha) as (j & a & E & Ei & Ca). rewrite E in *. rewrite <- app_comm_cons, <- app_assoc. cbn [app]. rewrite p_items_S. cbn [closing]. change (punct "#" (TPunct (ch "#") j)) with true. cbn iota.
      rewrite (upto_ok _ a (TClose Bracket) _ Ca eq_refl). rewrite <- Ei in *. cbn [length] in *. apply (Rl ltac:(lia) pl st' Hpl Hl Hf); [exact Hr|lia]. }
    assert (N : forall k, items (item_ok U pl) Nothing l -> 0 < length (frag_tokens x) -> length (tokens l) < k -> p_items k bare (tokens l ++ rest) = Some (shown_all bare l, rest)).
    { intros k Hl K Hk. exact (Rl K pl Nothing Hpl Hl Hf k bare rest Hr Hk). }
    assert (O : match x with GUse _ | GUseSuper _ | GType _ | GStruct _ => True | _ => False end -> items (item_ok U pl) Nothing l ->
      p_items (S n) public (frag_tokens x ++ tokens l ++ rest) = Some ([IOther public (removelast (frag_tokens x))] ++ shown_all bare l, rest)).
    { intros Ho Hl. destruct (other_shape x Ho) as (t & a & E & Ht & Ha). rewrite E in *. rewrite removelast_last. rewrite <- app_assoc. change ([TPunct (ch ";") false] ++ tokens l ++ rest) with (TPunct (ch ";") false :: tokens l ++ rest).
      rewrite (other_read n public t a _ Ht Ha). rewrite app_length in *. cbn [length] in *. rewrite (N n Hl ltac:(lia) ltac:(lia)). reflexivity. }
    assert (B : forall k, length (tokens k) < length (frag_tokens x) -> reads_items k) by (intros k Hk; apply (IH (length (tokens k))); lia).
    destruct x as [|s|a|d|k|i|li|n0|n0|n0 s|n0 b|n0 b|tr n0 b|n0 b|mm file src]; cbn [items] in H; cbn [shown_all]; rewrite ?shown_frag.
    - cbn [frag_tokens]. change (rs "pub") with [TWord (u "pub")]. cbn [app]. rewrite p_items_S. cbn [closing punct]. change (keyword "pub" (TWord (u "pub"))) with true. cbn iota.
      destruct H as [_ H]. apply (Rl ltac:(cbn; lia) pl Pub Hpl H Hf); [exact Hr|]. cbn in Hn. lia.
    - apply A; [exact I|]. destruct H as [_ H]. eauto.
    - apply A; [exact I|]. destruct H as [_ H]. eauto.
    - destruct H as [_ H]. cbn [frag_tokens] in *. pose proof (fine_read d (tokens l ++ rest) Hx) as E. destruct (fn_starts d) as [a Ea]. rewrite Ea in *. cbn [app length] in *.
      rewrite p_items_S. cbn [closing punct]. change (keyword "pub" (TWord (u "fn"))) with false. change (keyword "fn" (TWord (u "fn"))) with true. cbv zeta. cbn iota. rewrite E.
      rewrite (N n H ltac:(lia) ltac:(lia)). reflexivity.
    - destruct H as [(K & _) _]. contradiction.
    - destruct H as [_ H]. now apply O.
    - destruct H as [_ H]. now apply O.
    - destruct H as [_ H]. now apply O.
    - destruct H as [_ H]. now apply O.
    - destruct H as [_ H].
      set (m1 := rs "::pyo3::pyobject_native_type_named!(" ++ word n0 ++ rs ")").
      set (m2 := rs "::pyo3::pyobject_native_type_info!(" ++ word n0 ++ rs ", ::pyo3::pyobject_native_static_type_object!(::pyo3::ffi::PyBaseObject_Type), ::std::option::Option::Some(" ++ lit s ++ rs "))").
      assert (E : frag_tokens (GMacros n0 s) = m1 ++ TPunct (ch ";") false :: m2 ++ [TPunct (ch ";") false]) by reflexivity.
      rewrite E in *. replace ((m1 ++ TPunct (ch ";") false :: m2 ++ [TPunct (ch ";") false]) ++ tokens l ++ rest) with (m1 ++ TPunct (ch ";") false :: (m2 ++ TPunct (ch ";") false :: tokens l ++ rest))
        by (repeat (rewrite <- app_assoc || cbn [app]); reflexivity).
      rewrite app_length in *. cbn [length] in *. rewrite app_length in *. cbn [length] in *.
      assert (S1 : exists t a, m1 = t :: a /\ first_other t = true /\ clear (punct ";") (t :: a)) by (eexists _, _; split; [reflexivity|]; split; reflexivity).
      assert (S2 : exists t a, m2 = t :: a /\ first_other t = true /\ clear (punct ";") (t :: a)) by (eexists _, _; split; [reflexivity|]; split; reflexivity).
      destruct S1 as (t1 & a1 & E1 & F1 & C1). destruct S2 as (t2 & a2 & E2 & F2 & C2). rewrite E1, E2 in *.
      rewrite (other_read n public t1 a1 _ F1 C1). destruct n as [|n]; [lia|]. rewrite (other_read n bare t2 a2 _ F2 C2). rewrite (N n H ltac:(lia) ltac:(lia)). reflexivity.
    - destruct H as [(_ & _ & _ & Hb) H]. cbn [frag_tokens frag_fine] in *. change (rs "impl") with [TWord (u "impl")] in *. change (rs "{") with [TOpen Brace] in *. change (rs "}") with [TClose Brace] in *.
      cbn [word app] in *. fold (tokens b) in *. cbn [length] in *. rewrite app_length in *. cbn [length] in *. rewrite p_items_S. cbn [closing punct].
      change (keyword "pub" (TWord (u "impl"))) with false. change (keyword "fn" (TWord (u "impl"))) with false. change (keyword "mod" (TWord (u "impl"))) with false. change (keyword "impl" (TWord (u "impl"))) with true.
      cbv zeta. cbn iota. cbn [upto opens_block]. rewrite <- app_assoc. cbn [app].
      rewrite (block_items b InImpl (B b ltac:(lia)) ltac:(discriminate) Hb Hx n _ ltac:(lia)). rewrite (N n H ltac:(lia) ltac:(lia)). reflexivity.
    - destruct H as [(_ & _ & Hb) H]. cbn [frag_tokens frag_fine] in *. change (rs "trait") with [TWord (u "trait")] in *. change (rs "{") with [TOpen Brace] in *. change (rs "}") with [TClose Brace] in *.
      cbn [word app] in *. fold (tokens b) in *. cbn [length] in *. rewrite app_length in *. cbn [length] in *. rewrite p_items_S. cbn [closing punct].
      change (keyword "pub" (TWord (u "trait"))) with false. change (keyword "fn" (TWord (u "trait"))) with false. change (keyword "mod" (TWord (u "trait"))) with false. change (keyword "impl" (TWord (u "trait"))) with false.
      change (keyword "trait" (TWord (u "trait"))) with true. cbv zeta. cbn iota. rewrite <- app_assoc. cbn [app].
      rewrite (decls_read b Nothing Hb Hx n bare _ ltac:(lia)). rewrite (N n H ltac:(lia) ltac:(lia)). reflexivity.
    - destruct H as [(_ & _ & _ & _ & Hb) H]. cbn [frag_tokens frag_fine] in *.
      set (h := word tr ++ rs "for ::pyo3::Bound<'_, " ++ word n0 ++ rs ">").
      assert (E : rs "impl" ++ word tr ++ rs "for ::pyo3::Bound<'_, " ++ word n0 ++ rs "> {" ++ each frag_tokens b ++ rs "}" = TWord (u "impl") :: h ++ TOpen Brace :: tokens b ++ [TClose Brace]).
      { subst h. change (rs "> {") with (rs ">" ++ [TOpen Brace]). change (rs "}") with [TClose Brace]. change (rs "impl") with [TWord (u "impl")]. fold (tokens b). repeat (rewrite <- app_assoc || cbn [app]). reflexivity. }
      rewrite E in *. cbn [length] in *. rewrite app_length in *. cbn [length] in *. rewrite app_length in *. cbn [length] in *. cbn [app]. rewrite p_items_S. cbn [closing punct].
      change (keyword "pub" (TWord (u "impl"))) with false. change (keyword "fn" (TWord (u "impl"))) with false. change (keyword "mod" (TWord (u "impl"))) with false. change (keyword "impl" (TWord (u "impl"))) with true.
      cbv zeta. cbn iota. repeat (rewrite <- app_assoc || cbn [app]).
      assert (Ch : clear opens_block h) by reflexivity. rewrite (upto_ok _ h (TOpen Brace) _ Ch eq_refl).
      rewrite (block_items b InTraitImpl (B b ltac:(lia)) ltac:(discriminate) Hb Hx n _ ltac:(lia)). rewrite (N n H ltac:(lia) ltac:(lia)). reflexivity.
    - destruct H as [(_ & _ & Hb) H]. cbn [frag_tokens frag_fine] in *. change (rs "mod") with [TWord (u "mod")] in *. change (rs "{") with [TOpen Brace] in *. change (rs "}") with [TClose Brace] in *.
      cbn [word app] in *. fold (tokens b) in *. cbn [length] in *. rewrite app_length in *. cbn [length] in *. rewrite p_items_S. cbn [closing punct].
      change (keyword "pub" (TWord (u "mod"))) with false. change (keyword "fn" (TWord (u "mod"))) with false. change (keyword "mod" (TWord (u "mod"))) with true. cbv zeta. cbn iota. rewrite <- app_assoc. cbn [app].
      rewrite (block_items b InModule (B b ltac:(lia)) ltac:(discriminate) Hb Hx n _ ltac:(lia)). rewrite (N n H ltac:(lia) ltac:(lia)). reflexivity.
    - destruct H as [_ H]. cbn [frag_tokens] in *. pose proof (embed_read mm file src (tokens l ++ rest)) as E.
      assert (S0 : exists a, embed_tokens mm file src = TWord (u "fn") :: a) by (now eexists). destruct S0 as [a Ea]. rewrite Ea in *. cbn [app length] in *.
      rewrite p_items_S. cbn [closing punct]. change (keyword "pub" (TWord (u "fn"))) with false. change (keyword "fn" (TWord (u "fn"))) with true. cbv zeta. cbn iota. rewrite E.
      rewrite (N n H ltac:(lia) ltac:(lia)). reflexivity.
  Qed.
  Theorem file_read : forall s l, lex U s = Some (tokens l) -> well_formed U InModule l -> fold_right and True (map (frag_fine U) l) -> read_file U s = Some (shown_all bare l).
  Proof.
    intros s l Hs H Hf. unfold read_file. rewrite Hs. pose proof (items_read _ l (le_n _) InModule Nothing ltac:(discriminate) H Hf (S (length (tokens l))) bare [] (or_introl eq_refl) ltac:(lia)) as E.
    rewrite app_nil_r in E. now rewrite E.
  Qed.
End read.
