(** * Property theorems: asking for more (C78) *)
From Verif Require Import Base Model_Ident Model_Path Model_Import Model_Config Model_Type Model_IntoRs Model_World Model_Out Model_Function Model_Property
  Model_Class Model_Module Model_Parse Model_Codegen Spec_Path Spec_Names Spec_Items Spec_Tree Spec_Api Spec_Out Spec_Attr Spec_Use Spec_Rust Spec_Hash Spec_More Example_World Example_Honest
  Proof_Base Proof_Ident Proof_Path Proof_IntoRs Proof_Hash Prop_Items Prop_Forest Prop_Switch Prop_Use Prop_Clash Prop_Alias Prop_Hash Proof_More.

(** ** C78
    Two runs on the same interpreter; every module that the first one is asked for is among those the second one is asked for.
    First the forests: every module and every item that the first run found is found by the second one. *)
Theorem C78_forest : forall x fuel l l' c c' ms ms', order_ok (pe_ord x) -> honest (pe_uni x) (pe_world x) -> names_differ (pe_world x) ->
  incl (flat_map (asked (pe_world x)) l) (flat_map (asked (pe_world x)) l') ->
  asks x fuel l cg_new = Ok c -> final_modules x fuel c = Ok ms -> asks x fuel l' cg_new = Ok c' -> final_modules x fuel c' = Ok ms' ->
  forall ch, (present ms ch -> present ms' ch) /\ forall it, holds ms ch it -> holds ms' ch it.
Proof.
  intros x fuel l l' c c' ms ms' Ho Hw Hd HS Hc Hf Hc' Hf' ch. split.
  - exact (mo_present x fuel l l' c c' ms ms' Ho Hw Hd HS Hc Hf Hc' Hf' ch).
  - exact (mo_holds x fuel l l' c c' ms ms' Ho Hw Hd HS Hc Hf Hc' Hf' ch).
Qed.
Print Assumptions C78_forest.
(** A module for which the first run has an item has no further items in the second one: what is added are modules. *)
Theorem C78_items : forall x fuel l l' c c' ms ms', order_ok (pe_ord x) -> honest (pe_uni x) (pe_world x) -> names_differ (pe_world x) ->
  asked_modules (pe_world x) l -> asked_modules (pe_world x) l' ->
  asks x fuel l cg_new = Ok c -> final_modules x fuel c = Ok ms -> asks x fuel l' cg_new = Ok c' -> final_modules x fuel c' = Ok ms' ->
  forall ch it it', holds ms ch it -> holds ms' ch it' -> holds ms ch it'.
Proof. exact mo_back. Qed.
Print Assumptions C78_items.
(** The outputs: every item of the first one, at any path, is in the second one at the same path, with the same calls; types can only have become sharper.
    A prelude still lists what it listed; it changes its name only if a module that was added has that name. (What is inside a prelude is judged with the prelude.)
    The text given for a module is to be the same in both runs. *)
Theorem C78_output_partial : forall x numpy fuel l l' c c' ms ms' out out', uni_ok (pe_uni x) -> order_ok (pe_ord x) -> honest (pe_uni x) (pe_world x) -> names_differ (pe_world x) ->
  asked_modules (pe_world x) l -> asked_modules (pe_world x) l' -> incl (flat_map (asked (pe_world x)) l) (flat_map (asked (pe_world x)) l') ->
  (forall n s, given l n = Some s -> given l' n = Some s) ->
  asks x fuel l cg_new = Ok c -> final_modules x fuel c = Ok ms -> cg_generate x numpy fuel c = Ok out ->
  asks x fuel l' cg_new = Ok c' -> final_modules x fuel c' = Ok ms' -> cg_generate x numpy fuel c' = Ok out' ->
  traverse_submodules (pe_cfg x) = true ->
  (forall m k, In m ms' -> within k m -> one_meaning (pe_uni x) (all_types ms') k) ->
  forall ns k y, at_path out ns k -> In y k -> leads y = false ->
    (exists ex, y = GUseSuper ex) \/ exists k', at_path out' ns k' /\ ((exists y', In y' k' /\ kept y y') \/
      exists n ex n' ex', y = GMod n [GPub; GUseSuper ex] /\ In (GMod n' [GPub; GUseSuper ex']) k' /\ incl ex ex' /\ (n' = n \/ exists b, In (GMod n b) k')).
Proof. exact mo_output. Qed.
Print Assumptions C78_output_partial.

(** ** Checks *)
Definition one_meaningb (U : uni) (ts : list path) (m : module) : bool :=
  forallb (fun t => good_keys t && forallb (fun s => forallb (fun q =>
    match filter (path_eqb q) ts ++ flat_map (fun im => filter (keyed U q im) ts) (m_imports m) with [] => true | p :: r => forallb (path_eqb p) r end)
    [path_from_py U s; path_from_py U (before_bracket s)]) (texts t)) (module_types m).
Lemma one_meaningb_ok : forall U ts m, one_meaningb U ts m = true -> one_meaning U ts m.
Proof.
  intros U ts m H t Ht. unfold one_meaningb in H. rewrite forallb_forall in H. specialize (H t Ht). apply andb_true_iff in H as [G H]. split; [exact G|].
  intros s q p p' Hs Hq A A'. rewrite forallb_forall in H. specialize (H s Hs). rewrite forallb_forall in H.
  specialize (H q). assert (Q : In q [path_from_py U s; path_from_py U (before_bracket s)]) by (destruct Hq as [->| ->]; [now left|now right; left]). specialize (H Q).
  assert (M : forall y, stands_for U ts m q y -> In y (filter (path_eqb q) ts ++ flat_map (fun im => filter (keyed U q im) ts) (m_imports m))).
  { intros y [Hy [->|(i & Hi & S)]]; apply in_or_app; [left; apply filter_In; split; [exact Hy|apply path_eqb_refl]|right]. apply in_flat_map. exists i. split; [exact Hi|]. apply filter_In. split; [exact Hy|].
    destruct (seen_key U i y q S) as [E1 E2]. unfold keyed. rewrite E1, E2. apply path_eqb_refl. }
  apply M in A, A'. destruct (filter _ _ ++ _) as [|z r]; [destruct A|].
  rewrite forallb_forall in H. assert (Z : forall y, In y (z :: r) -> y = z). { intros y [->|Hy]; [reflexivity|]. symmetry. apply path_eqb_eq. now apply H. }
  now rewrite (Z p A), (Z p' A').
Qed.
Definition all_meant (ts : list path) := fix go (m : module) : bool := one_meaningb uni_ascii ts m && forallb go (m_subs m).
Lemma all_meant_ok : forall ts ms, forallb (all_meant ts) ms = true -> forall m k, In m ms -> within k m -> one_meaning uni_ascii ts k.
Proof.
  intros ts ms H m k Hm Hk. rewrite forallb_forall in H. specialize (H m Hm). clear Hm. apply one_meaningb_ok.
  induction Hk as [|m t Ht Hk IH].
  - destruct k as [a b c subs cl tv fn pr d ip sr]. cbn [all_meant] in H. now apply andb_true_iff in H as [H _].
  - apply IH. destruct m as [a b c subs cl tv fn pr d ip sr]. cbn [all_meant m_subs] in *. apply andb_true_iff in H as [_ H]. rewrite forallb_forall in H. now apply H.
Qed.

(** ** An example
    [pkg] has [f(x: other.C) -> list[other.C]], [g(d: dict[str, other.C])], a variable and the class [D]; [other] has the class [C] and the module [other.extra]. *)
Definition w_more : world :=
  w_pkg [at_ "f" 3%N; at_ "g" 4%N; at_ "LIMIT" 5%N; at_ "D" 6%N] [] [at_ "other" 9%N; at_ "other.extra" 12%N]
    [fn_ob 1 (sig [par "x" (Some "other.C"%string)] (Some "list[other.C]"%string)); fn_ob 1 (sig [par "d" (Some "dict[str, other.C]"%string)] None); int_ob;
     class_ob 1 [at_ "make" 7%N] [(u "make", StoredOther)]; fn_ob 1 (sig [par "self" None] (Some "other.C"%string)); str_ob "other";
     module_ob "other" [at_ "__name__" 8%N; at_ "__path__" 8%N; at_ "C" 10%N] None [u "extra"]; class_ob 8 [] []; str_ob "other.extra"; module_ob "other.extra" [at_ "__name__" 11%N; at_ "h" 13%N] None []; fn_ob 11 (sig [] None)].
Definition mx : penv := env_of w_more.
Definition mx_two : list request := [AddName (u "other"); AddName (u "pkg")].
Definition ends_ok (l : list request) (x : penv) : Prop :=
  asks x 5 l cg_new = Ok (fx_codegen x l) /\ final_modules x 5 (fx_codegen x l) = Ok (fx_forest x l) /\ cg_generate x false 5 (fx_codegen x l) = Ok (fx_output x l).
Example C78_ex : uni_ok (pe_uni mx) /\ order_ok (pe_ord mx) /\ honest (pe_uni mx) (pe_world mx) /\ names_differ (pe_world mx) /\ asked_modules (pe_world mx) fx_pkg /\ asked_modules (pe_world mx) mx_two /\
  incl (flat_map (asked (pe_world mx)) fx_pkg) (flat_map (asked (pe_world mx)) mx_two) /\ (forall n s, given fx_pkg n = Some s -> given mx_two n = Some s) /\
  ends_ok fx_pkg mx /\ ends_ok mx_two mx /\ traverse_submodules (pe_cfg mx) = true /\
  (forall m k, In m (fx_forest mx mx_two) -> within k m -> one_meaning (pe_uni mx) (all_types (fx_forest mx mx_two)) k).
Proof.
  split; [exact uni_ascii_ok|]. split; [exact fx_order_ok|]. split; [apply honestb_ok; vm_compute; reflexivity|]. split; [apply differb_ok; vm_compute; reflexivity|].
  split; [intros r o [<-|[]] [E|[]]; injection E as <-; reflexivity|]. split; [intros r o [<-|[<-|[]]] [E|[]]; injection E as <-; reflexivity|].
  split; [intros o [<-|[]]; vm_compute; tauto|]. split; [discriminate|]. split; [repeat split; vm_compute; reflexivity|]. split; [repeat split; vm_compute; reflexivity|]. split; [reflexivity|].
  apply all_meant_ok. vm_compute. reflexivity.
Qed.
(** [f] is in both outputs; in the second one its types name the class. *)
Definition params_of (n : String.string) (k : list frag) : list (list (ident * rty)) :=
  flat_map (fun f => match f with GFn d => if str_eqb (k_name (f_contract d)) (u n) then [k_params (f_contract d)] else [] | _ => [] end) k.
Definition body_of (n : String.string) (l : list frag) : list frag := flat_map (fun f => match f with GMod i b => if str_eqb i (u n) then b else [] | _ => [] end) l.
Definition other_c : rty := RBound (RLocal (mk_path false [u "super"; u "other"; u "C"])).
Example C78_ex_types :
  params_of "f" (body_of "pkg" (fx_output mx fx_pkg)) = [[(u "p_x", into_py_of "PyAny")]] /\ params_of "f" (body_of "pkg" (fx_output mx mx_two)) = [[(u "p_x", RRef other_c)]] /\
  params_of "g" (body_of "pkg" (fx_output mx fx_pkg)) = [[(u "p_d", RImpl [u "pyo3"; u "types"; u "IntoPyDict"] [])]] /\
  params_of "g" (body_of "pkg" (fx_output mx mx_two)) = [[(u "p_d", RRef (RAbs [u "std"; u "collections"; u "HashMap"] [RAbs [u "std"; u "string"; u "String"] []; other_c]))]].
Proof. repeat split; vm_compute; reflexivity. Qed.

(** ** What does change
    [more x l l'] are all conditions of the theorem on the outputs but that names have one meaning. *)
Definition more (x : penv) (l l' : list request) : Prop :=
  order_ok (pe_ord x) /\ honest (pe_uni x) (pe_world x) /\ names_differ (pe_world x) /\ asked_modules (pe_world x) l /\ asked_modules (pe_world x) l' /\
  incl (flat_map (asked (pe_world x)) l) (flat_map (asked (pe_world x)) l') /\ (forall n s, given l n = Some s -> given l' n = Some s) /\
  ends_ok l x /\ ends_ok l' x /\ pe_cfg x = default_config.
Ltac mored :=
  split; [exact fx_order_ok|]; split; [apply honestb_ok; vm_compute; reflexivity|]; split; [apply differb_ok; vm_compute; reflexivity|];
  split; [intros r o Hr Ha; repeat (destruct Hr as [<-|Hr]; [destruct Ha as [E|[]]; injection E as <-; reflexivity|]); destruct Hr|];
  split; [intros r o Hr Ha; repeat (destruct Hr as [<-|Hr]; [destruct Ha as [E|[]]; injection E as <-; reflexivity|]); destruct Hr|];
  split; [intros o Ho; vm_compute in Ho |- *; tauto|]; split; [discriminate|]; split; [repeat split; vm_compute; reflexivity|]; split; [repeat split; vm_compute; reflexivity|]; reflexivity.
(** A function that took any object takes a class: calls with other arguments no longer compile. *)
Theorem C78_type_refuted : exists x l l', more x l l' /\
  params_of "f" (body_of "pkg" (fx_output x l)) = [[(u "p_x", into_py_of "PyAny")]] /\ params_of "f" (body_of "pkg" (fx_output x l')) = [[(u "p_x", RRef other_c)]].
Proof. exists mx, fx_pkg, mx_two. split; [mored|]. split; vm_compute; reflexivity. Qed.
Print Assumptions C78_type_refuted.
(** Without one meaning for each name: [k] is [pkg.core]; the result of [f], annotated with [k.C], was [pkg.core.a.C] and becomes [pkg.core.b.C]. *)
Definition w_more_core : world :=
  w_pkg [at_ "k" 3%N; at_ "f" 4%N] [] [at_ "pkg.core" 3%N; at_ "pkg.core.a" 6%N; at_ "pkg.core.b" 8%N]
    [module_ob "pkg.core" [at_ "__name__" 5%N; at_ "__path__" 1%N] None []; fn_ob 1 (sig [] (Some "k.C"%string)); str_ob "pkg.core";
     module_ob "pkg.core.a" [at_ "__name__" 7%N; at_ "C" 10%N] None []; str_ob "pkg.core.a";
     module_ob "pkg.core.b" [at_ "__name__" 9%N; at_ "C" 11%N] None []; str_ob "pkg.core.b"; class_ob 7 [] []; class_ob 9 [] []].
Definition mx_a : list request := [AddName (u "pkg"); AddName (u "pkg.core.a")].
Definition mx_b : list request := [AddName (u "pkg"); AddName (u "pkg.core.a"); AddName (u "pkg.core.b")].
Theorem C78_class_refuted : exists x l l', more x l l' /\
  results (body_of "pkg" (fx_output x l)) = [(u "f", local_class ["core"; "a"; "C"]%string)] /\ results (body_of "pkg" (fx_output x l')) = [(u "f", local_class ["core"; "b"; "C"]%string)].
Proof. exists (env_of w_more_core), mx_a, mx_b. split; [mored|]. split; vm_compute; reflexivity. Qed.
Print Assumptions C78_class_refuted.
(** With a [timedelta] as key (C19) a type can say less than before: the result of [f], annotated with [dict[str, dict[timedelta, other.C]]], was a [HashMap] and becomes a [PyDict]. *)
Definition w_more_key : world :=
  w_pkg [at_ "f" 3%N] [] [at_ "other" 5%N]
    [fn_ob 1 (sig [] (Some "dict[str, dict[timedelta, other.C]]"%string)); str_ob "other"; module_ob "other" [at_ "__name__" 4%N; at_ "C" 6%N] None []; class_ob 4 [] []].
Theorem C78_blunter_refuted : exists x l l', more x l l' /\
  results (body_of "pkg" (fx_output x l)) = [(u "f", RetType (RAbs [u "std"; u "collections"; u "HashMap"] [RAbs [u "std"; u "string"; u "String"] []; RBound (RAbs [u "pyo3"; u "types"; u "PyDict"] [])]))] /\
  results (body_of "pkg" (fx_output x l')) = [(u "f", RetType (RBound (RAbs [u "pyo3"; u "types"; u "PyDict"] [])))].
Proof. exists (env_of w_more_key), fx_pkg, mx_two. split; [mored|]. split; vm_compute; reflexivity. Qed.
Print Assumptions C78_blunter_refuted.

(** The module [pkg.call] takes the name of the prelude, which is [call1] then. *)
Definition w_more_call : world :=
  world_of [at_ "pkg" 2%N; at_ "pkg.call" 4%N]
    [none_ob; str_ob "pkg"; module_ob "pkg" [at_ "__name__" 1%N; at_ "__path__" 1%N; at_ "f" 3%N; at_ "g" 3%N] (Some [u "f"]) []; fn_ob 1 (sig [] None);
     module_ob "pkg.call" [at_ "__name__" 5%N] None []; str_ob "pkg.call"].
Definition mx_call : list request := [AddName (u "pkg"); AddName (u "pkg.call")].
Definition named_uses (k : list frag) : list (ident * list ident) := flat_map (fun f => match f with GMod n [GPub; GUseSuper ex] => [(n, ex)] | _ => [] end) k.
Theorem C78_prelude_refuted : exists x l l', more x l l' /\
  named_uses (body_of "pkg" (fx_output x l)) = [(u "call", [u "f"])] /\ named_uses (body_of "pkg" (fx_output x l')) = [(u "call1", [u "f"])].
Proof. exists (env_of w_more_call), fx_pkg, mx_call. split; [mored|]. split; vm_compute; reflexivity. Qed.
Print Assumptions C78_prelude_refuted.
