(** * Property theorems: the order in which hash sets are walked (C72) *)
From Coq Require Import Permutation.
From Verif Require Import Base Model_Ident Model_Path Model_Import Model_Config Model_Type Model_IntoRs Model_World Model_Out Model_Function Model_Property
  Model_Class Model_Module Model_Parse Model_Codegen Spec_Path Spec_Names Spec_Items Spec_Tree Spec_Api Spec_Out Spec_Privacy Spec_Attr Spec_Use Spec_Hash Example_World Example_Honest
  Proof_Base Proof_Ident Proof_Path Proof_IntoRs Proof_Hash Proof_Twin Proof_Reorder Prop_Items Prop_Forest Prop_Switch Prop_Use Prop_Clash Prop_Alias.

(** ** C72
    [pe_ord] is the order in which the code walks its hash sets: the submodules of a package (module.rs:214)
    and the items of modules that are merged (codegen.rs:298-365).
    Here two runs walk them in different orders, and the same modules may have been asked for in different orders.
    Without the conditions on names the full claim fails ([C72_type_refuted]); a run may also stop for one order only ([C72_abort_refuted]). *)
Theorem C72_forest_partial : forall x h fuel l l' c c' ms ms', order_ok (pe_ord x) -> order_ok h ->
  (generate_dependencies (pe_cfg x) = true -> honest (pe_uni x) (pe_world x) /\ names_differ (pe_world x)) ->
  same_members (flat_map (asked (pe_world x)) l) (flat_map (asked (pe_world x)) l') ->
  asks x fuel l cg_new = Ok c -> final_modules x fuel c = Ok ms -> asks (with_order x h) fuel l' cg_new = Ok c' -> final_modules (with_order x h) fuel c' = Ok ms' ->
  same_forest ms ms'.
Proof. exact final_alike. Qed.
Print Assumptions C72_forest_partial.
Theorem C72_output_partial : forall x h numpy fuel l l' c c' ms out out', order_ok (pe_ord x) -> order_ok h -> uni_ok (pe_uni x) ->
  honest (pe_uni x) (pe_world x) -> names_differ (pe_world x) -> asked_modules (pe_world x) l ->
  same_members (flat_map (asked (pe_world x)) l) (flat_map (asked (pe_world x)) l') -> (forall n, given l n = given l' n) ->
  asks x fuel l cg_new = Ok c -> final_modules x fuel c = Ok ms ->
  (forall m k, In m ms -> within k m -> variables_named (pe_uni x) k /\ unambiguous (pe_uni x) (all_types ms) k) -> cg_generate x numpy fuel c = Ok out ->
  asks (with_order x h) fuel l' cg_new = Ok c' -> cg_generate (with_order x h) numpy fuel c' = Ok out' ->
  reordered out out'.
Proof. exact output_reordered. Qed.
Print Assumptions C72_output_partial.
(** What that means: the items are the same, each with what stands in front of it, up to their order, the order inside modules and the order of the names in a prelude;
    and the modules are the same. *)
Theorem C72_items : forall a b, reordered a b -> exists p, Permutation (split_items [] a) p /\ Forall2 alike_item p (split_items [] b).
Proof. exact reordered_items. Qed.
Print Assumptions C72_items.
Theorem C72_paths : forall out out', reordered out out' ->
  (forall ns k, at_path out ns k -> exists k', at_path out' ns k' /\ reordered k k') /\ (forall ns k', at_path out' ns k' -> exists k, at_path out ns k /\ reordered k k').
Proof.
  intros out out' R. split; intros ns k H; [exact (reordered_path out ns k H out' R)|].
  destruct (reordered_path out' ns k H out (reordered_sym _ _ R)) as (k' & A & B). exists k'. split; [exact A|now apply reordered_sym].
Qed.
Print Assumptions C72_paths.

(** ** Names that stand for two classes
    [k] is [pkg.core], and each of its modules [a] and [b] has a class [C]. The annotation [k.C] means neither of them; which one the bindings take depends on the order. *)
Definition rev_order : hash_order := mk_order (fun _ l => rev l).
Lemma rev_order_ok : order_ok rev_order.
Proof. intros A l. apply Permutation_sym, Permutation_rev. Qed.
Definition w_core (first second : String.string) : world :=
  w_pkg [at_ "k" 3%N; at_ "f" 4%N] [u "core"] [at_ "pkg.core" 3%N; at_ "pkg.core.a" 6%N; at_ "pkg.core.b" 8%N]
    [module_ob "pkg.core" [at_ "__name__" 5%N; at_ "__path__" 1%N] None [u "a"; u "b"]; fn_ob 1 (sig [] (Some "k.C"%string)); str_ob "pkg.core";
     module_ob "pkg.core.a" [at_ "__name__" 7%N; at_ first 10%N] None []; str_ob "pkg.core.a";
     module_ob "pkg.core.b" [at_ "__name__" 9%N; at_ second 11%N] None []; str_ob "pkg.core.b"; class_ob 7 [] []; class_ob 9 [] []].
Theorem C72_type_refuted : exists x h c c' out out' k k', runs x c out k /\ runs (with_order x h) c' out' k' /\
  results k = [(u "f", local_class ["core"; "b"; "C"]%string)] /\ results k' = [(u "f", local_class ["core"; "a"; "C"]%string)].
Proof.
  set (x := env_of (w_core "C" "C")). exists x, rev_order, (fx_codegen x fx_pkg), (fx_codegen (with_order x rev_order) fx_pkg), (fx_output x fx_pkg), (fx_output (with_order x rev_order) fx_pkg),
    (px_body (fx_output x fx_pkg)), (px_body (fx_output (with_order x rev_order) fx_pkg)).
  split; [|split; [|split; vm_compute; reflexivity]];
    (split; [exact uni_ascii_ok|split; [exact fx_order_ok || exact rev_order_ok|split; [reflexivity|split; [apply honestb_ok; vm_compute; reflexivity|split; [apply differb_ok; vm_compute; reflexivity|
      split; [intros r o [<-|[]] [E|[]]; injection E as <-; reflexivity|split; [vm_compute; reflexivity|split; [vm_compute; reflexivity|apply bodies_ok; vm_compute; tauto]]]]]]]]).
Qed.
Print Assumptions C72_type_refuted.
(** ** A run that stops for one order only
    [pkg.sub] is hidden by a function [sub]; its module [e1] has no [__doc__] and its module [e2] has a property whose setter takes no value.
    The error for [e1] is dropped together with [pkg.sub]; the one for [e2] is a panic. *)
Definition w_stops : world :=
  w_pkg [at_ "sub" 5%N] [u "sub"] [at_ "pkg.sub" 3%N; at_ "pkg.sub.e1" 6%N; at_ "pkg.sub.e2" 8%N]
    [module_ob "pkg.sub" [at_ "__name__" 4%N; at_ "__path__" 1%N] None [u "e1"; u "e2"]; str_ob "pkg.sub"; fn_ob 7 (sig [] None);
     mk_ob [at_ "__name__" 7%N] (u "<module>") (facts "module" true false false false false no_sub "<class 'module'>") None [] (u "pkg.sub.e1") None []; str_ob "pkg.sub.e1";
     module_ob "pkg.sub.e2" [at_ "__name__" 9%N; at_ "C" 10%N] None []; str_ob "pkg.sub.e2"; class_ob 9 [at_ "p" 11%N] []; prop_ob [at_ "fget" 12%N; at_ "fset" 12%N]; getter].
Theorem C72_abort_refuted : exists x h c out k, runs x c out k /\ order_ok h /\ asks (with_order x h) 5 fx_pkg cg_new = Panic PUnwrap.
Proof.
  set (x := env_of w_stops). exists x, rev_order, (fx_codegen x fx_pkg), (fx_output x fx_pkg), (px_body (fx_output x fx_pkg)).
  split; [|split; [exact rev_order_ok|vm_compute; reflexivity]].
  split; [exact uni_ascii_ok|split; [exact fx_order_ok|split; [reflexivity|split; [apply honestb_ok; vm_compute; reflexivity|split; [apply differb_ok; vm_compute; reflexivity|
      split; [intros r o [<-|[]] [E|[]]; injection E as <-; reflexivity|split; [vm_compute; reflexivity|split; [vm_compute; reflexivity|apply bodies_ok; vm_compute; tauto]]]]]]]].
Qed.
Print Assumptions C72_abort_refuted.

(** ** Checks for the example *)
Lemma seen_key : forall U im p q, seen_as U im p q -> path_starts_with p (im_origin im) = true /\ alias_key false U im p = Ok q.
Proof.
  intros U im p q (t & a & Et & (r & Er) & D). split; [apply path_starts_with_iff; now exists r|]. unfold alias_key.
  assert (N : path_name (im_target im) = Ok a) by (unfold path_name; now rewrite Et, last_opt_app).
  destruct D as [(s & b & r' & E & Es & ->)|[K ->]].
  - change (c_dot :: s) with ([c_dot] ++ s) in E. rewrite app_assoc in E. rewrite E, strip_prefix_app. unfold path_from_py_chk. cbn [andb obind]. rewrite N. cbn [obind]. unfold set_first. now rewrite Es.
  - destruct (strip_prefix _ _) as [s|] eqn:E; [|rewrite N; reflexivity]. apply strip_prefix_Some in E. destruct (K s). now rewrite E, <- app_assoc.
Qed.
Definition keyed (U : uni) (q : path) (im : import) (p : path) : bool :=
  path_starts_with p (im_origin im) && match alias_key false U im p with Ok k => path_eqb k q | _ => false end.
Definition unambiguousb (U : uni) (ts : list path) (m : module) : bool :=
  forallb (fun s => forallb (fun q =>
    match flat_map (fun im => filter (keyed U q im) ts) (m_imports m) with [] => true | p :: r => forallb (path_eqb p) r end)
    [path_from_py U s; path_from_py U (before_bracket s)]) (module_texts m).
Lemma unambiguousb_ok : forall U ts m, unambiguousb U ts m = true -> unambiguous U ts m.
Proof.
  intros U ts m H s q im im' p p' Hs Hq Hi Hi' Hp Hp' A A'. unfold unambiguousb in H. rewrite forallb_forall in H. specialize (H s Hs). rewrite forallb_forall in H.
  specialize (H q). assert (Q : In q [path_from_py U s; path_from_py U (before_bracket s)]) by (destruct Hq as [->| ->]; [now left|now right; left]). specialize (H Q).
  assert (M : forall i y, In i (m_imports m) -> In y ts -> seen_as U i y q -> In y (flat_map (fun im => filter (keyed U q im) ts) (m_imports m))).
  { intros i y Hi0 Hy S. apply in_flat_map. exists i. split; [exact Hi0|]. apply filter_In. split; [exact Hy|]. destruct (seen_key U i y q S) as [E1 E2]. unfold keyed. rewrite E1, E2. apply path_eqb_refl. }
  pose proof (M im p Hi Hp A) as B. pose proof (M im' p' Hi' Hp' A') as B'. destruct (flat_map _ _) as [|z r]; [destruct B|].
  rewrite forallb_forall in H. assert (Z : forall y, In y (z :: r) -> y = z). { intros y [->|Hy]; [reflexivity|]. symmetry. apply path_eqb_eq. now apply H. }
  now rewrite (Z p B), (Z p' B').
Qed.
Definition no_variables (U : uni) (m : module) : bool :=
  match m_properties m with [] => forallb (fun f => match last_opt (segs (fn_name f)) with Some i => negb (starts_with (u "r#") (as_py i)) && str_eqb i (ident_from_py U (as_py i)) | None => false end) (m_functions m) | _ => false end.
Lemma no_variables_ok : forall U m, no_variables U m = true -> variables_named U m.
Proof.
  intros U m H. unfold no_variables in H. destruct (m_properties m) as [|? ?] eqn:E; [|discriminate].
  exists (map (fun f => as_py (last (segs (fn_name f)) [])) (m_functions m)). rewrite E. split; [|intros p []].
  rewrite forallb_forall in H. induction (m_functions m) as [|f r IH]; [constructor|]. cbn [map]. constructor; [|apply IH; intros g Hg; apply H; now right].
  specialize (H f (or_introl eq_refl)). destruct (last_opt (segs (fn_name f))) as [i|] eqn:L; [|discriminate]. apply last_opt_split in L as (t & L). rewrite L, last_last.
  apply andb_true_iff in H as [H1 H2]. split; [now apply negb_true_iff|]. exists t. rewrite L. now apply str_eqb_eq in H2 as <-.
Qed.
Definition all_fine (ts : list path) := fix go (m : module) : bool := (no_variables uni_ascii m && unambiguousb uni_ascii ts m) && forallb go (m_subs m).
Lemma all_fine_ok : forall ts ms, forallb (all_fine ts) ms = true -> forall m k, In m ms -> within k m -> variables_named uni_ascii k /\ unambiguous uni_ascii ts k.
Proof.
  intros ts ms H m k Hm Hk. rewrite forallb_forall in H. specialize (H m Hm). clear Hm.
  enough (G : no_variables uni_ascii k && unambiguousb uni_ascii ts k = true) by (apply andb_true_iff in G as [G1 G2]; split; [now apply no_variables_ok|now apply unambiguousb_ok]).
  induction Hk as [|m t Ht Hk IH].
  - destruct k as [a b c subs cl tv fn pr d ip sr]. cbn [all_fine] in H. now apply andb_true_iff in H as [H _].
  - apply IH. destruct m as [a b c subs cl tv fn pr d ip sr]. cbn [all_fine m_subs] in *. apply andb_true_iff in H as [_ H]. rewrite forallb_forall in H. now apply H.
Qed.
(** The same package with classes [C] and [D]: the modules [a] and [b] change places, [k.C] is [pkg.core.a.C] in both runs. *)
Definition cx : penv := env_of (w_core "C" "D").
Definition cx' : penv := with_order cx rev_order.
Definition mods_at (k : list frag) : list ident := flat_map (fun f => match f with GMod n _ => [n] | _ => [] end) k.
Definition core_of (k : list frag) : list frag := flat_map (fun f => match f with GMod n b => if str_eqb n (u "core") then b else [] | _ => [] end) k.
Example C72_ex : order_ok (pe_ord cx) /\ order_ok rev_order /\ uni_ok (pe_uni cx) /\ honest (pe_uni cx) (pe_world cx) /\ names_differ (pe_world cx) /\ asked_modules (pe_world cx) fx_pkg /\
  asks cx 5 fx_pkg cg_new = Ok (fx_codegen cx fx_pkg) /\ final_modules cx 5 (fx_codegen cx fx_pkg) = Ok (fx_forest cx fx_pkg) /\
  (forall m k, In m (fx_forest cx fx_pkg) -> within k m -> variables_named (pe_uni cx) k /\ unambiguous (pe_uni cx) (all_types (fx_forest cx fx_pkg)) k) /\
  cg_generate cx false 5 (fx_codegen cx fx_pkg) = Ok (fx_output cx fx_pkg) /\
  asks cx' 5 fx_pkg cg_new = Ok (fx_codegen cx' fx_pkg) /\ final_modules cx' 5 (fx_codegen cx' fx_pkg) = Ok (fx_forest cx' fx_pkg) /\ cg_generate cx' false 5 (fx_codegen cx' fx_pkg) = Ok (fx_output cx' fx_pkg).
Proof.
  split; [exact fx_order_ok|]. split; [exact rev_order_ok|]. split; [exact uni_ascii_ok|]. split; [apply honestb_ok; vm_compute; reflexivity|]. split; [apply differb_ok; vm_compute; reflexivity|].
  split; [intros r o [<-|[]] [E|[]]; injection E as <-; reflexivity|]. split; [vm_compute; reflexivity|]. split; [vm_compute; reflexivity|].
  split; [apply all_fine_ok; vm_compute; reflexivity|]. repeat split; vm_compute; reflexivity.
Qed.
Example C72_ex_orders : mods_at (core_of (px_body (fx_output cx fx_pkg))) = [u "a"; u "b"] /\ mods_at (core_of (px_body (fx_output cx' fx_pkg))) = [u "b"; u "a"] /\
  results (px_body (fx_output cx fx_pkg)) = [(u "f", local_class ["core"; "a"; "C"]%string)] /\
  results (px_body (fx_output cx' fx_pkg)) = [(u "f", local_class ["core"; "a"; "C"]%string)].
Proof. repeat split; vm_compute; reflexivity. Qed.
