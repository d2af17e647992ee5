(** * Property theorems: parsing terminates (C55) *)
From Verif Require Import Base Model_Ident Model_Path Model_Import Model_Config Model_Type Model_IntoRs Model_World Model_Out Model_Function Model_Property
  Model_Class Model_Module Model_Parse Model_Codegen Spec_Path Spec_Names Spec_Items Spec_Tree Spec_Api Spec_Out Spec_Privacy Spec_Term Example_World Example_Honest
  Proof_Base Proof_Ident Proof_Honest Proof_Rooted Proof_Term Prop_Items Prop_Forest.

(** ** C55
    The full claim is for every finite package, with or without cycles. It holds if no module is inside itself; a package
    with a submodule that is the package itself is read for ever ([C55_loop], [C55_cycle_refuted]). *)
(** Finitely many modules and none inside itself: there is a depth that is enough, and the result does not depend on it. *)
Theorem C55_acyclic_partial : forall x L, order_ok (pe_ord x) -> closed_list (pe_uni x) (pe_world x) L -> acyclic (pe_uni x) (pe_world x) ->
  exists n, forall fuel o, n <= fuel -> In o L -> mod_parse x fuel o <> OutOfFuel /\ mod_parse x fuel o = mod_parse x n o.
Proof.
  intros x L Ho HL HA. destruct (list_halts x Ho L (finite_acc x L HL HA)) as (n & Hn). exists n. intros fuel o Hf Hi.
  split; [now apply Hn|]. apply more_fuel; [exact Hf|]. now apply Hn.
Qed.
Print Assumptions C55_acyclic_partial.
(** Modules that know their names, finitely many: however they refer to each other, every run ends. *)
Theorem C55_named_partial : forall x L, uni_ok (pe_uni x) -> order_ok (pe_ord x) -> honest (pe_uni x) (pe_world x) ->
  (forall o, is_module (pe_world x) o -> In o L) ->
  exists n, forall fuel, n <= fuel ->
    (forall o, is_module (pe_world x) o -> mod_parse x fuel o <> OutOfFuel /\ mod_parse x fuel o = mod_parse x n o) /\
    forall l, asked_modules (pe_world x) l -> asks x fuel l cg_new <> OutOfFuel /\
      forall c, asks x fuel l cg_new = Ok c -> final_modules x fuel c <> OutOfFuel /\ forall numpy, cg_generate x numpy fuel c <> OutOfFuel.
Proof.
  intros x L HU Ho Hw HL. set (M := filter (fun o => tf_is_module (w_type (pe_world x) o)) L).
  destruct (list_halts x Ho M) as (n & Hn).
  { intros o Hi. apply filter_In in Hi as [_ Hi]. now apply (honest_acc x Hw L HL). }
  assert (HM : forall o, is_module (pe_world x) o -> In o M) by (intros o Hm; apply filter_In; split; [now apply HL|exact Hm]).
  exists n. intros fuel Hf. assert (Hp : forall o, is_module (pe_world x) o -> halts (mod_parse x fuel o)) by (intros o Hm; apply Hn; [exact Hf|now apply HM]).
  assert (Hi : forall s o, w_import (pe_world x) s = Some o -> is_module (pe_world x) o) by (intros s o E; now apply (hn_import _ _ Hw s)).
  split; [intros o Hm; split; [now apply Hp|]; apply more_fuel; [exact Hf|]; apply Hn; [lia|now apply HM]|].
  intros l Hl. split; [now apply (ht_asks x fuel Hp Hi)|]. intros c Hc.
  pose proof (ht_final x fuel Hp Hi c) as Hfin. split; [exact Hfin|]. intros numpy.
  destruct (final_modules x fuel c) as [ms|e|k|] eqn:E; [|unfold cg_generate; rewrite E; discriminate..|now destruct Hfin].
  apply (C56_unreachable_partial x numpy fuel l c ms HU Ho (honest_named _ _ Hw) Hl Hc E).
Qed.
Print Assumptions C55_named_partial.
(** A module that has itself inside, directly or not, is never read to the end. *)
Theorem C55_loop : forall x (f : nat -> oid), order_ok (pe_ord x) -> traverse_submodules (pe_cfg x) = true ->
  (forall n, surely_enters (pe_uni x) (pe_world x) (is_attr_allowed (pe_cfg x)) (f n) (f (S n))) -> forall fuel n m, mod_parse x fuel (f n) <> Ok m.
Proof.
  intros x f Ho Ht Hf fuel n m H. apply (ok_acc x Ho Ht) in H. remember (f n) as o eqn:E. revert n E. induction H as [o _ IH].
  intros n ->. exact (IH (f (S n)) (Hf n) (S n) eq_refl).
Qed.
Print Assumptions C55_loop.
(** The file [pkg/me.py] puts the package in its own place: importing [pkg.me] gives [pkg]. *)
Definition w_cycle : world := w_pkg [] [u "me"] [at_ "pkg.me" 2%N] [].
Theorem C55_cycle_refuted : exists x L, order_ok (pe_ord x) /\ named_world (pe_world x) /\ closed_list (pe_uni x) (pe_world x) L /\ pe_cfg x = default_config /\
  exists o, In o L /\ is_module (pe_world x) o /\ forall fuel, mod_parse x fuel o = OutOfFuel.
Proof.
  exists (env_of w_cycle), [2%N]. split; [exact fx_order_ok|]. split; [apply named_objects; repeat (constructor; [cbn; first [discriminate|easy]|]); constructor|].
  assert (Hi : forall n s, w_import w_cycle n = Some s -> s = 2%N).
  { intros n s E. apply find_str_In in E. destruct E as [E|[E|[]]]; now injection E as _ <-. }
  split.
  { intros o s _ (n & Hn & [E|(_ & E & E1)]); left; symmetry; [exact (Hi _ s E)|].
    change (find_str (ob_attrs (ob_at [none_ob; str_ob "pkg"; module_ob "pkg" [at_ "__name__" 1%N; at_ "__path__" 1%N] None [u "me"]] o)) (as_py (ident_from_py uni_ascii n)) = Some s) in E.
    apply find_str_In in E. unfold ob_at in E. destruct (nth_in_or_default (N.to_nat o) [none_ob; str_ob "pkg"; module_ob "pkg" [at_ "__name__" 1%N; at_ "__path__" 1%N] None [u "me"]] none_ob) as [K|K].
    - destruct K as [K|[K|[K|[]]]]; rewrite <- K in E; cbn in E; [easy|easy|]. destruct E as [E|[E|[E|[]]]]; injection E as _ <-; discriminate.
    - rewrite K in E. easy. }
  split; [reflexivity|]. exists 2%N. split; [now left|]. split; [reflexivity|].
  induction fuel as [|f IH]; [reflexivity|]. cbn [mod_parse].
  assert (K : forall rec, rec 2%N = OutOfFuel -> mod_parse_body (env_of w_cycle) rec 2%N = OutOfFuel) by (intros rec H; vm_compute; now rewrite H).
  now apply K.
Qed.
Print Assumptions C55_cycle_refuted.
(** [pkg] has [pkg.sub] as an attribute, and [pkg.sub] has itself and [pkg] as attributes: this ends. *)
Definition mutual_imports : list (str * oid) := [at_ "pkg.sub" 3%N].
Definition w_mutual : world := w_pkg [at_ "sub" 3%N; at_ "self" 2%N] [u "sub"] mutual_imports
  [module_ob "pkg.sub" [at_ "__name__" 4%N; at_ "parent" 2%N; at_ "self" 3%N] None []; str_ob "pkg.sub"].
Example C55_ex : honest uni_ascii w_mutual /\ (forall o, is_module w_mutual o -> In o [2%N; 3%N]) /\ enters uni_ascii w_mutual 2%N 3%N /\
  (exists m s, mod_parse (env_of w_mutual) 2 2%N = Ok m /\ m_subs m = [s] /\ to_py (m_name s) = u "pkg.sub" /\ map (fun i => to_py (im_target i)) (m_imports s) = [u "pkg.sub.parent"; u "pkg.sub.self"]) /\
  (exists f, forall n, surely_enters uni_ascii w_cycle (is_attr_allowed default_config) (f n) (f (S n))).
Proof.
  split; [apply honestb_ok; vm_compute; reflexivity|]. split.
  { intros o H. unfold is_module in H. change (tf_is_module (ob_type (ob_at [none_ob; str_ob "pkg"; module_ob "pkg" [at_ "__name__" 1%N; at_ "__path__" 1%N; at_ "sub" 3%N; at_ "self" 2%N] None [u "sub"];
      module_ob "pkg.sub" [at_ "__name__" 4%N; at_ "parent" 2%N; at_ "self" 3%N] None []; str_ob "pkg.sub"] o)) = true) in H. unfold ob_at in H.
    destruct (N.to_nat o) as [|[|[|[|[|k]]]]] eqn:E; try discriminate; [left|right; left|cbn in H; destruct k; discriminate]; apply N2Nat.inj; now rewrite E. }
  split; [exists (u "sub"); split; [left; now left|left; reflexivity]|]. split.
  - eexists _, _. split; [vm_compute; reflexivity|]. split; [reflexivity|]. split; vm_compute; reflexivity.
  - exists (fun _ => 2%N). intros n. exists (u "me"). split; [now left|]. split; [discriminate|]. split; [reflexivity|]. split; [|reflexivity].
    intros a [<-|[<-|[<-|[]]]]; discriminate.
Qed.
