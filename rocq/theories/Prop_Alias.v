(** * Property theorems: annotations through an alias (C23) *)
From Coq Require Import Lia.
From Verif Require Import Base Model_Ident Model_Path Model_Import Model_Config Model_Type Model_IntoRs Model_World Model_Out Model_Function Model_Property
  Model_Class Model_Module Model_Parse Model_Codegen Spec_Path Spec_Names Spec_Type Spec_Rust Spec_Items Spec_Tree Spec_Api Spec_Out Spec_Attr Spec_Use Spec_Alias Example_World Example_Honest
  Proof_Base Proof_Path Proof_IntoRs Proof_Alias Prop_Items Prop_Forest Prop_Switch Prop_Use Prop_Clash.

(** ** C23
    The table of the module is used for the annotation [a.r]. The claim: if [a] is bound to what stands at [o], and there is
    a class at [o.r], then the annotation shows this class. It holds if [r] is empty, that is, for a class that was imported
    under another name. For imported modules it is always wrong ([C23_module_refuted]). *)
Theorem C23_class_partial : forall c m ts a o, local_types (cx_dbg c) (cx_uni c) m ts = Ok (cx_local c) -> python_names (cx_uni c) m ts -> just_name c [a] ->
  bound_to (cx_uni c) m a o -> is_class (cx_uni c) ts o ->
  (forall o', bound_to (cx_uni c) m a o' -> o' = o) -> ~ is_class (cx_uni c) ts [a] -> (forall x, ~ is_class (cx_uni c) ts (o ++ [x])) ->
  (forall k, into_rs c (TOther a) <> Panic k) ->
  shows c m a o.
Proof.
  intros c m ts a o Hlt Hpy Hj Hb Ho Hu Ha Hx Hp. apply (shows_only c m ts Hlt Hpy [a] o Hj); [| |exact Hp].
  - split; [exact Ho|]. right. exists a, o, []. split; [exact Hb|]. split; [now rewrite app_nil_r|reflexivity].
  - intros Q [HQ [-> |(a' & o' & t & Hb' & -> & E)]]; [contradiction|]. injection E as -> E. rewrite (Hu o' Hb') in *. destruct t as [|x [|y t]]; [now rewrite app_nil_r|now apply Hx in HQ|discriminate].
Qed.
Print Assumptions C23_class_partial.
(** Whatever is shown is a class, but one name too deep. *)
Theorem C23_shown : forall c m ts a r P, local_types (cx_dbg c) (cx_uni c) m ts = Ok (cx_local c) -> python_names (cx_uni c) m ts -> just_name c (a :: r) ->
  (forall s, In s P -> component s) -> shows c m (dotted 0 (a :: r)) P ->
  is_class (cx_uni c) ts P /\ (P = a :: r \/ exists o, bound_to (cx_uni c) m a o /\ (r = [] /\ P = o \/ exists x, P = o ++ x :: r)).
Proof.
  intros c m ts a r P Hlt Hpy Hj HP H. destruct (shows_from c m ts Hlt Hpy _ _ Hj H HP) as [H1 [H2|(a' & o & t & Hb & H2 & E)]]; (split; [exact H1|]); [now left|right].
  injection E as -> E. exists o. split; [exact Hb|]. destruct t as [|x t]; [left; split; [exact E|now rewrite app_nil_r in H2]|right; exists x; now subst r].
Qed.
Print Assumptions C23_shown.
(** When nothing is shown *)
Theorem C23_not_shown : forall c m ts a r, local_types (cx_dbg c) (cx_uni c) m ts = Ok (cx_local c) -> python_names (cx_uni c) m ts -> just_name c (a :: r) ->
  (shows_any c (dotted 0 (a :: r)) <->
   ~ is_class (cx_uni c) ts (a :: r) /\
   forall o, bound_to (cx_uni c) m a o -> ~ (r = [] /\ is_class (cx_uni c) ts o) /\ forall x, ~ is_class (cx_uni c) ts (o ++ x :: r)).
Proof.
  intros c m ts a r Hlt Hpy Hj. rewrite (shows_any_iff c m ts Hlt Hpy _ Hj). split.
  - intros H. split; [intros K; apply (H (a :: r)); split; [exact K|now left]|]. intros o Hb. split.
    + intros [-> K]. apply (H o). split; [exact K|]. right. exists a, o, []. split; [exact Hb|]. split; [now rewrite app_nil_r|reflexivity].
    + intros x K. apply (H (o ++ x :: r)). split; [exact K|]. right. exists a, o, (x :: r). repeat split. exact Hb.
  - intros [H1 H2] P [HP [-> |(a' & o & t & Hb & -> & E)]]; [contradiction|]. injection E as -> E. destruct (H2 o Hb) as [H3 H4].
    destruct t as [|x t]; [apply H3; split; [exact E|now rewrite app_nil_r in HP]|]. subst t. now apply (H4 x).
Qed.
Print Assumptions C23_not_shown.
(** An annotation through an imported module never shows the class that Python means. *)
Theorem C23_module_refuted : forall c m ts a o r, local_types (cx_dbg c) (cx_uni c) m ts = Ok (cx_local c) -> python_names (cx_uni c) m ts -> just_name c (a :: r) ->
  bound_to (cx_uni c) m a o -> (forall o', bound_to (cx_uni c) m a o' -> o' = o) -> r <> [] -> is_class (cx_uni c) ts (o ++ r) -> o <> [a] ->
  ~ shows c m (dotted 0 (a :: r)) (o ++ r).
Proof.
  intros c m ts a o r Hlt Hpy Hj Hb Hu Hr (p & _ & Sp) Ha H. apply (C23_shown c m ts a r) in H; [|assumption|assumption|assumption|intros s Hs; now apply Sp].
  destruct H as [_ [H|(o' & Hb' & [[H _]|(x & H)])]]; [|contradiction|].
  - apply Ha. apply (app_inv_tail r). exact H.
  - rewrite (Hu o' Hb') in H. apply app_inv_head in H. apply (f_equal (@length _)) in H. cbn in H. lia.
Qed.
Print Assumptions C23_module_refuted.

(** ** An example
    Package [pkg] takes [C] from [pkg.core] as [D], and the module [pkg.core] as [k]. *)
Definition py (s : String.string) : path := path_from_py uni_ascii (u s).
Definition ax_import (o t : String.string) : import := mk_import (py o) (py t) SubmoduleReexport.
Definition ax_module : module := mk_module (py "pkg") [] [ax_import "pkg.core.C" "pkg.D"; ax_import "pkg.core" "pkg.k"] [] [] [] [] [] None true None.
Definition ax_types : list path := map py ["pkg.core.C"; "pkg.core.sub.C"; "pkg.E"]%string.
Definition ax_ctx : ctx := mk_ctx true false uni_ascii (match local_types true uni_ascii ax_module ax_types with Ok lt => lt | _ => [] end).
Definition standsb (p : path) (l : list str) : bool :=
  match l with [] => false | _ => true end &&
  forallb (fun s => nonempty s && negb (contains_char c_dot s) && negb (starts_with [114; 35]%N s) && negb (str_eqb s (u "super"))) l && path_eqb p (path_from_py uni_ascii (dotted 0 l)).
Lemma componentb_ok : forall s, nonempty s && negb (contains_char c_dot s) && negb (starts_with [114; 35]%N s) && negb (str_eqb s (u "super")) = true -> component s /\ s <> u "super".
Proof.
  intros s H. rewrite !andb_true_iff, !negb_true_iff in H. destruct H as [[[H1 H2] H3] H4]. split; [split; [now destruct s|split; [|exact H3]]|].
  - intros K. assert (contains_char c_dot s = true) by now apply contains_char_In. congruence.
  - intros ->. now rewrite str_eqb_refl in H4.
Qed.
Lemma standsb_ok : forall p l, standsb p l = true -> stands uni_ascii p l.
Proof.
  intros p l H. unfold standsb in H. rewrite !andb_true_iff, forallb_forall in H. destruct H as [[H1 H2] H3]. split; [now destruct l|]. split; [|now apply path_eqb_eq].
  intros s Hs. apply componentb_ok. now apply H2.
Qed.
Ltac stood := apply standsb_ok; vm_compute; reflexivity.
Lemma ax_names : python_names uni_ascii ax_module ax_types.
Proof.
  split; [exists [u "pkg"]; stood|]. split.
  - intros p [<-|[<-|[<-|[]]]]; [exists (map u ["pkg"; "core"; "C"]%string)|exists (map u ["pkg"; "core"; "sub"; "C"]%string)|exists (map u ["pkg"; "E"]%string)]; stood.
  - intros im [<-|[<-|[]]]; (split; [|exists [u "pkg"]]); [exists (map u ["pkg"; "core"; "C"]%string)|exists (u "D")|exists (map u ["pkg"; "core"]%string)|exists (u "k")]; stood.
Qed.
Lemma ax_bound : forall a o, bound_to uni_ascii ax_module a o -> a = u "D" /\ o = map u ["pkg"; "core"; "C"]%string \/ a = u "k" /\ o = map u ["pkg"; "core"]%string.
Proof.
  intros a o (im & t & [<-|[<-|[]]] & So & St); [left|right]; (split; [|apply (stands_inj uni_ascii _ _ _ So); stood]).
  - assert (E : t ++ [a] = [u "pkg"] ++ [u "D"]) by (apply (stands_inj uni_ascii _ _ _ St); stood). now apply app_inj_tail in E as [_ E].
  - assert (E : t ++ [a] = [u "pkg"] ++ [u "k"]) by (apply (stands_inj uni_ascii _ _ _ St); stood). now apply app_inj_tail in E as [_ E].
Qed.
Lemma ax_class : forall l, is_class uni_ascii ax_types l -> In l (map (map u) [["pkg"; "core"; "C"]; ["pkg"; "core"; "sub"; "C"]; ["pkg"; "E"]]%string).
Proof.
  intros l (p & [<-|[<-|[<-|[]]]] & Sp); [left|right; left|right; right; left]; symmetry; apply (stands_inj uni_ascii _ _ _ Sp); stood.
Qed.
Lemma ax_just : forall n, forallb (fun s => nonempty s && negb (contains_char c_dot s) && negb (starts_with [114; 35]%N s) && negb (str_eqb s (u "super"))) n = true ->
  forallb (fun c => negb (is_ws c) && negb (contains_char c (u "[]|,'<>"))) (dotted 0 n) && nonempty (dotted 0 n) && negb (starts_with (u "typing.") (dotted 0 n)) &&
    negb (starts_with (u "collections.") (dotted 0 n)) && negb (contains_str (u "::") (dotted 0 n)) = true ->
  table_get (dotted 0 n) name_table = None -> just_name ax_ctx n.
Proof.
  intros n H1 H2 H3. rewrite forallb_forall in H1. rewrite !andb_true_iff, !negb_true_iff, forallb_forall in H2. destruct H2 as [[[[K1 K2] K3] K4] K5].
  split; [intros s Hs; now apply componentb_ok, H1|]. split; [|split; [exact H3|split; [now right|now left]]].
  split; [now destruct (dotted 0 n)|]. split; [|now split]. intros c Hc. apply K1 in Hc. rewrite andb_true_iff, !negb_true_iff in Hc. destruct Hc as [C1 C2]. split; [exact C1|].
  intros K. apply contains_char_In in K. congruence.
Qed.
Example C23_ex : local_types (cx_dbg ax_ctx) (cx_uni ax_ctx) ax_module ax_types = Ok (cx_local ax_ctx) /\ python_names uni_ascii ax_module ax_types /\
  just_name ax_ctx [u "D"] /\ bound_to uni_ascii ax_module (u "D") (map u ["pkg"; "core"; "C"]%string) /\ is_class uni_ascii ax_types (map u ["pkg"; "core"; "C"]%string) /\
  (forall o', bound_to uni_ascii ax_module (u "D") o' -> o' = map u ["pkg"; "core"; "C"]%string) /\ ~ is_class uni_ascii ax_types [u "D"] /\
  (forall x, ~ is_class uni_ascii ax_types (map u ["pkg"; "core"; "C"]%string ++ [x])) /\ (forall k, into_rs ax_ctx (TOther (u "D")) <> Panic k) /\
  just_name ax_ctx (map u ["k"; "C"]%string) /\ bound_to uni_ascii ax_module (u "k") (map u ["pkg"; "core"]%string) /\
  (forall o', bound_to uni_ascii ax_module (u "k") o' -> o' = map u ["pkg"; "core"]%string) /\
  shows ax_ctx ax_module (u "k.C") (map u ["pkg"; "core"; "sub"; "C"]%string).
Proof.
  split; [vm_compute; reflexivity|]. split; [exact ax_names|]. split; [apply ax_just; vm_compute; reflexivity|].
  split; [exists (ax_import "pkg.core.C" "pkg.D"), [u "pkg"]; split; [now left|split; stood]|]. split; [exists (py "pkg.core.C"); split; [now left|stood]|].
  split; [intros o' H; apply ax_bound in H as [[_ H]|[H _]]; [exact H|discriminate]|]. split; [intros H; apply ax_class in H; vm_compute in H; intuition discriminate|].
  split; [intros x H; apply ax_class in H; vm_compute in H; intuition discriminate|]. split; [intros k; vm_compute; discriminate|].
  split; [apply ax_just; vm_compute; reflexivity|]. split; [exists (ax_import "pkg.core" "pkg.k"), [u "pkg"]; split; [right; now left|split; stood]|].
  split; [intros o' H; apply ax_bound in H as [[H _]|[_ H]]; [discriminate|exact H]|].
  eexists. eexists. split; [vm_compute; reflexivity|]. split; [vm_compute; reflexivity|]. vm_compute. reflexivity.
Qed.

(** ** In the output
    [pkg] imports its module [pkg.core] as [k]. The functions are annotated with [k.C] and [k]. *)
Definition w_aliased (deep : bool) : world :=
  w_pkg [at_ "k" 3%N; at_ "f" 4%N; at_ "g" 5%N] [u "core"] [at_ "pkg.core" 3%N; at_ "pkg.core.sub" 6%N]
    [module_ob "pkg.core" [at_ "__name__" 7%N; at_ "__path__" 1%N; at_ "C" 8%N] None (if deep then [u "sub"] else []);
     fn_ob 1 (sig [] (Some "k.C"%string)); fn_ob 1 (sig [] (Some "k"%string));
     module_ob "pkg.core.sub" [at_ "__name__" 9%N; at_ "C" 10%N] None []; str_ob "pkg.core"; class_ob 7 [] []; str_ob "pkg.core.sub"; class_ob 9 [] []].
Definition results (k : list frag) : list (ident * ret) := flat_map (fun f => match f with GFn d => [(k_name (f_contract d), k_ret (f_contract d))] | _ => [] end) k.
Definition local_class (l : list String.string) : ret := RetType (RBound (RLocal (mk_path false (map u l)))).
(** [k.C] is [pkg.core.sub.C] instead of [pkg.core.C]; the module itself is taken for a class. *)
Theorem C23_wrong_class_refuted : exists x c out k, runs x c out k /\ bound_to (pe_uni x) (parsed_of x) (u "k") (map u ["pkg"; "core"]%string) /\
  In (u "f", local_class ["core"; "sub"; "C"]%string) (results k) /\ In (u "g", local_class ["core"; "C"]%string) (results k).
Proof.
  clash (w_aliased true). split; [exists (ax_import "pkg.core" "pkg.k"), [u "pkg"]; split; [vm_compute; now left|split; stood]|]. split; vm_compute; tauto.
Qed.
Print Assumptions C23_wrong_class_refuted.
(** Without such a class [k.C] is any object, although [pkg.core.C] is generated. *)
Theorem C23_lost_refuted : exists x c out k, runs x c out k /\ bound_to (pe_uni x) (parsed_of x) (u "k") (map u ["pkg"; "core"]%string) /\
  In (u "f", RetType (bound_of "PyAny")) (results k) /\ In (u "g", local_class ["core"; "C"]%string) (results k).
Proof.
  clash (w_aliased false). split; [exists (ax_import "pkg.core" "pkg.k"), [u "pkg"]; split; [vm_compute; now left|split; stood]|]. split; vm_compute; tauto.
Qed.
Print Assumptions C23_lost_refuted.
