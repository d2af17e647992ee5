(** * Lemmas: requests, and the forest they lead to *)
From Coq Require Import Permutation.
From Verif Require Import Base Model_Ident Model_Path Model_Import Model_Text Model_Config Model_Type Model_IntoRs Model_World Model_Out
  Model_Function Model_Property Model_Class Model_Module Model_Parse Model_Codegen Spec_Path Spec_Names Spec_Call Spec_Items Spec_Tree Spec_Api
  Proof_Base Proof_Ident Proof_Path Proof_IntoRs Proof_Function Proof_Items Proof_Module Proof_Parse Proof_Forest Proof_Err.

(** ** Requests *)
Definition parsed_as (x : penv) (fuel : nat) (q : option oid) (m : module) : Prop := exists o, q = Some o /\ mod_parse x fuel o = Ok m.

Lemma modules_all_state : forall x fuel l c c', cg_modules_all x fuel l c = Ok c' ->
  exists ms, Forall2 (parsed_as x fuel) (map Some l) ms /\ c' = mk_codegen (cg_modules c ++ ms) (cg_sources c).
Proof.
  intros x fuel. induction l as [|o l IH]; intros c c' H; cbn [cg_modules_all] in H.
  - injection H as <-. exists []. split; [constructor|]. rewrite app_nil_r. now destruct c.
  - apply bind_Ok in H as (c1 & H1 & H). unfold cg_module in H1. apply bind_Ok in H1 as (m & Hm & H1). injection H1 as <-.
    destruct (IH _ _ H) as (ms & Hms & ->). exists (m :: ms). split; [constructor; [now exists o|exact Hms]|]. cbn. now rewrite <- app_assoc.
Qed.
Lemma module_name_state : forall x fuel n c c', cg_module_name x fuel n c = Ok c' ->
  exists m, parsed_as x fuel (w_import (pe_world x) n) m /\ c' = mk_codegen (cg_modules c ++ [m]) (cg_sources c).
Proof.
  intros x fuel n c c' H. unfold cg_module_name in H. destruct (w_import (pe_world x) n) as [o|]; [|discriminate].
  unfold cg_module in H. apply bind_Ok in H as (m & Hm & H). injection H as <-. exists m. split; [now exists o|reflexivity].
Qed.
Lemma module_names_state : forall x fuel l c c', cg_module_names x fuel l c = Ok c' ->
  exists ms, Forall2 (parsed_as x fuel) (map (w_import (pe_world x)) l) ms /\ c' = mk_codegen (cg_modules c ++ ms) (cg_sources c).
Proof.
  intros x fuel. induction l as [|n l IH]; intros c c' H; cbn [cg_module_names] in H.
  - injection H as <-. exists []. split; [constructor|]. rewrite app_nil_r. now destruct c.
  - apply bind_Ok in H as (c1 & H1 & H). apply module_name_state in H1 as (m & Hm & ->).
    destruct (IH _ _ H) as (ms & Hms & ->). exists (m :: ms). split; [now constructor|]. cbn. now rewrite <- app_assoc.
Qed.

Definition sources_after (r : request) (s : list (str * str)) : list (str * str) :=
  match r with AddSource src n _ => map_insert s n src | _ => s end.
Lemma ask_state : forall x fuel r c c', ask x fuel r c = Ok c' ->
  exists ms, Forall2 (parsed_as x fuel) (asked (pe_world x) r) ms /\ c' = mk_codegen (cg_modules c ++ ms) (sources_after r (cg_sources c)).
Proof.
  intros x fuel r c c' H. destruct r as [o|n|l|l|src n o]; cbn [ask asked sources_after] in *.
  - unfold cg_module in H. apply bind_Ok in H as (m & Hm & H). injection H as <-. exists [m]. split; [|reflexivity].
    constructor; [now exists o|constructor].
  - apply module_name_state in H as (m & Hm & ->). exists [m]. split; [now repeat constructor|reflexivity].
  - now apply modules_all_state.
  - now apply module_names_state.
  - unfold cg_module_from_str in H. destruct o as [o|]; [|discriminate].
    unfold cg_module in H. apply bind_Ok in H as (m & Hm & H). injection H as <-. exists [m]. split; [|reflexivity].
    constructor; [now exists o|constructor].
Qed.
Lemma asks_state_from : forall x fuel l c c', asks x fuel l c = Ok c' ->
  exists ms, Forall2 (parsed_as x fuel) (flat_map (asked (pe_world x)) l) ms /\
    c' = mk_codegen (cg_modules c ++ ms) (fold_left (fun s r => sources_after r s) l (cg_sources c)).
Proof.
  intros x fuel. induction l as [|r l IH]; intros c c' H; cbn [asks] in H.
  - injection H as <-. exists []. split; [constructor|]. rewrite app_nil_r. now destruct c.
  - apply bind_Ok in H as (c1 & H1 & H). apply ask_state in H1 as (m1 & Hm1 & ->). destruct (IH _ _ H) as (ms & Hms & ->).
    exists (m1 ++ ms). split; [cbn [flat_map]; now apply Forall2_app|]. cbn. now rewrite <- app_assoc.
Qed.
Lemma asks_state : forall x fuel l c, asks x fuel l cg_new = Ok c ->
  Forall2 (parsed_as x fuel) (flat_map (asked (pe_world x)) l) (cg_modules c).
Proof. intros x fuel l c H. apply asks_state_from in H as (ms & Hms & ->). exact Hms. Qed.

Lemma get_insert : forall s k v n, map_get (map_insert s k v) n = if str_eqb k n then Some v else map_get s n.
Proof.
  intros s k v n. unfold map_get, map_insert. cbn [find fst]. destruct (str_eqb k n) eqn:E; [reflexivity|].
  induction s as [|[a b] s IH]; [reflexivity|]. cbn [filter find fst]. destruct (str_eqb a k) eqn:E1; cbn [negb].
  - apply str_eqb_eq in E1. subst a. now rewrite E.
  - cbn [find fst]. destruct (str_eqb a n); [reflexivity|]. exact IH.
Qed.
Lemma sources_given : forall l s n, map_get (fold_left (fun s r => sources_after r s) l s) n =
  match given l n with Some t => Some t | None => map_get s n end.
Proof.
  induction l as [|r l IH]; intros s n; [reflexivity|]. cbn [fold_left]. rewrite IH. destruct r as [o|m|k|k|src m o]; cbn [given sources_after]; try reflexivity.
  rewrite get_insert. destruct (given l n); [reflexivity|]. now destruct (str_eqb m n).
Qed.
Lemma asks_sources : forall x fuel l c n, asks x fuel l cg_new = Ok c -> map_get (cg_sources c) n = given l n.
Proof.
  intros x fuel l c n H. apply asks_state_from in H as (ms & _ & ->). cbn [cg_sources]. rewrite sources_given. cbn. now destruct (given l n).
Qed.

(** ** C38 *)
Lemma empty_rejected : forall x fuel l c, asks x fuel l cg_new = Ok c ->
  (final_modules x fuel c = Err ECodegen <-> flat_map (asked (pe_world x)) l = []).
Proof.
  intros x fuel l c H. apply asks_state in H. split.
  - intros E. destruct (flat_map _ l) as [|q k]; [reflexivity|]. exfalso.
    assert (K : cg_modules c <> []) by (inversion H; discriminate).
    apply (final_py x fuel c K) in E. discriminate.
  - intros E. rewrite E in H. unfold final_modules. destruct (cg_modules c); [reflexivity|inversion H].
Qed.

(** ** From the final forest back to the parsed modules *)
Lemma reach_within : forall l c k, reach l c k -> exists m, In m l /\ within k m.
Proof.
  intros l c k H. induction H as [l m Hm|l m c k Hm H (s & Hs & Hk)]; [exists m; split; [exact Hm|apply within_here]|].
  exists m. split; [exact Hm|]. now apply (within_sub k m s).
Qed.
Lemma within_reach : forall k m, within k m -> forall l, In m l -> exists c, reach l c k.
Proof.
  intros k m H. induction H as [|m s Hs H IH]; intros l Hl; [eexists; now apply reach_here|].
  destruct (IH _ Hs) as [c Hc]. eexists. apply reach_down; eassumption.
Qed.

Lemma canonicalize_item : forall x l l' m k it, order_ok (pe_ord x) -> canonicalize x l = Ok l' ->
  In m l' -> within k m -> has k it -> exists m0 k0, In m0 l /\ within k0 m0 /\ has k0 it.
Proof.
  intros x l l' m k it Ho H Hm Hk Hit. destruct (within_reach k m Hk l' Hm) as [c Hc].
  assert (V : vis l' c (Some it)) by (exists k; now split).
  apply (canonicalize_vis x l l' Ho H) in V as (m0 & Hm0 & [(c' & _ & k0 & Hr & Hh)|[E _]]); [|discriminate].
  apply reach_within in Hr as (m1 & [<-|[]] & Hw). now exists m0, k0.
Qed.
Lemma with_source_same : forall s m, m_name (with_source s m) = m_name m /\ m_subs (with_source s m) = m_subs m /\
  (forall it, has (with_source s m) it <-> has m it).
Proof. intros s m. unfold with_source. destruct (map_get s (to_rs (m_name m))); (split; [reflexivity|]); split; try reflexivity; intros []; reflexivity. Qed.
Lemma with_source_within : forall s m k, within k (with_source s m) -> k = with_source s m \/ (exists t, In t (m_subs m) /\ within k t).
Proof.
  intros s m k H. inversion H as [E|m' t Ht Hk]; [now left|subst]. right. exists t. destruct (with_source_same s m) as (_ & E & _). rewrite E in Ht. now split.
Qed.

(** The modules handed to [canonicalize]: the requested ones and the dependencies *)
Definition all_inputs (x : penv) (fuel : nat) (c : codegen) (ms : list module) : Prop :=
  cg_modules c <> [] /\ (if generate_dependencies (pe_cfg x) then parse_dependencies x fuel (cg_modules c) else Ok (cg_modules c)) = Ok ms.
Lemma final_inv : forall x fuel c l, final_modules x fuel c = Ok l ->
  exists ms k, all_inputs x fuel c ms /\ canonicalize x ms = Ok k /\ l = map (with_source (cg_sources c)) k.
Proof.
  intros x fuel c l H. unfold final_modules in H. destruct (cg_modules c) as [|a r] eqn:E; [discriminate|].
  apply bind_Ok in H as (ms & Hms & H). apply bind_Ok in H as (k & Hk & H). injection H as <-. exists ms, k.
  split; [|now split]. unfold all_inputs. rewrite E. now split.
Qed.
Lemma dependencies_grow : forall x fuel l seen ms r, add_dependencies x fuel seen l ms = Ok r ->
  exists d, r = ms ++ d /\ forall m, In m d -> exists p o, In p l /\ dependency_module (pe_world x) p = Ok o /\ dependency_allowed x o = Ok true /\ mod_parse x fuel o = Ok m.
Proof.
  intros x fuel. induction l as [|p l IH]; intros seen ms r H; cbn [add_dependencies] in H.
  - injection H as <-. exists []. rewrite app_nil_r. now split.
  - apply bind_Ok in H as (o & Hp & H). destruct (mem_str _ seen).
    + destruct (IH _ _ _ H) as (d & -> & K). exists d. split; [reflexivity|]. intros m Hm. destruct (K m Hm) as (q & o' & Hq & R). exists q, o'. split; [now right|exact R].
    + apply bind_Ok in H as (b & Hb & H). destruct b.
      * apply bind_Ok in H as (m0 & Hm0 & H). destruct (IH _ _ _ H) as (d & -> & K). exists (m0 :: d). rewrite <- app_assoc. split; [reflexivity|].
        intros m [<-|Hm]; [exists p, o; repeat split; auto; now left|]. destruct (K m Hm) as (q & o' & Hq & R). exists q, o'. split; [now right|exact R].
      * destruct (IH _ _ _ H) as (d & -> & K). exists d. split; [reflexivity|]. intros m Hm. destruct (K m Hm) as (q & o' & Hq & R). exists q, o'. split; [now right|exact R].
Qed.
Lemma inputs_parsed : forall x fuel l c ms, asks x fuel l cg_new = Ok c -> all_inputs x fuel c ms -> forall m, In m ms -> exists o, mod_parse x fuel o = Ok m.
Proof.
  intros x fuel l c ms H [_ Hms] m Hm. apply asks_state in H.
  assert (K : forall m, In m (cg_modules c) -> exists o, mod_parse x fuel o = Ok m).
  { clear - H. intros m Hm. induction H as [|q y ql yl (o & _ & Ho) H IH]; [easy|]. destruct Hm as [<-|Hm]; [now exists o|auto]. }
  destruct (generate_dependencies _); [|injection Hms as <-; now apply K]. apply dependencies_grow in Hms as (d & -> & Kd).
  apply in_app_or in Hm as [Hm|Hm]; [now apply K|]. destruct (Kd m Hm) as (p & o & _ & _ & _ & Ho). now exists o.
Qed.

(** A statement about the items of parsed modules holds in the final forest. *)
Lemma final_items : forall x fuel l c ms (P : item -> Prop), order_ok (pe_ord x) -> asks x fuel l cg_new = Ok c -> final_modules x fuel c = Ok ms ->
  (forall o m k it, mod_parse x fuel o = Ok m -> within k m -> has k it -> P it) ->
  forall m k it, In m ms -> within k m -> has k it -> P it.
Proof.
  intros x fuel l c ms P Ho Hc Hf HP m k it Hm Hk Hit. apply final_inv in Hf as (inp & k1 & Hin & Hcan & ->).
  apply in_map_iff in Hm as (m1 & <- & Hm1).
  assert (K : exists m2 k2, In m2 k1 /\ within k2 m2 /\ has k2 it).
  { apply with_source_within in Hk as [->|(t & Ht & Hk)].
    - exists m1, m1. split; [exact Hm1|]. split; [apply within_here|]. now apply (with_source_same (cg_sources c) m1).
    - exists m1, k. split; [exact Hm1|]. split; [now apply (within_sub k m1 t)|exact Hit]. }
  destruct K as (m2 & k2 & H2 & W2 & I2). destruct (canonicalize_item x inp k1 m2 k2 it Ho Hcan H2 W2 I2) as (m0 & k0 & H0 & W0 & I0).
  destruct (inputs_parsed x fuel l c inp Hc Hin m0 H0) as [o Hp]. now apply (HP o m0 k0).
Qed.

Lemma final_typed : forall x fuel l c ms, order_ok (pe_ord x) -> asks x fuel l cg_new = Ok c -> final_modules x fuel c = Ok ms ->
  forall m k, In m ms -> within k m -> mod_typed k.
Proof.
  intros x fuel l c ms Ho Hc Hf m k Hm Hk.
  set (P := fun it => match it with
                      | AClass c => forall p, In p (cl_props c) -> pr_owner p = OwnerClass
                      | AProperty p => pr_owner p = OwnerModule /\ pr_doc p = None /\ pr_setter_doc p = None
                      | AFunction f => fn_typ f = FFunction \/ fn_typ f = FClosure
                      | _ => True end).
  assert (K : forall it, has k it -> P it).
  { intros it Hit. refine (final_items x fuel l c ms P Ho Hc Hf _ m k it Hm Hk Hit). intros o m0 k0 it0 Hp Hw Hh.
    destruct (parsed_typed x fuel o m0 Hp k0 Hw) as (T1 & T2 & T3). destruct it0; unfold P; cbn [has] in Hh; solve [exact I|now apply T1|now apply T2|now apply T3]. }
  split; [|split].
  - intros c0 Hc0. exact (K (AClass c0) Hc0).
  - intros p Hp. exact (K (AProperty p) Hp).
  - intros f Hfn. exact (K (AFunction f) Hfn).
Qed.

(** ** C31, from requests to the output *)
Lemma output_wf : forall x numpy fuel l c out, uni_ok (pe_uni x) -> order_ok (pe_ord x) -> asks x fuel l cg_new = Ok c ->
  (forall ms m k, final_modules x fuel c = Ok ms -> In m ms -> within k m -> variables_named (pe_uni x) k) ->
  cg_generate x numpy fuel c = Ok out -> well_formed (pe_uni x) InModule out.
Proof.
  intros x numpy fuel l c out HU Ho Hc Hv H. unfold cg_generate in H. apply bind_Ok in H as (ms & Hf & H).
  apply (concatM_items _ _ _ _ H). intros m y Hm Hy. apply (module_wf (gen_ctx x numpy ms) m y HU); [| |exact Hy].
  - intros k Hk. destruct (final_typed x fuel l c ms Ho Hc Hf m k Hm Hk) as (T1 & T2 & _). split; [exact (fun c0 p h => T1 c0 h p)|]. intros p Hp. apply (T2 p Hp).
  - intros k Hk. now apply (Hv ms m k).
Qed.
