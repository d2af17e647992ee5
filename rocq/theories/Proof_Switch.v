(** * Lemmas: switching off a kind of item (C46) *)
From Coq Require Import Permutation.
From Verif Require Import Base Model_Ident Model_Path Model_Import Model_Text Model_Config Model_Type Model_IntoRs Model_World Model_Out
  Model_Function Model_Property Model_Class Model_Module Model_Parse Model_Codegen Spec_Path Spec_Names Spec_Call Spec_Items Spec_Tree Spec_Api Spec_Safe Spec_Out Spec_Switch
  Proof_Base Proof_Ident Proof_Path Proof_Text Proof_IntoRs Proof_Call Proof_Function Proof_Fresh Proof_Method Proof_Kind Proof_Items Proof_Module
  Proof_Parse Proof_Forest Proof_Err Proof_Api Proof_Honest Proof_Calm Proof_Rooted Proof_Parts Proof_Property Proof_Scope.

(** ** Taking out items *)
Definition closed (l : list frag) : Prop := l = [] \/ exists a y, l = a ++ [y] /\ leads y = false.
Lemma without_mod : forall K n b, without_in K (GMod n b) = GMod n (without K b).
Proof. reflexivity. Qed.
Lemma from_app : forall K a y b front, leads y = false -> without_from K front ((a ++ [y]) ++ b) = without_from K front (a ++ [y]) ++ without_from K [] b.
Proof.
  intros K. induction a as [|z a IH]; intros y b front Hy; cbn [app without_from].
  - rewrite Hy. cbn [without_from]. now rewrite app_nil_r.
  - destruct (leads z); [now apply IH|]. rewrite IH by exact Hy. now rewrite app_assoc.
Qed.
Lemma without_app : forall K a b, closed a -> without K (a ++ b) = without K a ++ without K b.
Proof. intros K a b [->|(a' & y & -> & Hy)]; [reflexivity|]. now apply from_app. Qed.
Lemma closed_app : forall a b, closed a -> closed b -> closed (a ++ b).
Proof.
  intros a b Ha [->|(b' & y & -> & Hy)]; [now rewrite app_nil_r|]. right. exists (a ++ b'), y. split; [now rewrite app_assoc|exact Hy].
Qed.
Lemma closed_concat : forall ls, (forall l, In l ls -> closed l) -> closed (concat ls).
Proof. induction ls as [|l ls IH]; intros H; [now left|]. cbn. apply closed_app; [apply H; now left|]. apply IH. intros k Hk. apply H. now right. Qed.
Lemma without_concat : forall K ls, (forall l, In l ls -> closed l) -> without K (concat ls) = concat (map (without K) ls).
Proof.
  intros K. induction ls as [|l ls IH]; intros H; [reflexivity|]. cbn [concat map]. rewrite without_app by (apply H; now left). f_equal. apply IH. intros k Hk. apply H. now right.
Qed.
Lemma from_keep : forall K l front, (forall y, In y l -> leads y = false -> kind_of y <> K /\ without_in K y = y) -> without_from K front l = front ++ l.
Proof.
  intros K. induction l as [|y l IH]; intros front H; cbn [without_from]; [now rewrite app_nil_r|].
  assert (Hl : forall z, In z l -> leads z = false -> kind_of z <> K /\ without_in K z = z) by (intros z Hz; apply H; now right).
  destruct (leads y) eqn:E; [rewrite IH by exact Hl; now rewrite <- app_assoc|]. destruct (H y (or_introl eq_refl) E) as [H1 H2].
  assert (N : kind_eqb (kind_of y) K = false) by (destruct (kind_of y), K; try reflexivity; now contradiction H1).
  rewrite N, H2, IH by exact Hl. now rewrite <- app_assoc.
Qed.
Lemma without_keep : forall K l, (forall y, In y l -> leads y = false -> kind_of y <> K /\ without_in K y = y) -> without K l = l.
Proof. intros K l H. unfold without. now rewrite from_keep. Qed.
Lemma from_drop : forall K l front, (forall y, In y l -> leads y = false -> kind_of y = K) -> l <> [] -> closed l -> without_from K front l = [].
Proof.
  intros K. induction l as [|y l IH]; intros front H Hn Hc; [easy|]. cbn [without_from].
  assert (Hl : forall z, In z l -> leads z = false -> kind_of z = K) by (intros z Hz; apply H; now right).
  assert (Hcl : l = [] \/ closed l).
  { destruct Hc as [?|(a & z & E & Hz)]; [easy|]. destruct a as [|w a]; cbn in E; injection E as -> E; [now left|]. right. right. now exists a, z. }
  destruct (leads y) eqn:E.
  - destruct l as [|z l].
    + exfalso. destruct Hc as [?|(a & w & E2 & Hz)]; [easy|]. destruct a as [|v a]; cbn in E2; [injection E2 as ->; congruence|]. injection E2 as _ E2. now destruct a.
    + apply IH; [exact Hl|easy|]. destruct Hcl as [|Hcl]; [easy|exact Hcl].
  - rewrite (H y (or_introl eq_refl) E). assert (N : kind_eqb K K = true) by now destruct K. rewrite N. cbn [app].
    destruct l as [|z l]; [reflexivity|]. apply IH; [exact Hl|easy|]. destruct Hcl as [|Hcl]; [easy|exact Hcl].
Qed.
Lemma without_drop : forall K l, (forall y, In y l -> leads y = false -> kind_of y = K) -> closed l -> without K l = [].
Proof. intros K [|y l] H Hc; [reflexivity|]. now apply from_drop. Qed.
(** What is well formed is closed. *)
Lemma items_closed : forall item l s, items item s l -> closed l.
Proof.
  intros item l s H. destruct l as [|a l]; [now left|]. right. destruct (exists_last (l := a :: l)) as (l' & y & E); [easy|]. exists l', y. split; [exact E|].
  rewrite E in H. clear E. revert s H. induction l' as [|z l' IH]; intros s H; cbn [app items] in H.
  - destruct y; try reflexivity; cbn in H; destruct H as [_ H]; discriminate.
  - destruct z; destruct H as [_ H]; now apply IH in H.
Qed.
Lemma wf_closed : forall U pl l, well_formed U pl l -> closed l.
Proof. intros U pl l H. exact (items_closed _ _ _ H). Qed.

(** ** The parts are closed *)
Lemma props_wf : forall x m P, uni_ok (mx_uni x) -> items_typed m -> variables_named (mx_uni x) m -> parts_of x m P -> well_formed (mx_uni x) InModule (pt_props P).
Proof.
  intros x m P HU [_ T] (F & HF & HV) HP. apply (when_concat _ _ _ _ _ (po_props _ _ _ HP)). intros p y Hp Hy. destruct (T p Hp) as [D1 D2].
  destruct (HV p Hp) as (n & (Hn & q & Hq) & Hacc). unfold prop_frags in Hy.
  pose proof (mapM_names _ _ _ _ HF (po_scope _ _ _ HP)) as Es. rewrite Es in Hy.
  assert (HR : forall f, In f F -> starts_with r_hash f = false).
  { intros f Hf. clear - HF Hf. induction HF as [|a b l k [Ha _] H IHf]; [easy|]. destruct Hf as [<-|Hf]; auto. }
  destruct (accessors_some (mx_uni x) F n HU Hn HR Hacc) as [A1 A2].
  assert (E : forall name, path_name (pr_name p) = Ok name -> name = ident_from_py (mx_uni x) n).
  { intros z Hz. unfold path_name in Hz. rewrite Hq, last_opt_app in Hz. now injection Hz as <-. }
  apply (accessor_module (pt_ctx x P) (map (ident_from_py (mx_uni x)) F) p y HU (parts_table _ _ _ HP) D1 D2); [| |exact Hy]; intros z Hz; apply E in Hz; subst z; assumption.
Qed.
Lemma when_closed : forall {A} b (f : A -> outcome (list frag)) l r, when b (concatM f l) = Ok r -> (forall x y, In x l -> f x = Ok y -> closed y) -> closed r.
Proof.
  intros A b f l r H K. destruct b; [|injection H as <-; now left]. cbn in H. apply bind_Ok in H as (ys & Hys & H). injection H as <-. apply closed_concat.
  intros y Hy. destruct (mapM_In _ _ _ _ Hys Hy) as (x & Hx & E). now apply (K x).
Qed.
Lemma closed_last : forall a y, leads y = false -> closed (a ++ [y]).
Proof. intros a y H. right. now exists a, y. Qed.
Lemma closed_suffix : forall a b, b <> [] -> closed b -> closed (a ++ b).
Proof. intros a b Hn [->|(b' & y & -> & Hy)]; [easy|]. rewrite app_assoc. now apply closed_last. Qed.
Lemma mod_closed : forall x m l, mod_generate x m = Ok l -> closed l.
Proof.
  intros x m l H. apply mod_generate_inv in H as (P & id & _ & _ & _ & ->). rewrite !app_assoc. change [GPub; GMod id (pt_body m P)] with ([GPub] ++ [GMod id (pt_body m P)]).
  rewrite app_assoc. now apply closed_last.
Qed.
Lemma embed_closed : forall m, closed (gen_embed m).
Proof. intros m. unfold gen_embed. destruct (m_source m); [|now left]. apply (closed_last [_; _; _]). reflexivity. Qed.
Lemma class_closed : forall g c l, class_generate g c = Ok l -> closed l.
Proof.
  intros g c l H. unfold class_generate in H. apply bind_Ok in H as (docs & Hd & H). apply bind_Ok in H as (nm & _ & H).
  destruct (struct_ident _ _); [|injection H as <-; now left]. apply bind_Ok in H as (sc & _ & H). apply bind_Ok in H as (ms & _ & H). apply bind_Ok in H as (ps & _ & H).
  apply bind_Ok in H as (tid & _ & H). injection H as <-. apply closed_suffix; [easy|].
  apply (closed_last ([_; _; _; _; _; _] ++ trait_docs ++ [_; _; _; _; _])). reflexivity.
Qed.
Lemma use_closed : forall U i l, use_frag_of U i = Ok l -> closed l.
Proof. intros U i l H. apply use_shape in H as [->|(v & -> & _)]; [now left|]. now apply (closed_last [GPub]). Qed.
Lemma prelude_closed : forall U m l, drop_err (gen_prelude U m) = Ok l -> closed l.
Proof. intros U m l H. apply prelude_shape in H as [->|(id & ex & -> & _)]; [now left|]. now apply (closed_last [GPub]). Qed.
Lemma var_closed : forall U p l, type_var_generate U p = Ok l -> closed l.
Proof. intros U p l H. apply var_shape in H as (n & _ & _ & ->). now apply (closed_last [GPub]). Qed.
Lemma fn_closed : forall g scope f l, fn_frags g scope f = Ok l -> (fn_typ f = FFunction \/ fn_typ f = FClosure) -> closed l.
Proof.
  intros g scope f l H Ht. apply fn_shape in H as (n & _ & [[_ ->]|(docs & d & a & _ & _ & _ & ->)]); [now left| |exact Ht].
  apply closed_suffix; [easy|]. now apply (closed_last [GPub]).
Qed.

(** ** The kinds of the fragments of each part *)
Lemma when_all : forall {A B} b (f : A -> outcome (list B)) l r (Q : B -> Prop), when b (concatM f l) = Ok r ->
  (forall a k, In a l -> f a = Ok k -> forall y, In y k -> Q y) -> forall y, In y r -> Q y.
Proof. intros A B b f l r Q H K y Hy. destruct (when_from _ _ _ _ _ H Hy) as (_ & a & k & Ha & Hk & Hin). now apply (K a k). Qed.
Lemma use_kind : forall U i l y, use_frag_of U i = Ok l -> In y l -> leads y = false -> kind_of y = KImport /\ forall K, without_in K y = y.
Proof. intros U i l y H Hy Hl. apply use_shape in H as [->|(v & -> & _)]; [easy|]. destruct Hy as [<-|[<-|[]]]; [discriminate|]. now split. Qed.
Lemma prelude_kind : forall U m l y, drop_err (gen_prelude U m) = Ok l -> In y l -> leads y = false -> kind_of y = KPrelude /\ forall K, K <> KPrelude -> without_in K y = y.
Proof.
  intros U m l y H Hy Hl. apply prelude_shape in H as [->|(id & ex & -> & _)]; [easy|]. destruct Hy as [<-|[<-|[]]]; [discriminate|]. split; [reflexivity|].
  intros K HK. destruct K; try reflexivity. now contradiction HK.
Qed.
Lemma var_kind : forall U p l y, type_var_generate U p = Ok l -> In y l -> leads y = false -> kind_of y = KTypeVar /\ forall K, without_in K y = y.
Proof. intros U p l y H Hy Hl. apply var_shape in H as (n & _ & _ & ->). destruct Hy as [<-|[<-|[]]]; [discriminate|]. now split. Qed.
Lemma class_kind : forall g c l y, class_generate g c = Ok l -> In y l -> leads y = false -> kind_of y = KClass /\ forall K, without_in K y = y.
Proof.
  intros g c l y H Hy Hl. unfold class_generate in H. apply bind_Ok in H as (docs & Hd & H). apply bind_Ok in H as (nm & _ & H).
  destruct (struct_ident _ _); [|now injection H as <-]. apply bind_Ok in H as (sc & _ & H). apply bind_Ok in H as (ms & _ & H). apply bind_Ok in H as (ps & _ & H).
  apply bind_Ok in H as (tid & _ & H). injection H as <-. apply in_app_or in Hy as [Hy|Hy].
  - destruct (doc_only _ _ _ Hd _ Hy) as [t ->]. discriminate.
  - cbn in Hy. repeat (destruct Hy as [<-|Hy]; [first [discriminate|now split]|]). easy.
Qed.
Lemma fn_part_kind : forall g scope f l y, fn_frags g scope f = Ok l -> (fn_typ f = FFunction \/ fn_typ f = FClosure) -> In y l -> leads y = false ->
  kind_of y = KFunction /\ forall K, without_in K y = y.
Proof. intros g scope f l y H Ht Hy Hl. destruct (fn_part_frag _ _ _ _ _ H Hy Ht) as [E|(d & -> & E)]; [congruence|]. now split. Qed.
Lemma prop_part_kind : forall g scope p l y, prop_frags g scope p = Ok l -> In y l -> leads y = false -> kind_of y = KProperty /\ forall K, without_in K y = y.
Proof. intros g scope p l y H Hy Hl. destruct (prop_part_frag _ _ _ _ _ H Hy) as [E|(d & -> & E)]; [congruence|]. now split. Qed.
Lemma embed_kind : forall m y, In y (gen_embed m) -> leads y = false -> kind_of y = KEmbed /\ forall K, without_in K y = y.
Proof.
  intros m y Hy Hl. unfold gen_embed in Hy. destruct (m_source m); [|easy]. repeat (destruct Hy as [<-|Hy]; [first [discriminate|now split]|]). easy.
Qed.
(** The text of a module is not a prelude. *)
Lemma body_not_prelude : forall x m P, parts_of x m P -> (forall f, In f (m_functions m) -> fn_typ f = FFunction \/ fn_typ f = FClosure) -> is_prelude (pt_body m P) = false.
Proof.
  intros x m P HP Ht. destruct (is_prelude (pt_body m P)) eqn:E; [|reflexivity]. exfalso.
  assert (K : exists l, In (GUseSuper l) (pt_body m P)).
  { destruct (pt_body m P) as [|[] [|[] [|? ?]]]; try discriminate. eexists. right. now left. }
  destruct K as (l & Hin). destruct (body_frag _ _ _ _ HP Ht Hin) as [K|[(?&?&?&K&_)|[(?&K&_)|[(?&?&K&_)|[(?&K&_)|[K|[(?&K&_)|[(?&K&_)|(?&?&K&_)]]]]]]]]; try discriminate.
  destruct (when_from _ _ _ _ _ (po_classes _ _ _ HP) K) as (_ & c & k & _ & Hk & Hin'). apply (class_kind _ _ _ _ Hk) in Hin' as [Hin' _]; [discriminate|reflexivity].
Qed.

(** ** Switching off *)
Definition mx_off (s : switch) (x : mctx) : mctx := mk_mctx (off s (mx_cfg x)) (mx_imp x) (mx_dbg x) (mx_numpy x) (mx_uni x) (mx_top x) (mx_types x).
Definition cut (s : switch) (P : parts) : parts :=
  mk_parts (pt_scope P) (pt_lt P) (pt_docs P) (match s with Imports => [] | _ => pt_imports P end) (match s with Preludes => [] | _ => pt_prelude P end)
    (match s with TypeVars => [] | _ => pt_vars P end) (match s with Classes => [] | _ => pt_classes P end) (match s with Functions => [] | _ => pt_fns P end)
    (match s with Properties => [] | _ => pt_props P end) (without (switched s) (pt_subs P)).
Lemma part_keep : forall K' (l : list frag) K, (forall y, In y l -> leads y = false -> kind_of y = K' /\ forall K, without_in K y = y) -> K' <> K -> without K l = l.
Proof. intros K' l K H HK. apply without_keep. intros y Hy Hl. destruct (H y Hy Hl) as [H1 H2]. split; [congruence|apply H2]. Qed.
Lemma part_drop : forall K (l : list frag), (forall y, In y l -> leads y = false -> kind_of y = K /\ forall K, without_in K y = y) -> closed l -> without K l = [].
Proof. intros K l H Hc. apply without_drop; [|exact Hc]. intros y Hy Hl. now destruct (H y Hy Hl). Qed.
Section body.
  Variables (x : mctx) (m : module) (P : parts).
  Hypothesis HU : uni_ok (mx_uni x).
  Hypothesis HP : parts_of x m P.
  Hypothesis Hty : mod_typed m.
  Hypothesis Hv : variables_named (mx_uni x) m.
  Lemma typed_items : items_typed m.
  Proof. destruct Hty as (T1 & T2 & T3). split; [intros c p Hc; now apply T1|]. intros p Hp. now destruct (T2 p Hp). Qed.
  Lemma subs_closed : closed (pt_subs P).
  Proof. apply (when_closed _ _ _ _ (po_subs _ _ _ HP)). intros s y _ Hy. now apply mod_closed in Hy. Qed.
  Lemma prelude_kinds : forall y, In y (pt_prelude P) -> leads y = false -> kind_of y = KPrelude /\ forall K, K <> KPrelude -> without_in K y = y.
  Proof.
    intros y Hy. pose proof (po_prelude _ _ _ HP) as Hpre. destruct (generate_preludes _); [|injection Hpre as E; now rewrite <- E in Hy].
    intros Hl. now apply (prelude_kind _ _ _ _ Hpre).
  Qed.
  Lemma prelude_part_closed : closed (pt_prelude P).
  Proof.
    pose proof (po_prelude _ _ _ HP) as Hpre. destruct (generate_preludes _); [|injection Hpre as E; rewrite <- E; now left]. now apply prelude_closed in Hpre.
  Qed.
  Lemma body_without : forall s, without (switched s) (pt_body m P) = pt_body m (cut s P).
  Proof.
    intros s. unfold pt_body, cut. cbn [pt_imports pt_prelude pt_vars pt_classes pt_fns pt_props pt_subs]. destruct Hty as (T1 & T2 & T3).
    assert (C1 : closed (pt_imports P)) by (apply (when_closed _ _ _ _ (po_imports _ _ _ HP)); intros i y _; apply use_closed).
    assert (C2 : closed (pt_vars P)) by (apply (when_closed _ _ _ _ (po_vars _ _ _ HP)); intros i y _; apply var_closed).
    assert (C3 : closed (pt_classes P)) by (apply (when_closed _ _ _ _ (po_classes _ _ _ HP)); intros i y _; apply class_closed).
    assert (C4 : closed (pt_fns P)) by (apply (when_closed _ _ _ _ (po_fns _ _ _ HP)); intros i y Hi Hy; apply (fn_closed _ _ _ _ Hy); auto).
    assert (C5 : closed (pt_props P)) by (apply (wf_closed _ _ _ (props_wf x m P HU typed_items Hv HP))).
    assert (K1 : forall y, In y (pt_imports P) -> leads y = false -> kind_of y = KImport /\ forall K, without_in K y = y).
    { refine (when_all _ _ _ _ (fun y => leads y = false -> kind_of y = KImport /\ forall K, without_in K y = y) (po_imports _ _ _ HP) _). intros i y _. intros E z. now apply (use_kind _ _ _ _ E). }
    assert (K2 : forall y, In y (pt_vars P) -> leads y = false -> kind_of y = KTypeVar /\ forall K, without_in K y = y).
    { refine (when_all _ _ _ _ (fun y => leads y = false -> kind_of y = KTypeVar /\ forall K, without_in K y = y) (po_vars _ _ _ HP) _). intros i y _. intros E z. now apply (var_kind _ _ _ _ E). }
    assert (K3 : forall y, In y (pt_classes P) -> leads y = false -> kind_of y = KClass /\ forall K, without_in K y = y).
    { refine (when_all _ _ _ _ (fun y => leads y = false -> kind_of y = KClass /\ forall K, without_in K y = y) (po_classes _ _ _ HP) _). intros i y _. intros E z. now apply (class_kind _ _ _ _ E). }
    assert (K4 : forall y, In y (pt_fns P) -> leads y = false -> kind_of y = KFunction /\ forall K, without_in K y = y).
    { refine (when_all _ _ _ _ (fun y => leads y = false -> kind_of y = KFunction /\ forall K, without_in K y = y) (po_fns _ _ _ HP) _). intros i y Hi. intros E z. apply (fn_part_kind _ _ _ _ _ E). auto. }
    assert (K5 : forall y, In y (pt_props P) -> leads y = false -> kind_of y = KProperty /\ forall K, without_in K y = y).
    { refine (when_all _ _ _ _ (fun y => leads y = false -> kind_of y = KProperty /\ forall K, without_in K y = y) (po_props _ _ _ HP) _). intros i y _. intros E z. now apply (prop_part_kind _ _ _ _ _ E). }
    pose proof (embed_kind m) as K6. pose proof (embed_closed m) as C6. pose proof prelude_part_closed as C7. pose proof subs_closed as C8. pose proof prelude_kinds as K7.
    rewrite !without_app by assumption.
    assert (E7 : s <> Preludes -> without (switched s) (pt_prelude P) = pt_prelude P).
    { intros Hs. apply without_keep. intros y Hy Hl. destruct (K7 y Hy Hl) as [-> H2]. split; [now destruct s|]. apply H2. now destruct s. }
    destruct s; cbn [switched] in *;
      rewrite ?E7 by discriminate;
      rewrite ?(part_keep _ _ _ K6) by discriminate; rewrite ?(part_keep _ _ _ K1) by discriminate; rewrite ?(part_keep _ _ _ K2) by discriminate;
      rewrite ?(part_keep _ _ _ K3) by discriminate; rewrite ?(part_keep _ _ _ K4) by discriminate; rewrite ?(part_keep _ _ _ K5) by discriminate;
      rewrite ?(part_drop _ _ K1 C1), ?(part_drop _ _ K2 C2), ?(part_drop _ _ K3 C3), ?(part_drop _ _ K4 C4), ?(part_drop _ _ K5 C5);
      try reflexivity.
    rewrite (without_drop KPrelude (pt_prelude P)); [reflexivity| |exact C7]. intros y Hy Hl. now destruct (K7 y Hy Hl).
  Qed.
End body.
Lemma lead_front : forall K front l r, (forall y, In y l -> leads y = true) -> without_from K front (l ++ r) = without_from K (front ++ l) r.
Proof.
  intros K front l. revert front. induction l as [|y l IH]; intros front r H; cbn [app without_from]; [now rewrite app_nil_r|].
  rewrite (H y (or_introl eq_refl)), IH by (intros z Hz; apply H; now right). now rewrite <- app_assoc.
Qed.
Lemma module_without : forall s x m l, uni_ok (mx_uni x) -> (forall k, within k m -> mod_typed k) -> (forall k, within k m -> variables_named (mx_uni x) k) ->
  mod_generate x m = Ok l -> mod_generate (mx_off s x) m = Ok (without (switched s) l).
Proof.
  intros s x m l HU. revert l. induction m as [m IH] using module_nested_ind. intros l Hty Hv H.
  apply mod_generate_inv in H as (P & id & HP & Hn & Hr & ->).
  assert (HP' : parts_of (mx_off s x) m (cut s P)).
  { assert (Hs : when (traverse_submodules (mx_cfg x)) (concatM (mod_generate (mx_off s x)) (m_subs m)) = Ok (without (switched s) (pt_subs P))).
    { pose proof (po_subs _ _ _ HP) as Hs. destruct (traverse_submodules (mx_cfg x)); [|now injection Hs as <-]. cbn in Hs |- *. apply bind_Ok in Hs as (ys & Hys & E). injection E as <-.
      assert (K : forall k ys, incl k (m_subs m) -> mapM (mod_generate x) k = Ok ys -> mapM (mod_generate (mx_off s x)) k = Ok (map (without (switched s)) ys) /\ forall y, In y ys -> closed y).
      { clear Hys ys. induction k as [|t k IHk]; intros ys Hin Hys; [injection Hys as <-; split; [reflexivity|easy]|]. cbn [mapM] in Hys. apply bind_Ok in Hys as (y & Hy & Hys). apply bind_Ok in Hys as (r & Hr' & Hys). injection Hys as <-.
        destruct (IHk r (fun z Hz => Hin z (or_intror Hz)) Hr') as [E1 E2]. assert (Ht : In t (m_subs m)) by (apply Hin; now left). cbn [mapM].
        rewrite (IH t Ht y); [| | |exact Hy]; [cbn [obind]; rewrite E1; split; [reflexivity|]|..].
        - intros z [<-|Hz]; [now apply mod_closed in Hy|auto].
        - intros k0 Hk0. apply Hty. now apply (within_sub k0 m t).
        - intros k0 Hk0. apply Hv. now apply (within_sub k0 m t). }
      destruct (K (m_subs m) ys (incl_refl _) Hys) as [E1 E2]. unfold concatM. rewrite E1. cbn. now rewrite without_concat. }
    destruct s; constructor; cbn [cut pt_scope pt_lt pt_docs pt_imports pt_prelude pt_vars pt_classes pt_fns pt_props pt_subs];
      first [exact (po_scope _ _ _ HP)|exact (po_lt _ _ _ HP)|exact (po_docs _ _ _ HP)|exact (po_imports _ _ _ HP)|exact (po_prelude _ _ _ HP)|exact (po_vars _ _ _ HP)
            |exact (po_classes _ _ _ HP)|exact (po_fns _ _ _ HP)|exact (po_props _ _ _ HP)|exact Hs|reflexivity]. }
  rewrite (mod_generate_ok (mx_off s x) m (cut s P) id HP' Hn).
  2:{ apply rust_ident_syn; assumption. }
  assert (Hm : mod_typed m) by (apply Hty; constructor). assert (Hvm : variables_named (mx_uni x) m) by (apply Hv; constructor).
  rewrite <- (body_without x m P HU HP Hm Hvm s). f_equal. change (pt_top (mx_off s x) m) with (pt_top x m). change (pt_docs (cut s P)) with (pt_docs P). unfold without at 2.
  assert (L1 : forall y, In y (pt_top x m) -> leads y = true) by (intros y Hy; unfold pt_top in Hy; destruct (in_dec _ _ _); [destruct Hy as [<-|[]]; reflexivity|easy]).
  assert (L2 : forall y, In y (pt_docs P) -> leads y = true) by (intros y Hy; destruct (doc_only _ _ _ (po_docs _ _ _ HP) _ Hy) as [t ->]; reflexivity).
  rewrite lead_front, lead_front by assumption. cbn [app without_from leads].
  assert (N : kind_eqb (kind_of (GMod id (pt_body m P))) (switched s) = false).
  { cbn [kind_of]. rewrite (body_not_prelude x m P HP) by apply Hm. now destruct s. }
  rewrite N, without_mod. cbn [app]. rewrite app_nil_r. now rewrite <- !app_assoc.
Qed.

(** ** From requests on *)
Definition pe_off (s : switch) (x : penv) : penv := mk_penv (pe_env x) (off s (pe_cfg x)) (pe_ord x).
(** The module without its preludes, if [b] *)
Section bare.
  Variable b : bool.
  Fixpoint bare (m : module) : module :=
    mk_module (m_name m) (if b then [] else m_prelude m) (m_imports m) (map bare (m_subs m)) (m_classes m) (m_typevars m) (m_functions m) (m_properties m)
      (m_doc m) (m_is_package m) (m_source m).
End bare.
Lemma bare_false : forall m, bare false m = m.
Proof.
  apply module_nested_ind. intros m IH. destruct m as [n p i subs c t f q d k o]. cbn [bare m_name m_prelude m_imports m_subs m_classes m_typevars m_functions m_properties m_doc m_is_package m_source] in *.
  f_equal. rewrite <- (map_id subs) at 2. apply map_ext_in. exact IH.
Qed.
Definition follows {A B} (er : A -> B) (r : outcome A) (r' : outcome B) : Prop := match r with Ok m => r' = Ok (er m) | Err e => r' = Err e | _ => True end.

(** Reading the prelude has no errors. *)
Definition no_err {A} (m : outcome A) : Prop := forall e, m <> Err e.
Lemma ne_bind : forall {A B} (m : outcome A) (f : A -> outcome B), no_err m -> (forall a, no_err (f a)) -> no_err (obind m f).
Proof. intros A B m f Hm Hf e. destruct m as [a|e'|k|]; cbn; try easy; [apply Hf|]. exfalso. now apply (Hm e'). Qed.
Lemma ne_mapM : forall {A B} (f : A -> outcome B) l, (forall a, no_err (f a)) -> no_err (mapM f l).
Proof. intros A B f l H. induction l as [|a l IH]; cbn [mapM]; [easy|]. apply ne_bind; [apply H|]. intros y. apply ne_bind; [exact IH|easy]. Qed.
Lemma ne_filterM : forall {A} (f : A -> outcome bool) l, (forall a, no_err (f a)) -> no_err (filterM f l).
Proof. intros A f l H. induction l as [|a l IH]; cbn [filterM]; [easy|]. apply ne_bind; [apply H|]. intros y. apply ne_bind; [exact IH|easy]. Qed.
Lemma ne_ident : forall dbg U s, no_err (ident_from_py_chk dbg U s).
Proof. intros dbg U s. unfold ident_from_py_chk. destruct s; [now destruct dbg|easy]. Qed.
Lemma ne_path : forall dbg U s, no_err (path_from_py_chk dbg U s).
Proof. intros dbg U s. unfold path_from_py_chk. now destruct (dbg && _). Qed.
Lemma prelude_no_err : forall x o n e, extract_prelude x o n <> Err e.
Proof.
  intros x o n. change (no_err (extract_prelude x o n)). unfold extract_prelude. apply ne_bind.
  { destruct (w_all _ _); [|easy]. apply ne_bind; [apply ne_mapM; intros; apply ne_ident|easy]. }
  intros ix. apply ne_bind; [apply ne_mapM; intros; apply ne_ident|]. intros l. destruct (same_set _ _); [easy|]. apply ne_bind; [|easy].
  destruct (generate_dependencies _); [easy|]. apply ne_filterM. intros i. unfold is_reexported. destruct (w_getattr _ _ _); [|easy]. destruct (path_root n); [|easy].
  apply ne_bind; [apply ne_path|easy].
Qed.

Section reading.
  Variables x x' : penv.
  Variable b : bool.
  Hypothesis Henv : pe_env x' = pe_env x.
  Hypothesis Hord : pe_ord x' = pe_ord x.
  Hypothesis Hall : forall i p, is_attr_allowed (pe_cfg x') i p = is_attr_allowed (pe_cfg x) i p.
  Hypothesis Htrav : traverse_submodules (pe_cfg x') = traverse_submodules (pe_cfg x).
  Hypothesis Hdeps : generate_dependencies (pe_cfg x') = generate_dependencies (pe_cfg x).
  Hypothesis Hpre : generate_preludes (pe_cfg x') = if b then false else generate_preludes (pe_cfg x).
  Lemma same_world : pe_world x' = pe_world x. Proof. unfold pe_world. now rewrite Henv. Qed.
  Lemma same_uni : pe_uni x' = pe_uni x. Proof. unfold pe_uni. now rewrite Henv. Qed.
  Lemma same_dbg : pe_dbg x' = pe_dbg x. Proof. unfold pe_dbg. now rewrite Henv. Qed.
  Lemma same_segments : forall r k, segments_allowed (pe_cfg x') k r = segments_allowed (pe_cfg x) k r.
  Proof. induction r as [|i r IH]; intros k; [reflexivity|]. cbn. now rewrite Hall, IH. Qed.
  Lemma same_import : forall a full, read_import x' a full = read_import x a full.
  Proof.
    intros a full. unfold read_import. assert (E : import_origin x' a = import_origin x a) by (unfold import_origin; now rewrite same_world, same_dbg, same_uni).
    rewrite E. destruct (import_origin x a) as [p| | |]; try reflexivity. cbn [obind]. now rewrite same_segments.
  Qed.
  Lemma same_each : forall {S} (e : env) o al al' (st st' : S -> attr -> outcome S) l s, (forall a, al' a = al a) -> (forall s a, st' s a = st s a) ->
    each_attr e o al' st' l s = each_attr e o al st l s.
  Proof.
    intros S e o al al' st st' l. induction l as [|i l IH]; intros s H1 H2; [reflexivity|]. cbn [each_attr]. destruct (read_attr e o i) as [a| | |]; try reflexivity. cbn [obind].
    assert (E : match a with Some a => if al' a then st' s a else Ok s | None => Ok s end = match a with Some a => if al a then st s a else Ok s | None => Ok s end)
      by (destruct a as [a|]; [rewrite H1, H2; reflexivity|reflexivity]).
    rewrite E. clear E. destruct (match a with Some a => if al a then _ else _ | None => _ end); try reflexivity. cbn [obind]. now apply IH.
  Qed.
  Lemma same_class : forall e o p, class_parse e (pe_cfg x') o p = class_parse e (pe_cfg x) o p.
  Proof.
    intros e o p. unfold class_parse. rewrite (same_each e o (class_attr_allowed (pe_cfg x)) (class_attr_allowed (pe_cfg x')) (class_step e p) (class_step e p)); [reflexivity| |reflexivity].
    intros a. unfold class_attr_allowed. now rewrite Hall.
  Qed.
  Lemma same_step : forall n s a, module_step x' n s a = module_step x n s a.
  Proof. intros n s a. unfold module_step. destruct s. rewrite Henv. destruct (determine _ _ _ _ _) as [v| | |]; try reflexivity. cbn [obind]. destruct v; try reflexivity; [now rewrite same_import|now rewrite same_class]. Qed.
  Lemma same_subs : forall o, extract_submodules x' o = extract_submodules x o.
  Proof.
    intros o. unfold extract_submodules, module_path. rewrite same_dbg, same_uni, same_world. destruct (path_from_py_chk _ _ _) as [n| | |]; try reflexivity. cbn [obind].
    destruct (mapM _ _) as [l| | |]; try reflexivity. cbn [obind]. do 2 f_equal. apply filter_ext. intros i. apply Hall.
  Qed.
  Lemma same_filterM : forall {A} (f g : A -> outcome bool) l, (forall a, f a = g a) -> filterM f l = filterM g l.
  Proof. intros A f g l H. induction l as [|a l IH]; [reflexivity|]. cbn. now rewrite H, IH. Qed.
  Lemma same_prelude : forall o n, extract_prelude x' o n = extract_prelude x o n.
  Proof.
    intros o n. unfold extract_prelude. rewrite same_dbg, same_uni, same_world, Hdeps. destruct (match w_all (pe_world x) o with Some _ => _ | None => _ end) as [ix| | |]; try reflexivity. cbn [obind].
    destruct (mapM _ _) as [l| | |]; try reflexivity. cbn [obind]. destruct (same_set _ _); [reflexivity|].
    assert (E : filterM (is_reexported x' o n) ix = filterM (is_reexported x o n) ix) by (apply same_filterM; intros i; unfold is_reexported; now rewrite same_world, Henv).
    rewrite E. destruct (if generate_dependencies _ then _ else _) as [k| | |]; try reflexivity. cbn [obind]. f_equal. apply filter_ext. intros i. unfold prelude_allowed. rewrite same_world. now rewrite Hall.
  Qed.
  Lemma bare_retarget : forall c m st, retarget c (bare b m) st = retarget c m st.
  Proof. intros c m st. now destruct m. Qed.
  Definition bared (p : found * list module) : found * list module := (fst p, map (bare b) (snd p)).
  Lemma follow_sub : forall rec rec' o n acc i, (forall s, follows (bare b) (rec s) (rec' s)) -> follows bared (sub_step x rec o n acc i) (sub_step x' rec' o n (bared acc) i).
  Proof.
    intros rec rec' o n [st subs] i H. unfold sub_step, bared. cbn [fst snd]. rewrite same_world. destruct (find_path _ _ _) as [c|].
    - destruct (w_import _ _) as [s|]; [|reflexivity]. pose proof (H s) as Hs. destruct (rec s) as [m|e|k|]; try exact I; unfold follows in Hs; rewrite Hs; [|reflexivity].
      now rewrite bare_retarget.
    - unfold find_submodule. rewrite same_world. destruct (match w_import _ _ with Some _ => _ | None => _ end) as [s|]; [|reflexivity].
      pose proof (H s) as Hs. destruct (rec s) as [m|e|k|]; try exact I; unfold follows in Hs; rewrite Hs; [|reflexivity]. cbn. now rewrite map_app.
  Qed.
  Lemma follow_subs : forall rec rec' o n l acc, (forall s, follows (bare b) (rec s) (rec' s)) -> follows bared (sub_steps x rec o n acc l) (sub_steps x' rec' o n (bared acc) l).
  Proof.
    intros rec rec' o n l. induction l as [|i l IH]; intros acc H; [reflexivity|]. cbn [sub_steps]. pose proof (follow_sub rec rec' o n acc i H) as Hs.
    destruct (sub_step x rec o n acc i) as [a|e|k|]; try exact I; unfold follows in Hs; rewrite Hs; [|reflexivity]. cbn [obind]. now apply IH.
  Qed.
  Lemma follow_body : forall rec rec' o, (forall s, follows (bare b) (rec s) (rec' s)) -> follows (bare b) (mod_parse_body x rec o) (mod_parse_body x' rec' o).
  Proof.
    intros rec rec' o H. unfold mod_parse_body, module_path. rewrite same_dbg, same_uni, same_world, Henv, Htrav, Hpre, Hord. destruct (path_from_py_chk _ _ _) as [n|e|k|]; try (exact I || reflexivity). cbn [obind]. rewrite same_prelude.
    destruct (if generate_preludes (pe_cfg x) then _ else Ok []) as [pre|e|k|] eqn:Epre; try (exact I || reflexivity).
    2:{ exfalso. destruct (generate_preludes (pe_cfg x)); [|discriminate]. exact (prelude_no_err _ _ _ _ Epre). }
    cbn [obind]. assert (E : (if if b then false else generate_preludes (pe_cfg x) then extract_prelude x o n else Ok []) = Ok (if b then [] else pre)) by (destruct b; [reflexivity|exact Epre]).
    rewrite E. cbn [obind]. rewrite same_subs. destruct (if match w_getattr (pe_world x) o (u "__path__") with Some _ => true | None => false end then extract_submodules x o else Ok []) as [sbs|e|k|]; try (exact I || reflexivity). cbn [obind].
    rewrite (same_each _ o (fun a => is_attr_allowed (pe_cfg x) (at_name a) (at_module a)) (fun a => is_attr_allowed (pe_cfg x') (at_name a) (at_module a)) (module_step x n) (module_step x' n));
      [|intros a; apply Hall|apply same_step].
    destruct (each_attr _ _ _ _ _ _) as [st|e|k|]; try (exact I || reflexivity). cbn [obind]. pose proof (follow_subs rec rec' o n (ho (pe_ord x) (fd_subs st)) (st, []) H) as Hs.
    destruct (traverse_submodules (pe_cfg x)).
    - destruct (sub_steps x rec o n (st, []) _) as [[st' subs]|e|k|]; try exact I; unfold follows in Hs; change (bared (st, [])) with (st, @nil module) in Hs;
        rewrite Hs; [|reflexivity]. cbn [obind bared fst snd]. destruct (read_docstring (pe_world x) o) as [d|e|k|]; (exact I || reflexivity).
    - cbn [obind]. destruct (read_docstring (pe_world x) o) as [d|e|k|]; (exact I || reflexivity).
  Qed.
  Lemma follow_parse : forall fuel o, follows (bare b) (mod_parse x fuel o) (mod_parse x' fuel o).
  Proof. induction fuel as [|f IH]; intros o; [exact I|]. cbn [mod_parse]. now apply follow_body. Qed.
  (** *** Requests *)
  Definition barec (c : codegen) : codegen := mk_codegen (map (bare b) (cg_modules c)) (cg_sources c).
  Lemma follow_module : forall fuel o c, follows barec (cg_module x fuel o c) (cg_module x' fuel o (barec c)).
  Proof.
    intros fuel o c. unfold cg_module. pose proof (follow_parse fuel o) as H. destruct (mod_parse x fuel o) as [m|e|k|]; try exact I; unfold follows in H; rewrite H; [|reflexivity].
    cbn. unfold barec. cbn. now rewrite map_app.
  Qed.
  Lemma follow_name : forall fuel n c, follows barec (cg_module_name x fuel n c) (cg_module_name x' fuel n (barec c)).
  Proof. intros fuel n c. unfold cg_module_name. rewrite same_world. destruct (w_import (pe_world x) n); [apply follow_module|reflexivity]. Qed.
  Lemma follow_ask : forall fuel r c, follows barec (ask x fuel r c) (ask x' fuel r (barec c)).
  Proof.
    intros fuel r c. destruct r as [o|n|l|l|src n o]; cbn [ask].
    - apply follow_module.
    - apply follow_name.
    - revert c. induction l as [|o l IH]; intros c; [reflexivity|]. cbn [cg_modules_all]. pose proof (follow_module fuel o c) as H.
      destruct (cg_module x fuel o c) as [c'|e|k|]; try exact I; unfold follows in H; rewrite H; [|reflexivity]. cbn [obind]. apply IH.
    - revert c. induction l as [|o l IH]; intros c; [reflexivity|]. cbn [cg_module_names]. pose proof (follow_name fuel o c) as H.
      destruct (cg_module_name x fuel o c) as [c'|e|k|]; try exact I; unfold follows in H; rewrite H; [|reflexivity]. cbn [obind]. apply IH.
    - unfold cg_module_from_str. destruct o as [o|]; [|reflexivity]. exact (follow_module fuel o (mk_codegen (cg_modules c) (map_insert (cg_sources c) n src))).
  Qed.
  Lemma follow_asks : forall fuel l c, follows barec (asks x fuel l c) (asks x' fuel l (barec c)).
  Proof.
    intros fuel l. induction l as [|r l IH]; intros c; [reflexivity|]. cbn [asks]. pose proof (follow_ask fuel r c) as H.
    destruct (ask x fuel r c) as [c'|e|k|]; try exact I; unfold follows in H; rewrite H; [|reflexivity]. cbn [obind]. apply IH.
  Qed.
  (** *** Dependencies *)
  Lemma bare_fields : forall m, m_name (bare b m) = m_name m /\ m_imports (bare b m) = m_imports m /\ m_subs (bare b m) = map (bare b) (m_subs m) /\ m_classes (bare b m) = m_classes m /\
    m_typevars (bare b m) = m_typevars m /\ m_functions (bare b m) = m_functions m /\ m_properties (bare b m) = m_properties m /\ m_doc (bare b m) = m_doc m /\ m_is_package (bare b m) = m_is_package m /\
    m_source (bare b m) = m_source m /\ m_prelude (bare b m) = if b then [] else m_prelude m.
  Proof. intros m. destruct m. repeat split. Qed.
  Lemma bare_imports : forall m, imports_of (bare b m) = imports_of m.
  Proof.
    apply module_nested_ind. intros m IH. destruct m as [n p i subs c t f q d k o]. cbn in *. f_equal. induction subs as [|a r IHr]; [reflexivity|]. cbn. f_equal; [apply IH; now left|].
    apply IHr. intros z Hz. apply IH. now right.
  Qed.
  Lemma bare_flat : forall {A} (f : module -> list A) l, (forall m, f (bare b m) = f m) -> flat_map f (map (bare b) l) = flat_map f l.
  Proof. intros A f l H. induction l as [|m l IH]; [reflexivity|]. cbn. now rewrite H, IH. Qed.
  Lemma follow_dependencies : forall fuel l seen ms r, add_dependencies x fuel seen l ms = Ok r -> add_dependencies x' fuel seen l (map (bare b) ms) = Ok (map (bare b) r).
  Proof.
    intros fuel l. induction l as [|p l IH]; intros seen ms r H; cbn [add_dependencies] in H |- *; [now injection H as <-|]. rewrite same_world.
    apply bind_Ok in H as (o & Ho & H). rewrite Ho. cbn [obind]. destruct (mem_str _ seen); [now apply IH|]. apply bind_Ok in H as (d & Hd & H).
    assert (E : dependency_allowed x' o = dependency_allowed x o).
    { unfold dependency_allowed. rewrite same_dbg, same_uni, same_world, Henv. destruct (ident_from_py_chk _ _ _); try reflexivity. cbn [obind]. destruct (module_of _ _); try reflexivity. cbn [obind]. now rewrite Hall. }
    rewrite E, Hd. cbn [obind]. destruct d; [|now apply IH]. apply bind_Ok in H as (m & Hm & H). pose proof (follow_parse fuel o) as F. rewrite Hm in F. unfold follows in F. rewrite F. cbn [obind].
    apply IH in H. rewrite map_app in H. exact H.
  Qed.
  (** *** The forest *)
  Lemma follow_mapM : forall {A B C D} (f : A -> outcome B) (g : C -> outcome D) (h : A -> C) (k : B -> D) l r, (forall a y, In a l -> f a = Ok y -> g (h a) = Ok (k y)) ->
    mapM f l = Ok r -> mapM g (map h l) = Ok (map k r).
  Proof.
    intros A B C D f g h k l. induction l as [|a l IH]; intros r H Hr; [now injection Hr as <-|]. cbn [mapM map] in *. apply bind_Ok in Hr as (y & Hy & Hr). apply bind_Ok in Hr as (ys & Hys & Hr). injection Hr as <-.
    rewrite (H a y (or_introl eq_refl) Hy). cbn [obind]. rewrite (IH ys); [reflexivity| |exact Hys]. intros a' y' Ha'. apply H. now right.
  Qed.
  Lemma follow_embed : forall full i m r, embed_in x full i m = Ok r -> embed_in x' full i (bare b m) = Ok (bare b r).
  Proof.
    intros full. induction i as [|j IH]; intros m r H; cbn [embed_in] in *; [now injection H as <-|]. unfold mod_empty in *. rewrite same_world.
    destruct (w_import _ _) as [o|]; [|discriminate]. destruct (read_docstring _ _) as [d|e|k|]; try discriminate. cbn [obind or_unreachable] in *. apply IH in H. cbn in H |- *.
    now destruct b.
  Qed.
  Lemma sort_bare : forall l, sort_modules (map (bare b) l) = map (bare b) (sort_modules l).
  Proof.
    induction l as [|m l IH]; [reflexivity|]. cbn. unfold sort_modules in IH. rewrite IH. generalize (fold_right insert_sorted [] l). clear. intros l. induction l as [|y l IH]; [reflexivity|]. cbn [map insert_sorted].
    destruct (bare_fields m) as (-> & _), (bare_fields y) as (-> & _). destruct (path_cmp _ _); try reflexivity. cbn [map]. now rewrite IH.
  Qed.
  Lemma spans_bare : forall l, spans (map (bare b) l) = map (map (bare b)) (spans l).
  Proof.
    induction l as [|m l IH]; [reflexivity|]. cbn [map spans]. rewrite IH. destruct (spans l) as [|[|y s] t]; try reflexivity. cbn [map].
    destruct (bare_fields m) as (-> & _), (bare_fields y) as (-> & _). now destruct (path_eqb _ _).
  Qed.
  Hypothesis Ho : order_ok (pe_ord x).
  Lemma follow_siblings : forall f f' l r, (forall k m, f k = Ok m -> f' (map (bare b) k) = Ok (bare b m)) -> merge_siblings f l = Ok r -> merge_siblings f' (map (bare b) l) = Ok (map (bare b) r).
  Proof.
    intros f f' l r H Hr. unfold merge_siblings in *. rewrite sort_bare, spans_bare. apply (follow_mapM _ _ _ _ _ _) with (2 := Hr). intros k m _ Hm. unfold merge_run in *.
    destruct k as [|a [|a' k]]; [exact (H _ _ Hm)|now injection Hm as <-|exact (H _ _ Hm)].
  Qed.
  Lemma follow_merge : forall n l m, merge_modules x n l = Ok m -> merge_modules x' n (map (bare b) l) = Ok (bare b m).
  Proof.
    induction n as [|n IH]; intros l m H; [discriminate|]. cbn [merge_modules] in *. destruct l as [|a l]; [discriminate|]. apply bind_Ok in H as (subs & Hs & H). injection H as <-.
    cbn [map]. assert (E : flat_map m_subs (bare b a :: map (bare b) l) = map (bare b) (flat_map m_subs (a :: l))).
    { change (bare b a :: map (bare b) l) with (map (bare b) (a :: l)). generalize (a :: l). clear. intros l. induction l as [|m l IH]; [reflexivity|]. cbn [map flat_map]. rewrite map_app, IH. now destruct m. }
    rewrite E, (follow_siblings _ (merge_modules x' n) _ _ IH Hs). cbn [obind]. unfold as_set. rewrite Hord.
    change (bare b a :: map (bare b) l) with (map (bare b) (a :: l)). rewrite (bare_flat m_imports), (bare_flat m_classes), (bare_flat m_typevars), (bare_flat m_functions), (bare_flat m_properties) by (intros z; now destruct z). destruct (bare_fields a) as (-> & _ & _ & _ & _ & _ & _ & -> & -> & -> & _).
    cbn [bare m_name m_prelude m_imports m_subs m_classes m_typevars m_functions m_properties m_doc m_is_package m_source]. do 2 f_equal. destruct b.
    - assert (Z : forall k, flat_map m_prelude (map (bare true) k) = []) by (clear; intros k; induction k as [|m k IH]; [reflexivity|]; cbn [map flat_map]; rewrite IH; now destruct m).
      rewrite Z. cbn. apply Permutation_nil. apply Permutation_sym. apply Ho.
    - assert (Z : map (bare false) (a :: l) = a :: l) by (rewrite <- (map_id (a :: l)) at 2; apply map_ext; apply bare_false). now rewrite Z.
  Qed.
  Lemma bare_depth : forall m, depth (bare b m) = depth m.
  Proof.
    apply module_nested_ind. intros m IH. destruct m as [n p i subs c t f q d k o]. cbn [bare depth m_subs] in *. do 2 f_equal. rewrite map_map. apply map_ext_in. exact IH.
  Qed.
  Lemma follow_canonicalize : forall l r, canonicalize x l = Ok r -> canonicalize x' (map (bare b) l) = Ok (map (bare b) r).
  Proof.
    intros l r H. unfold canonicalize in *. apply bind_Ok in H as (k & Hk & H).
    rewrite (follow_mapM (canonical x) (canonical x') (bare b) (bare b) l k); [|  |exact Hk].
    - cbn [obind]. unfold merge_duplicates in *. assert (E : forest_depth (map (bare b) k) = forest_depth k) by (unfold forest_depth; rewrite map_map; f_equal; apply map_ext; apply bare_depth).
      rewrite E. now apply (follow_siblings _ _ _ _ (follow_merge _)).
    - intros m y _ Hm. unfold canonical in *. destruct (bare_fields m) as (-> & _). now apply follow_embed.
  Qed.
  Lemma follow_final : forall fuel c ms, final_modules x fuel c = Ok ms -> final_modules x' fuel (barec c) = Ok (map (bare b) ms).
  Proof.
    intros fuel c ms H. unfold final_modules in *. cbn [barec cg_modules cg_sources]. destruct (cg_modules c) as [|m l]; [discriminate|]. cbn [map]. rewrite Hdeps.
    apply bind_Ok in H as (k & Hk & H). apply bind_Ok in H as (k2 & Hk2 & H). injection H as <-.
    assert (E : (if generate_dependencies (pe_cfg x) then parse_dependencies x' fuel (map (bare b) (m :: l)) else Ok (map (bare b) (m :: l))) = Ok (map (bare b) k)).
    { pose proof follow_dependencies as FD. destruct (generate_dependencies (pe_cfg x)); [|now injection Hk as <-]. unfold parse_dependencies in *. rewrite (bare_flat imports_of) by apply bare_imports. now apply FD. }
    cbn [map] in E. rewrite E. cbn [obind]. rewrite (follow_canonicalize _ _ Hk2). cbn [obind]. f_equal. rewrite !map_map. apply map_ext. intros z. unfold with_source. destruct (bare_fields z) as (-> & _).
    destruct (map_get _ _); [|reflexivity]. now destruct z.
  Qed.
End reading.

(** ** Generating without the preludes *)
Lemma bare_exists : forall b p m, path_exists p (bare b m) = path_exists p m.
Proof.
  intros b p. apply module_nested_ind. intros m IH. destruct m as [n pr i subs c t f q d k o]. cbn [bare path_exists m_name m_subs m_classes m_functions m_typevars m_properties] in *.
  assert (E1 : has_path m_name p (map (bare b) subs) = has_path m_name p subs).
  { clear IH. unfold has_path. induction subs as [|a r IHr]; [reflexivity|]. cbn. rewrite IHr. now destruct a. }
  assert (E2 : existsb (path_exists p) (map (bare b) subs) = existsb (path_exists p) subs).
  { clear E1. induction subs as [|a r IHr]; [reflexivity|]. cbn. rewrite IHr by (intros z Hz; apply IH; now right). now rewrite (IH a (or_introl eq_refl)). }
  now rewrite E1, E2.
Qed.
Lemma bare_types : forall b m, types_of (bare b m) = types_of m.
Proof.
  intros b. apply module_nested_ind. intros m IH. destruct m as [n p i subs c t f q d k o]. cbn in *. do 2 f_equal. induction subs as [|a r IHr]; [reflexivity|]. cbn. f_equal; [apply IH; now left|].
  apply IHr. intros z Hz. apply IH. now right.
Qed.
Lemma bare_generate : forall x top, generate_preludes (mx_cfg x) = false ->
  forall m, (forall k, within k m -> In (bare true k) (map (bare true) top) -> In k top) ->
  mod_generate (mk_mctx (mx_cfg x) (mx_imp x) (mx_dbg x) (mx_numpy x) (mx_uni x) (map (bare true) top) (mx_types x)) (bare true m) =
  mod_generate (mk_mctx (mx_cfg x) (mx_imp x) (mx_dbg x) (mx_numpy x) (mx_uni x) top (mx_types x)) m.
Proof.
  intros x top Hp m. induction m as [m IH] using module_nested_ind. intros Ht. rewrite !mod_generate_eq. cbn [mx_cfg mx_imp mx_dbg mx_numpy mx_uni mx_top mx_types].
  destruct (bare_fields true m) as (E1 & E2 & E3 & E4 & E5 & E6 & E7 & E8 & E9 & E10 & E11). rewrite E1, E2, E3, E4, E5, E6, E7, E8, Hp. cbv zeta.
  assert (A : (if in_dec module_dec (bare true m) (map (bare true) top) then [GAttr AttrAllow] else []) = if in_dec module_dec m top then [GAttr AttrAllow] else []).
  { destruct (in_dec module_dec (bare true m) _) as [H|H], (in_dec module_dec m top) as [H'|H']; try reflexivity; exfalso; [apply H', (Ht m (within_here m) H)|apply H, in_map, H']. }
  rewrite A. assert (B : gen_embed (bare true m) = gen_embed m) by (unfold gen_embed; now rewrite E1, E10). rewrite B.
  assert (C : local_types (mx_dbg x) (mx_uni x) (bare true m) (mx_types x) = local_types (mx_dbg x) (mx_uni x) m (mx_types x)) by (unfold local_types; now rewrite E1, E2). rewrite C.
  assert (D : filter (fun i => existsb (path_exists (im_origin i)) (map (bare true) top)) (m_imports m) = filter (fun i => existsb (path_exists (im_origin i)) top) (m_imports m)).
  { apply filter_ext. intros i. clear. induction top as [|a r IH]; [reflexivity|]. cbn. now rewrite IH, bare_exists. }
  rewrite D. clear A B C D E1 E2 E3 E4 E5 E6 E7 E8 E9 E10 E11. destruct (mapM _ (m_functions m)); try reflexivity. cbn [obind]. destruct (local_types _ _ _ _); try reflexivity. cbn [obind].
  destruct (gen_doc _ _); try reflexivity. cbn [obind]. destruct (when (generate_imports _) _); try reflexivity. cbn [obind when].
  destruct (when (generate_type_vars _) _); try reflexivity. cbn [obind]. destruct (when (generate_classes _) _); try reflexivity. cbn [obind].
  destruct (when (generate_functions _) _); try reflexivity. cbn [obind]. destruct (when (generate_properties _) _); try reflexivity. cbn [obind].
  assert (S : concatM (mod_generate (mk_mctx (mx_cfg x) (mx_imp x) (mx_dbg x) (mx_numpy x) (mx_uni x) (map (bare true) top) (mx_types x))) (map (bare true) (m_subs m)) =
              concatM (mod_generate (mk_mctx (mx_cfg x) (mx_imp x) (mx_dbg x) (mx_numpy x) (mx_uni x) top (mx_types x))) (m_subs m)).
  { unfold concatM. f_equal. assert (Hk : forall s, In s (m_subs m) -> forall k, within k s -> In (bare true k) (map (bare true) top) -> In k top) by (intros s Hs k Hks; apply Ht; now apply (within_sub k m s)).
    clear Ht. induction (m_subs m) as [|q r IHr]; [reflexivity|]. cbn [map mapM]. rewrite (IH q (or_introl eq_refl) (Hk q (or_introl eq_refl))). rewrite IHr; [reflexivity| |].
    - intros s Hs. apply IH. now right.
    - intros s Hs. apply Hk. now right. }
  now rewrite S.
Qed.
Lemma bare_top : forall x fuel l c ms, order_ok (pe_ord x) -> honest (pe_uni x) (pe_world x) -> asked_modules (pe_world x) l -> asks x fuel l cg_new = Ok c -> final_modules x fuel c = Ok ms ->
  forall m k, In m ms -> within k m -> In (bare true k) (map (bare true) ms) -> In k ms.
Proof.
  intros x fuel l c ms Ho Hw Hl Hc Hf m k Hm Hk Hin. apply in_map_iff in Hin as (t & Et & Ht). assert (En : m_name t = m_name k) by (destruct t, k; now injection Et).
  destruct (within_reach k m Hk ms Hm) as [ch Hch].
  destruct (final_linked x Ho Hw fuel l c ms Hl Hc Hf ch (ex_intro _ k Hch)) as [HL (n & r & E & _)].
  assert (H1 : length (segs (m_name t)) = 1).
  { destruct (final_linked x Ho Hw fuel l c ms Hl Hc Hf [m_name t]) as [_ (n' & r' & E' & L)]; [exists t; now apply reach_here|]. now injection E' as -> _. }
  destruct Hch as [ms k Hk'|ms m' ch k Hm' Hr]; [exact Hk'|]. exfalso. rewrite En in H1.
  assert (G : forall d a, linked (a :: d) -> d <> [] -> forall e f, d = e ++ [f] -> length (segs a) < length (segs f)).
  { clear. induction d as [|y d IH]; intros a H Hn e f E; [easy|]. destruct H as [[i Hi] H]. assert (L : length (segs a) < length (segs y)) by (rewrite Hi, app_length; cbn; lia).
    destruct d as [|z d].
    - destruct e as [|? e]; [injection E as ->; exact L|]. injection E as _ E. now destruct e.
    - destruct e as [|y' e]; [discriminate|]. injection E as -> E. specialize (IH y' H ltac:(easy) e f E). lia. }
  destruct (reach_last _ _ _ Hr) as [d Ed]. assert (Hne : ch <> []) by (rewrite Ed; now destruct d). pose proof (G ch (m_name m') HL Hne d (m_name k) Ed) as G'. 
  assert (H2 : length (segs (m_name m')) = 1).
  { destruct (final_linked x Ho Hw fuel l c ms Hl Hc Hf [m_name m']) as [_ (n' & r' & E' & L)]; [exists m'; now apply reach_here|]. now injection E' as -> _. }
  lia.
Qed.

Definition is_preludes (s : switch) : bool := match s with Preludes => true | _ => false end.
Lemma off_output : forall s x numpy fuel l c out, uni_ok (pe_uni x) -> order_ok (pe_ord x) -> (s = Preludes -> honest (pe_uni x) (pe_world x) /\ asked_modules (pe_world x) l) -> asks x fuel l cg_new = Ok c ->
  (forall ms m k, final_modules x fuel c = Ok ms -> In m ms -> within k m -> variables_named (pe_uni x) k) -> cg_generate x numpy fuel c = Ok out ->
  exists c', asks (pe_off s x) fuel l cg_new = Ok c' /\ cg_generate (pe_off s x) numpy fuel c' = Ok (without (switched s) out).
Proof.
  intros s x numpy fuel l c out HU Ho Hh Hc Hv Hout. remember (is_preludes s) as b eqn:Db.
  assert (Hall : forall i p, is_attr_allowed (pe_cfg (pe_off s x)) i p = is_attr_allowed (pe_cfg x) i p) by reflexivity.
  assert (Hpre : generate_preludes (pe_cfg (pe_off s x)) = if b then false else generate_preludes (pe_cfg x)) by (subst b; now destruct s).
  exists (barec b c). split.
  { pose proof (follow_asks x (pe_off s x) b eq_refl eq_refl Hall eq_refl eq_refl Hpre fuel l cg_new) as F. rewrite Hc in F. exact F. }
  unfold cg_generate in *. apply bind_Ok in Hout as (ms & Hf & H).
  rewrite (follow_final x (pe_off s x) b eq_refl eq_refl Hall eq_refl eq_refl Hpre Ho fuel c ms Hf). cbn [obind]. apply bind_Ok in H as (ls & Hls & H). injection H as <-.
  assert (G : forall m, In m ms -> mod_generate (gen_ctx (pe_off s x) numpy (map (bare b) ms)) (bare b m) = mod_generate (mx_off s (gen_ctx x numpy ms)) m).
  { intros m Hm. assert (T : all_types (map (bare b) ms) = all_types ms) by (unfold all_types; f_equal; apply bare_flat; apply bare_types). unfold gen_ctx, mx_off. rewrite T. destruct b.
    - assert (Es : s = Preludes) by now destruct s. destruct (Hh Es) as [Hw Ha].
      apply (bare_generate (mk_mctx (off s (pe_cfg x)) (fun n => match w_import (pe_world x) n with Some _ => true | None => false end) (pe_dbg x) numpy (pe_uni x) ms (all_types ms)) ms).
      + cbn. now rewrite Es.
      + intros k Hk. now apply (bare_top x fuel l c ms Ho Hw Ha Hc Hf m k).
    - assert (Z : map (bare false) ms = ms) by (rewrite <- (map_id ms) at 2; apply map_ext; apply bare_false). now rewrite Z, bare_false. }
  assert (K : forall k ls, incl k ms -> mapM (mod_generate (gen_ctx x numpy ms)) k = Ok ls ->
            mapM (mod_generate (gen_ctx (pe_off s x) numpy (map (bare b) ms))) (map (bare b) k) = Ok (map (without (switched s)) ls) /\ forall y, In y ls -> closed y).
  { clear Hls ls. induction k as [|m k IHk]; intros ls Hin Hls; [injection Hls as <-; split; [reflexivity|easy]|]. cbn [mapM] in Hls.
    apply bind_Ok in Hls as (y & Hy & Hls). apply bind_Ok in Hls as (r & Hr & Hls). injection Hls as <-. destruct (IHk r (fun z Hz => Hin z (or_intror Hz)) Hr) as [E1 E2].
    assert (Hm : In m ms) by (apply Hin; now left). cbn [mapM map]. rewrite (G m Hm).
    rewrite (module_without s (gen_ctx x numpy ms) m y HU); [| | |exact Hy].
    - cbn [obind]. rewrite E1. split; [reflexivity|]. intros z [<-|Hz]; [now apply mod_closed in Hy|auto].
    - intros k0 Hk0. now apply (final_typed x fuel l c ms Ho Hc Hf m k0).
    - intros k0 Hk0. now apply (Hv ms m k0). }
  destruct (K ms ls (incl_refl _) Hls) as [E1 E2]. unfold concatM. rewrite E1. cbn. now rewrite without_concat.
Qed.
