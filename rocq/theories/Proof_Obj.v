From Verif Require Import Base Model_Config Model_Type Spec_Type Proof_Base Proof_Repair Proof_Type Proof_Ann.

(** ** C16: class objects *)
Lemma order_types : forall e, In e builtin_order -> snd e = builtin_type (fst e).
Proof. intros e H. cbn in H. repeat (destruct H as [<-|H]; [reflexivity|]). easy. Qed.
Lemma order_complete : forall b, In (b, builtin_type b) builtin_order.
Proof. destruct b; cbn; tauto. Qed.

Lemma class_closest : forall dbg sub text, consistent sub -> sub BDateTime = false -> (exists b, sub b = true) ->
  exists b, closest sub b /\ from_class dbg sub text = Ok (builtin_type b).
Proof.
  intros dbg sub text Hc Hd (b & Hb). unfold from_class.
  destruct (find (fun e => sub (fst e)) builtin_order) as [e|] eqn:E.
  - pose proof (find_In _ _ _ E) as [Hi He]. exists (fst e). split.
    + split; [easy|]. intros a [[-> Hl]|[-> Hl]]; [|easy]. 
      destruct (sub BBool) eqn:Eb; [|easy]. exfalso. unfold builtin_order in E. cbn [find fst] in E. rewrite Eb in E.
      injection E as <-. easy.
    + f_equal. now apply order_types.
  - exfalso. pose proof (find_none _ _ E _ (order_complete b)) as Hn. cbn in Hn. congruence.
Qed.

Lemma class_unknown : forall dbg sub text, (forall b, sub b = false) -> from_class dbg sub text = from_str dbg text.
Proof.
  intros dbg sub text H. unfold from_class. destruct (find _ builtin_order) as [e|] eqn:E; [|easy].
  apply find_In in E as [_ E]. rewrite H in E. easy.
Qed.

(** If the class has exactly one closest known base, the answer does not depend on the choice. *)
Lemma class_closest_unique : forall dbg sub text b, consistent sub -> sub BDateTime = false ->
  closest sub b -> (forall b', closest sub b' -> b' = b) -> from_class dbg sub text = Ok (builtin_type b).
Proof.
  intros dbg sub text b Hc Hd Hb Hu. destruct (class_closest dbg sub text Hc Hd) as (b' & H1 & H2).
  - exists b. apply Hb.
  - now rewrite <- (Hu b' H1).
Qed.

Lemma class_datetime : exists sub text, consistent sub /\ closest sub BDateTime /\
  (forall b, closest sub b -> b = BDateTime) /\ forall dbg, from_class dbg sub text = Ok TDate.
Proof.
  exists (fun b => match b with BDate | BDateTime => true | _ => false end), (u "<class 'datetime.datetime'>").
  split; [|split; [|split]].
  - intros a b [[-> ->]|[-> ->]]; easy.
  - split; [easy|]. intros a [[-> H]|[-> H]]; easy.
  - intros b [H1 H2]. destruct b; try easy. exfalso. assert (H : true = false); [|easy]. apply (H2 BDateTime). right. easy.
  - reflexivity.
Qed.

(** ** C17: typing objects *)
Lemma ann_user : forall dbg n, plain_name n -> from_ann dbg (user_class n) = Ok (name_meaning n).
Proof.
  intros dbg n H. unfold user_class. cbn [from_ann]. rewrite class_unknown by easy.
  rewrite from_str_class; [now apply from_str_name|]. destruct H as (_ & H & _). intros Hi. apply H in Hi as [_ Hi].
  apply Hi. cbn. tauto.
Qed.
Lemma ann_builtin : forall dbg b t, b <> BDateTime -> from_ann dbg (builtin_class b t) = Ok (builtin_type b).
Proof. intros dbg b t H. destruct b; try reflexivity. easy. Qed.
Lemma ann_none : forall dbg, from_ann dbg none_type = Ok TNone.
Proof. intros []; vm_compute; reflexivity. Qed.

Lemma mapM_render : forall dbg l, (forall x, In x l -> from_ann dbg (render x) = Ok (obj_meaning x)) ->
  mapM (from_ann dbg) (map render l) = Ok (map obj_meaning l).
Proof.
  induction l as [|x l IH]; intros H; [easy|]. cbn [map mapM]. rewrite (H x (or_introl eq_refl)). cbn [obind].
  rewrite IH by (intros; apply H; now right). easy.
Qed.
Lemma is_pynone_true : forall t, is_pynone t = true <-> t = TNone.
Proof. intros []; cbn; split; easy. Qed.

Lemma from_ann_typing : forall dbg o w l text, from_ann dbg o = Ok w ->
  from_ann dbg (ATyping (Some o) (Some l) text) = (let! inner := mapM (from_ann dbg) l in combine_typing w inner).
Proof. intros dbg o w l text H. cbn [from_ann]. rewrite H. reflexivity. Qed.

Lemma object_read : forall dbg o, obj_ok o -> from_ann dbg (render o) = Ok (obj_meaning o).
Proof.
  intros dbg o H.
  induction H as [b t Hb|n Hn| | |x Hx IH Hne|l Hl IH Hlen|k v Hk IHk Hv IHv|x Hx IH|x Hx IH|x Hx IH|l Hl IH|ps r Hps IHps Hr IHr|g x Hg Hx IH|b t Hb];
    cbn [render obj_meaning].
  - now apply ann_builtin.
  - now apply ann_user.
  - apply ann_none.
  - destruct dbg; vm_compute; reflexivity.
  - rewrite (from_ann_typing dbg _ (TUnion [TUnknown])) by (destruct dbg; vm_compute; reflexivity).
    cbn [mapM]. rewrite IH, ann_none. cbn [obind combine_typing length Nat.eqb existsb find is_pynone orb].
    destruct (is_pynone (obj_meaning x)) eqn:E; [now apply is_pynone_true in E|]. easy.
  - rewrite (from_ann_typing dbg _ (TUnion [TUnknown])) by (destruct dbg; vm_compute; reflexivity).
    rewrite mapM_render by easy. cbn [obind combine_typing]. rewrite map_length.
    destruct Hlen as [Hlen|[Hlen Hne]].
    + destruct (Nat.eqb_spec (length l) 2); [lia|]. easy.
    + rewrite Hlen. cbn [Nat.eqb andb]. destruct (existsb is_pynone (map obj_meaning l)) eqn:E; [|easy].
      exfalso. apply existsb_exists in E as (t & Ht & E). apply is_pynone_true in E. subst t.
      apply in_map_iff in Ht as (x & Hx & Hi). now apply (Hne x).
  - rewrite (from_ann_typing dbg _ (TDict TUnknown TUnknown)) by reflexivity. cbn [mapM]. rewrite IHk, IHv. easy.
  - rewrite (from_ann_typing dbg _ (TList TUnknown)) by reflexivity. cbn [mapM]. rewrite IH. easy.
  - rewrite (from_ann_typing dbg _ (TSet TUnknown)) by reflexivity. cbn [mapM]. rewrite IH. easy.
  - rewrite (from_ann_typing dbg _ (TFrozenSet TUnknown)) by reflexivity. cbn [mapM]. rewrite IH. easy.
  - rewrite (from_ann_typing dbg _ (TTuple [TUnknown])) by reflexivity. rewrite mapM_render by easy. easy.
  - rewrite (from_ann_typing dbg _ (TFunction [TEllipsis] TUnknown)) by (destruct dbg; vm_compute; reflexivity).
    change [render r] with (map render [r]). rewrite <- map_app, mapM_render.
    + cbn [obind combine_typing]. unfold mk_function. rewrite map_app, rev_app_distr. cbn. now rewrite rev_involutive.
    + intros x Hx. apply in_app_or in Hx as [Hx|[<-|[]]]; [now apply IHps|easy].
  - rewrite (from_ann_typing dbg _ (TList TUnknown)).
    + cbn [mapM]. rewrite IH. easy.
    + destruct Hg as [->|[->| ->]]; destruct dbg; vm_compute; reflexivity.
  - cbn [from_ann]. change (from_class dbg _ t) with (from_ann dbg (builtin_class b t)). now rewrite (ann_builtin dbg b t Hb).
Qed.

(** [typing.Counter[str]]: the origin is a subclass of dict, but there is one argument only. *)
Definition typing_counter : pyann :=
  ATyping (Some (AClass (fun b => match b with BDict => true | _ => false end) (u "<class 'collections.Counter'>")))
          (Some [builtin_class BString (u "<class 'str'>")]) (u "typing.Counter[str]").
Lemma counter_panics : forall dbg, from_ann dbg typing_counter = Panic PIndex.
Proof. reflexivity. Qed.
(** [typing.Type[int]] *)
Definition typing_type (a : pyann) : pyann :=
  ATyping (Some (builtin_class BType (u "<class 'type'>"))) (Some [a]) (u "typing.Type[..]").
Lemma typing_type_same : forall dbg a t, from_ann dbg a = Ok t -> from_ann dbg (typing_type a) = Ok t.
Proof.
  intros dbg a t H. unfold typing_type. rewrite (from_ann_typing dbg _ TType) by reflexivity. cbn [mapM]. rewrite H. easy.
Qed.
