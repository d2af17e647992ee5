(** * Lemmas: reading and generating properties *)
From Coq Require Import Arith.
From Verif Require Import Base Model_Ident Model_Path Model_Text Model_Config Model_Type Model_IntoRs Model_World Model_Out
  Model_Function Model_Property Spec_Path Spec_Items Spec_Prop Proof_Base Proof_Ident Proof_IntoRs Proof_Module Proof_Parts.

Lemma read_doc_some : forall w o d, documented w o d -> read_docstring w o = Ok (Some d).
Proof.
  intros w o d (H & H1 & H2). unfold read_docstring. rewrite H. destruct d as [|c d]; [easy|]. destruct (str_eqb (c :: d) (u "None")) eqn:E; [|reflexivity].
  apply str_eqb_eq in E. easy.
Qed.
Lemma read_doc_none : forall w o r, undocumented w o -> read_docstring w o = Ok r -> r = None.
Proof.
  intros w o r H H1. unfold read_docstring in H1. destruct (attr_text w o "__doc__") as [d|] eqn:E; [|discriminate]. injection H1 as <-.
  destruct (H d E) as [->| ->]; reflexivity.
Qed.
Lemma read_doc_cases : forall w o r, read_docstring w o = Ok r -> match r with Some d => documented w o d | None => undocumented w o end.
Proof.
  intros w o r H. unfold read_docstring in H. destruct (attr_text w o "__doc__") as [d|] eqn:E; [|discriminate]. injection H as <-.
  destruct d as [|c d]; [intros d' E'; rewrite E in E'; injection E' as <-; now left|]. destruct (str_eqb (c :: d) (u "None")) eqn:E1.
  - apply str_eqb_eq in E1. intros d' E'. rewrite E in E'. injection E' as <-. now right.
  - split; [exact E|]. split; [easy|]. intros K. rewrite K, str_eqb_refl in E1. discriminate.
Qed.

Lemma setter_none : forall e o, no_setter (e_world e) o -> read_setter e o = Ok None.
Proof.
  intros e o H. unfold read_setter. destruct (w_getattr _ _ _) as [s|] eqn:E; [|reflexivity]. destruct (w_is_none _ s) eqn:E1; [reflexivity|].
  now destruct (H s (conj E E1)).
Qed.
Lemma setter_some : forall e o s r, setter_of (e_world e) o s -> read_setter e o = Ok r -> exists a d, r = Some (a, d) /\
  read_docstring (e_world e) s = Ok d /\
  (forall an, value_annotation (e_world e) s an -> read_ann (e_dbg e) an = Ok a).
Proof.
  intros e o s r [H H1] H2. unfold read_setter in H2. rewrite H, H1 in H2. apply bind_Ok in H2 as (a & Ha & H2). apply bind_Ok in H2 as (d & Hd & H2).
  injection H2 as <-. exists a, d. split; [reflexivity|]. split; [exact Hd|]. intros an (sg & sf & par & rest & E & E1 & <-).
  rewrite E, E1 in Ha. cbn in Ha. exact Ha.
Qed.
Lemma getter_read : forall e o r, read_getter e o = Ok r -> forall g, getter_of (e_world e) o g ->
  read_docstring (e_world e) g = Ok (snd r) /\ forall an, result_annotation (e_world e) g an -> read_ann (e_dbg e) an = Ok (fst r).
Proof.
  intros e o r H g Hg. unfold read_getter in H. rewrite Hg in H. apply bind_Ok in H as (a & Ha & H). apply bind_Ok in H as (d & Hd & H). injection H as <-.
  split; [exact Hd|]. intros an (sg & E & <-). rewrite E in Ha. exact Ha.
Qed.

(** ** C34 *)
Lemma prop_immutable : forall e o name p, no_setter (e_world e) o -> prop_parse e o name OwnerClass = Ok p ->
  forall g scope t i, prop_generate g scope p = Ok (IMethod t i) -> forall n x, In x i -> ~ writes_attr n x.
Proof.
  intros e o name p Hn H g scope t i Hi n x Hx (d & v & -> & Hb). unfold prop_parse in H. apply bind_Ok in H as ([ann doc] & Hg & H).
  rewrite (setter_none e o Hn) in H. cbn in H. injection H as <-. unfold prop_generate in Hi. apply bind_Ok in Hi as ([gt gi] & Hgg & Hi). cbn in Hi.
  injection Hi as <- <-. rewrite app_nil_r in Hx. apply getter_shape in Hgg as (nm & id & _ & _ & Hgg). destruct id as [id|]; [|now destruct Hgg as [_ ->]].
  destruct Hgg as (docs & d' & ty & Hd & _ & Hb' & _ & _ & _ & _ & _ & _ & ->). apply in_app_or in Hx as [Hx|[Hx|[]]].
  - destruct (doc_only _ _ _ Hd _ Hx) as [s E]; discriminate.
  - injection Hx as <-. congruence.
Qed.
Lemma prop_both : forall e o s name q n F p g t i, uni_ok (g_uni g) -> starts_with (u "r#") n = false -> (forall f, In f F -> starts_with (u "r#") f = false) ->
  setter_of (e_world e) o s -> prop_parse e o name OwnerClass = Ok p -> segs name = q ++ [ident_from_py (g_uni g) n] ->
  accessors_named (g_uni g) F n -> prop_generate g (map (ident_from_py (g_uni g)) F) p = Ok (IMethod t i) ->
  (exists x, In x i /\ reads_attr n x) /\ (exists x, In x i /\ writes_attr n x).
Proof.
  intros e o s name q n F p g t i HU Hn HF Hs H Hname Hacc Hi. unfold prop_parse in H. apply bind_Ok in H as ([ann doc] & Hg & H). apply bind_Ok in H as (st & Hst & H).
  destruct (setter_some e o s st Hs Hst) as (sa & sd & -> & _ & _). injection H as <-. unfold prop_generate in Hi. apply bind_Ok in Hi as ([gt gi] & Hgg & Hi).
  cbn [pr_mutable] in Hi. apply bind_Ok in Hi as ([st si] & Hss & Hi). cbn [pr_owner] in Hi. injection Hi as <- <-.
  assert (En : path_name name = Ok (ident_from_py (g_uni g) n)). { unfold path_name. rewrite Hname. generalize (ident_from_py (g_uni g) n). intros z. clear. induction q as [|a q IH]; [reflexivity|]. destruct q; [reflexivity|exact IH]. }
  destruct (accessors_some (g_uni g) F n HU Hn HF Hacc) as [(ig & Ag) (is & As)]. rewrite <- (as_py_from_py (g_uni g) n Hn).
  apply getter_shape in Hgg as (nm & id' & E & E' & Hgg). apply setter_shape in Hss as (nm2 & id2 & E2 & E2' & Hss). cbn in E, E2. rewrite En in E, E2. injection E as <-. injection E2 as <-.
  destruct Ag as [Ag|Ag]; [|now apply Ag in E']. destruct As as [As|As]; [|now apply As in E2']. rewrite Ag in E'. rewrite As in E2'. injection E' as <-. injection E2' as <-.
  destruct Hgg as (docs & d & ty & _ & _ & Hb & _ & _ & _ & _ & _ & _ & ->). destruct Hss as (docs2 & d2 & ty2 & _ & _ & Hb2 & _ & _ & _ & _ & _ & _ & ->).
  split; [exists (GFn d)|exists (GFn d2)]; (split; [rewrite !in_app_iff; cbn; auto|]); [now exists d|now exists d2, p_value].
Qed.
Lemma prop_docs : forall e o s g name p, setter_of (e_world e) o s -> getter_of (e_world e) o g -> prop_parse e o name OwnerClass = Ok p ->
  (forall d, documented (e_world e) g d -> pr_doc p = Some d) /\ (forall d, documented (e_world e) s d -> pr_setter_doc p = Some d) /\
  (undocumented (e_world e) g -> forall d, documented (e_world e) s d -> pr_doc p = Some d) /\
  (undocumented (e_world e) s -> forall d, documented (e_world e) g d -> pr_setter_doc p = Some d) /\
  (undocumented (e_world e) g -> undocumented (e_world e) s -> pr_doc p = None /\ pr_setter_doc p = None).
Proof.
  intros e o s g name p Hs Hg H. unfold prop_parse in H. apply bind_Ok in H as ([ann doc] & Hr & H). apply bind_Ok in H as (st & Hst & H).
  destruct (setter_some e o s st Hs Hst) as (sa & sd & -> & Hsd & _). injection H as <-. destruct (getter_read _ _ _ Hr g Hg) as [Hgd _]. cbn [snd] in Hgd. cbn [pr_doc pr_setter_doc].
  repeat split.
  - intros d Hd. rewrite (read_doc_some _ _ _ Hd) in Hgd. now injection Hgd as <-.
  - intros d Hd. rewrite (read_doc_some _ _ _ Hd) in Hsd. now injection Hsd as <-.
  - intros Hu d Hd. rewrite (read_doc_some _ _ _ Hd) in Hsd. injection Hsd as <-. now rewrite (read_doc_none _ _ _ Hu Hgd).
  - intros Hu d Hd. rewrite (read_doc_some _ _ _ Hd) in Hgd. injection Hgd as <-. now rewrite (read_doc_none _ _ _ Hu Hsd).
  - rewrite (read_doc_none _ _ _ H Hgd), (read_doc_none _ _ _ H0 Hsd). reflexivity.
  - rewrite (read_doc_none _ _ _ H Hgd), (read_doc_none _ _ _ H0 Hsd). reflexivity.
Qed.
(** Where a panic while reading a property comes from *)
Lemma prop_panic : forall e o name owner k, prop_parse e o name owner = Panic k ->
  type_of e o = Panic k \/
  (exists g a, getter_of (e_world e) o g /\ result_annotation (e_world e) g a /\ read_ann (e_dbg e) a = Panic k) \/
  (exists s a, setter_of (e_world e) o s /\ value_annotation (e_world e) s a /\ read_ann (e_dbg e) a = Panic k) \/
  (exists s sg, setter_of (e_world e) o s /\ w_signature (e_world e) s = Some sg /\ length (sig_params sg) < 2 /\ k = PUnwrap).
Proof.
  intros e o name owner k H. unfold prop_parse in H. destruct owner.
  - destruct (type_of e o); try discriminate. injection H as <-. now left.
  - destruct (read_getter e o) as [[ann doc]| |k'|] eqn:Eg; try discriminate; cbn in H.
    + destruct (read_setter e o) as [[[sa sd]|]| |k'|] eqn:Es; try discriminate. injection H as ->. right. right. unfold read_setter in Es.
      destruct (w_getattr (e_world e) o (u "fset")) as [s|] eqn:E; [|discriminate]. destruct (w_is_none (e_world e) s) eqn:E1; [discriminate|].
      assert (Hs : setter_of (e_world e) o s) by now split.
      destruct (w_signature (e_world e) s) as [sg|] eqn:E2.
      * destruct (sig_params sg) as [|p0 [|p1 rest]] eqn:Ep; cbn in Es.
        -- injection Es as <-. right. exists s, sg. rewrite Ep. cbn. repeat split; try assumption; try (apply Hs); auto with arith.
        -- injection Es as <-. right. exists s, sg. rewrite Ep. cbn. repeat split; try assumption; try (apply Hs); auto with arith.
        -- destruct (read_ann (e_dbg e) (sp_ann p1)) as [t| |k'|] eqn:Ea; try discriminate; cbn in Es.
           ++ unfold read_docstring in Es. destruct (attr_text _ _ _); discriminate.
           ++ injection Es as ->. left. exists s, (sp_ann p1). split; [exact Hs|]. split; [|exact Ea]. exists sg, p0, p1, rest. auto.
      * cbn in Es. unfold read_docstring in Es. destruct (attr_text _ _ _); discriminate.
    + injection H as ->. unfold read_getter in Eg. destruct (w_getattr (e_world e) o (u "fget")) as [g|] eqn:E.
      * destruct (w_signature (e_world e) g) as [sg|] eqn:E1.
        -- destruct (read_ann (e_dbg e) (sig_return sg)) as [t| |k'|] eqn:Ea; try discriminate; cbn in Eg.
           ++ unfold read_docstring in Eg. destruct (attr_text _ _ _); discriminate.
           ++ injection Eg as ->. right. left. exists g, (sig_return sg). split; [exact E|]. split; [|exact Ea]. now exists sg.
        -- destruct (type_of e o) as [t| |k'|] eqn:Et; try discriminate; cbn in Eg.
           ++ unfold read_docstring in Eg. destruct (attr_text _ _ _); discriminate.
           ++ injection Eg as ->. now left.
      * destruct (type_of e o) as [t| |k'|] eqn:Et; try discriminate; cbn in Eg. injection Eg as ->. now left.
Qed.
Lemma prop_short_setter : forall e o s sg name ann, setter_of (e_world e) o s -> w_signature (e_world e) s = Some sg -> length (sig_params sg) < 2 ->
  read_getter e o = Ok ann -> prop_parse e o name OwnerClass = Panic PUnwrap.
Proof.
  intros e o s sg name [ann doc] [H H1] Hsg Hl Hr. unfold prop_parse, read_setter. rewrite Hr. cbn [obind]. rewrite H, H1, Hsg.
  destruct (sig_params sg) as [|p0 [|p1 r]]; [reflexivity|reflexivity|]. cbn in Hl. exfalso. apply (PeanoNat.Nat.nlt_0_r (length r)). apply PeanoNat.Nat.succ_lt_mono, PeanoNat.Nat.succ_lt_mono. exact Hl.
Qed.

(** ** C33 *)
(** The setter takes what the getter's annotation says. *)
Lemma setter_takes : forall e o g a t name p gx scope tr impls x n v d, getter_of (e_world e) o g -> result_annotation (e_world e) g a -> read_ann (e_dbg e) a = Ok t ->
  prop_parse e o name OwnerClass = Ok p -> prop_generate gx scope p = Ok (IMethod tr impls) -> In x impls -> x = GFn d -> f_body d = BSet n v ->
  exists pn ty, k_params (f_contract d) = [(pn, ty)] /\ into_rs_borrowed (g_cx gx) t = Ok ty.
Proof.
  intros e o g a t name p gx scope tr impls x n v d Hg Ha Ht H Hi Hx -> Hb. unfold prop_parse in H. apply bind_Ok in H as ([ann doc] & Hr & H). apply bind_Ok in H as (st & Hst & H).
  destruct (getter_read _ _ _ Hr g Hg) as [_ K]. specialize (K a Ha). rewrite Ht in K. injection K as ->.
  assert (Ep : pr_ann p = fst (ann, doc) /\ pr_owner p = OwnerClass) by (injection H as <-; now destruct st as [[]|]). clear H. destruct Ep as [Ep Eo]. cbn [fst] in *.
  unfold prop_generate in Hi. apply bind_Ok in Hi as ([gt gi] & Hgg & Hi). apply bind_Ok in Hi as ([st' si] & Hss & Hi). rewrite Eo in Hi. injection Hi as <- <-.
  apply in_app_or in Hx as [Hx|Hx].
  - apply getter_shape in Hgg as (nm & id & _ & _ & Hgg). destruct id as [id|]; [|now destruct Hgg as [_ ->]].
    destruct Hgg as (docs & d' & ty & Hd & _ & Hb' & _ & _ & _ & _ & _ & _ & ->). apply in_app_or in Hx as [Hx|[Hx|[]]].
    + destruct (doc_only _ _ _ Hd _ Hx) as [s E]; discriminate.
    + injection Hx as <-. congruence.
  - destruct (pr_mutable p); [|now injection Hss as <- <-]. apply setter_shape in Hss as (nm & id & _ & _ & Hss). destruct id as [id|]; [|now destruct Hss as [_ ->]].
    destruct Hss as (docs & d' & ty & Hd & _ & Hb' & Hty & Hk & _ & _ & _ & _ & ->). apply in_app_or in Hx as [Hx|[Hx|[]]].
    + destruct (doc_only _ _ _ Hd _ Hx) as [s E]; discriminate.
    + injection Hx as <-. rewrite Ep in Hty. eauto.
Qed.
(** Variables of a module: the setter takes the type of the present value. *)
Lemma variable_takes : forall e o name p gx scope impls x n v d t, type_of e o = Ok t ->
  prop_parse e o name OwnerModule = Ok p -> prop_generate gx scope p = Ok (IFunction impls) -> In x impls -> x = GFn d -> f_body d = BSet n v ->
  exists pn ty, k_params (f_contract d) = [(pn, ty)] /\ into_rs_borrowed (g_cx gx) t = Ok ty.
Proof.
  intros e o name p gx scope impls x n v d t Ht H Hi Hx -> Hb. unfold prop_parse in H. rewrite Ht in H. injection H as <-.
  unfold prop_generate in Hi. apply bind_Ok in Hi as ([gt gi] & Hgg & Hi). cbn [pr_mutable pr_owner] in Hi. apply bind_Ok in Hi as ([st' si] & Hss & Hi). injection Hi as <-.
  destruct Hx as [Hx|Hx]; [discriminate|]. apply in_app_or in Hx as [Hx|[Hx|Hx]]; [|discriminate|].
  - apply getter_shape in Hgg as (nm & id & _ & _ & Hgg). destruct id as [id|]; [|now destruct Hgg as [_ ->]].
    destruct Hgg as (docs & d' & ty & Hd & _ & Hb' & _ & _ & _ & _ & _ & _ & ->). apply in_app_or in Hx as [Hx|[Hx|[]]].
    + destruct (doc_only _ _ _ Hd _ Hx) as [s E]; discriminate.
    + injection Hx as <-. congruence.
  - apply setter_shape in Hss as (nm & id & _ & _ & Hss). destruct id as [id|]; [|now destruct Hss as [_ ->]].
    destruct Hss as (docs & d' & ty & Hd & _ & Hb' & Hty & Hk & _ & _ & _ & _ & ->). apply in_app_or in Hx as [Hx|[Hx|[]]].
    + destruct (doc_only _ _ _ Hd _ Hx) as [s E]; discriminate.
    + injection Hx as <-. eauto.
Qed.
