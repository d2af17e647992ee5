(** * Proofs about the results of getters (C33) *)
From Verif Require Import Base Model_Ident Model_Path Model_Text Model_Config Model_Type Model_IntoRs
  Model_World Model_Out Model_Function Model_Property Spec_Prop Proof_Base Proof_IntoRs Proof_Parts Proof_Property.

(** What the result of a getter is read from *)
Lemma getter_source : forall e o t doc, read_getter e o = Ok (t, doc) ->
  (exists g a, getter_of (e_world e) o g /\ result_annotation (e_world e) g a /\ read_ann (e_dbg e) a = Ok t) \/
  ((forall g, getter_of (e_world e) o g -> w_signature (e_world e) g = None) /\ type_of e o = Ok t).
Proof.
  intros e o t doc H. unfold read_getter in H. unfold getter_of. destruct (w_getattr (e_world e) o (u "fget")) as [g|] eqn:Eg.
  - apply bind_Ok in H as (ann & Ha & H). apply bind_Ok in H as (d & _ & H). injection H as -> ->. destruct (w_signature (e_world e) g) as [sg|] eqn:Es.
    + left. exists g, (sig_return sg). split; [reflexivity|]. split; [now exists sg|exact Ha].
    + right. split; [|exact Ha]. intros g' E. now injection E as <-.
  - apply bind_Ok in H as (ann & Ha & H). injection H as -> <-. right. now split.
Qed.
Lemma parsed_ann : forall e o name p, prop_parse e o name OwnerClass = Ok p ->
  pr_owner p = OwnerClass /\ exists doc, read_getter e o = Ok (pr_ann p, doc).
Proof.
  intros e o name p H. unfold prop_parse in H. apply bind_Ok in H as ([ann doc] & Hr & H). apply bind_Ok in H as (st & _ & H).
  injection H as <-. destruct st as [[sa sd]|]; (split; [reflexivity|]); now exists doc.
Qed.
Lemma reader_of : forall gx scope p t l d n, gen_getter gx scope p = Ok (t, l) -> In (GFn d) l -> f_body d = BGet n ->
  exists ty, k_ret (f_contract d) = RetType ty /\ into_rs_owned (g_cx gx) (pr_ann p) = Ok ty.
Proof.
  intros gx scope p t l d n H Hx Hb. apply getter_shape in H as (nm & id & _ & _ & H). destruct id as [id|]; [|now destruct H as [_ ->]].
  destruct H as (docs & d' & ty & Hd & _ & _ & _ & Hty & Hr & _ & _ & _ & ->). apply in_app_or in Hx as [Hx|[Hx|[]]].
  - destruct (doc_only _ _ _ Hd _ Hx) as [s E]; discriminate.
  - injection Hx as <-. now exists ty.
Qed.
Lemma writer_not : forall gx scope p t l d n, gen_setter gx scope p = Ok (t, l) -> In (GFn d) l -> f_body d = BGet n -> False.
Proof.
  intros gx scope p t l d n H Hx Hb. apply setter_shape in H as (nm & id & _ & _ & H). destruct id as [id|]; [|now destruct H as [_ ->]].
  destruct H as (docs & d' & ty & Hd & _ & Hb' & _ & _ & _ & _ & _ & _ & ->). apply in_app_or in Hx as [Hx|[Hx|[]]].
  - destruct (doc_only _ _ _ Hd _ Hx) as [s E]; discriminate.
  - injection Hx as <-. congruence.
Qed.
Lemma getter_gives : forall e o name p gx scope tr impls n d,
  prop_parse e o name OwnerClass = Ok p -> prop_generate gx scope p = Ok (IMethod tr impls) -> In (GFn d) impls -> f_body d = BGet n ->
  exists t ty, k_ret (f_contract d) = RetType ty /\ into_rs_owned (g_cx gx) t = Ok ty /\
    ((exists g a, getter_of (e_world e) o g /\ result_annotation (e_world e) g a /\ read_ann (e_dbg e) a = Ok t) \/
     ((forall g, getter_of (e_world e) o g -> w_signature (e_world e) g = None) /\ type_of e o = Ok t)).
Proof.
  intros e o name p gx scope tr impls n d Hp Hi Hx Hb. destruct (parsed_ann _ _ _ _ Hp) as (Eo & doc & Hr). apply getter_source in Hr.
  unfold prop_generate in Hi. apply bind_Ok in Hi as ([gt gi] & Hgg & Hi). apply bind_Ok in Hi as ([st' si] & Hss & Hi). rewrite Eo in Hi. injection Hi as <- <-.
  apply in_app_or in Hx as [Hx|Hx].
  - destruct (reader_of _ _ _ _ _ _ _ Hgg Hx Hb) as (ty & E1 & E2). now exists (pr_ann p), ty.
  - destruct (pr_mutable p); [destruct (writer_not _ _ _ _ _ _ _ Hss Hx Hb)|now injection Hss as <- <-].
Qed.
Lemma variable_gives : forall e o name p gx scope impls n d,
  prop_parse e o name OwnerModule = Ok p -> prop_generate gx scope p = Ok (IFunction impls) -> In (GFn d) impls -> f_body d = BGet n ->
  exists t ty, k_ret (f_contract d) = RetType ty /\ into_rs_owned (g_cx gx) t = Ok ty /\ type_of e o = Ok t.
Proof.
  intros e o name p gx scope impls n d Hp Hi Hx Hb. unfold prop_parse in Hp. apply bind_Ok in Hp as (t & Ht & Hp). injection Hp as <-.
  unfold prop_generate in Hi. apply bind_Ok in Hi as ([gt gi] & Hgg & Hi). cbn [pr_mutable pr_owner] in Hi. apply bind_Ok in Hi as ([st' si] & Hss & Hi). injection Hi as <-.
  destruct Hx as [Hx|Hx]; [discriminate|]. apply in_app_or in Hx as [Hx|[Hx|Hx]]; [|discriminate|destruct (writer_not _ _ _ _ _ _ _ Hss Hx Hb)].
  destruct (reader_of _ _ _ _ _ _ _ Hgg Hx Hb) as (ty & E1 & E2). now exists t, ty.
Qed.
