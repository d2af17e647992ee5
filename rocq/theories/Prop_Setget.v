(** * Property theorems: a value that is set is read back (C76)

    The setter and the getter of a variable or property act on the same attribute of the same object, and what the
    setter passes to Python, if it is kept there as it is, is what the getter returns. *)
From Coq Require Import ZArith.
From Verif Require Import Base Model_Ident Model_Path Model_Text Model_Config Model_Type Model_IntoRs
  Model_World Model_Out Model_Function Model_Property Spec_Call Spec_Prop Spec_Rust Spec_Items Spec_Value
  Proof_IntoRs Proof_Getter Proof_Value Proof_Setget Example_World Prop_Items Prop_Rust.

(** Full claim: also for a missing dictionary and for [None] wrapped in [Some]; refuted below. [good_keys], [no_ip] and
    [small_tuples] as in C75. *)
Theorem C76_variable_partial : forall round e o name p gx scope impl dg ds n n' v,
  prop_parse e o name OwnerModule = Ok p -> prop_generate gx scope p = Ok impl ->
  In (GFn dg) (frags_of impl) -> f_body dg = BGet n -> In (GFn ds) (frags_of impl) -> f_body ds = BSet n' v ->
  n = n' /\ f_disp dg = f_disp ds /\ exists t ty b pr, type_of e o = Ok t /\
    k_ret (f_contract dg) = RetType ty /\ k_params (f_contract ds) = [(v, b)] /\ f_prep ds = [(v, pr)] /\
    (good_keys t = true -> no_ip t = true -> small_tuples t = true ->
     forall r, typed b r -> solid r -> (pr = PrepOptDict -> r <> ValOption None) -> extract round ty (passed pr r) = Some r).
Proof.
  intros round e o name p gx scope impl dg ds n n' v Hp Hi Hg Bg Hs Bs.
  destruct (accessors_made _ _ _ _ _ _ _ _ _ Hi Hg Bg Hs Bs) as (E1 & E2 & ty & b & pr & Et & Ep & E3 & E4 & E5). split; [exact E1|]. split; [exact E2|].
  exists (pr_ann p), ty, b, pr. unfold prop_parse in Hp. apply bind_Ok in Hp as (t & Ht & Hp). injection Hp as <-. split; [exact Ht|]. repeat split; try assumption.
  intros H1 H2 H3 r Hr Hd Hn. exact (set_and_read round _ _ _ _ _ _ H1 H2 H3 Et Hn Hr Hd).
Qed.
Print Assumptions C76_variable_partial.
(** For the properties of classes; the type is the one that the Python getter is annotated with. *)
Theorem C76_property_partial : forall round e o name p gx scope impl dg ds n n' v,
  prop_parse e o name OwnerClass = Ok p -> prop_generate gx scope p = Ok impl ->
  In (GFn dg) (frags_of impl) -> f_body dg = BGet n -> In (GFn ds) (frags_of impl) -> f_body ds = BSet n' v ->
  n = n' /\ f_disp dg = f_disp ds /\ exists t ty b pr,
    ((exists g a, getter_of (e_world e) o g /\ result_annotation (e_world e) g a /\ read_ann (e_dbg e) a = Ok t) \/
     ((forall g, getter_of (e_world e) o g -> w_signature (e_world e) g = None) /\ type_of e o = Ok t)) /\
    k_ret (f_contract dg) = RetType ty /\ k_params (f_contract ds) = [(v, b)] /\ f_prep ds = [(v, pr)] /\
    (good_keys t = true -> no_ip t = true -> small_tuples t = true ->
     forall r, typed b r -> solid r -> (pr = PrepOptDict -> r <> ValOption None) -> extract round ty (passed pr r) = Some r).
Proof.
  intros round e o name p gx scope impl dg ds n n' v Hp Hi Hg Bg Hs Bs.
  destruct (accessors_made _ _ _ _ _ _ _ _ _ Hi Hg Bg Hs Bs) as (E1 & E2 & ty & b & pr & Et & Ep & E3 & E4 & E5). split; [exact E1|]. split; [exact E2|].
  exists (pr_ann p), ty, b, pr. destruct (parsed_ann _ _ _ _ Hp) as (_ & doc & Hr0). split; [exact (getter_source _ _ _ _ Hr0)|]. repeat split; try assumption.
  intros H1 H2 H3 r Hr Hd Hn. exact (set_and_read round _ _ _ _ _ _ H1 H2 H3 Et Hn Hr Hd).
Qed.
Print Assumptions C76_property_partial.

(** [None] for an optional dictionary is stored as an empty dictionary. *)
Theorem C76_missing_dictionary_refuted : forall round c dbg, exists t o b p, from_str dbg (u "dict | None") = Ok t /\ into_rs c t = Ok (o, b) /\
  preprocess_borrowed c t = Ok p /\ typed b (ValOption None) /\ passed p (ValOption None) = VDict [] /\
  extract round o (passed p (ValOption None)) = Some (ValOption (Some (ValPy (VDict [])))).
Proof.
  intros round c dbg. exists (TOptional (TDict TUnknown TUnknown)). eexists _, _, _. split; [destruct dbg; vm_compute; reflexivity|].
  split; [reflexivity|]. split; [reflexivity|]. split; [now left|]. split; reflexivity.
Qed.
Print Assumptions C76_missing_dictionary_refuted.
(** [Some] of the object [None] is read back as nothing. *)
Theorem C76_wrapped_none_refuted : forall round c dbg, exists t o b p r, from_str dbg (u "Any | None") = Ok t /\ into_rs c t = Ok (o, b) /\
  preprocess_borrowed c t = Ok p /\ r = ValOption (Some (ValPy VNone)) /\ typed b r /\ extract round o (passed p r) = Some (ValOption None).
Proof.
  intros round c dbg. exists (TOptional TAny). eexists _, _, _, _. split; [destruct dbg; vm_compute; reflexivity|].
  split; [reflexivity|]. split; [reflexivity|]. split; [reflexivity|]. split; [|reflexivity]. right. exists (ValPy VNone). split; [reflexivity|]. exists VNone. now split.
Qed.
Print Assumptions C76_wrapped_none_refuted.

(** The number 7 as a variable and the property 9 of the example package, both under the name [size]: both accessors are written, and they take and
    give [i64]. *)
Definition ex_pair (i : outcome fn_impl) : list (str * str * list rty * ret) :=
  match i with
  | Ok (IMethod _ l) | Ok (IFunction l) =>
      flat_map (fun d => match f_body d with
                         | BGet n => [(u "get", n, [], k_ret (f_contract d))]
                         | BSet n _ => [(u "set", n, map snd (k_params (f_contract d)), k_ret (f_contract d))]
                         | _ => [] end) (fns l)
  | _ => []
  end.
Example C76_ex_accessors :
  ex_pair (ex_prop (pkg_world []) 7 OwnerModule) = [(u "get", u "size", [], RetType (RName (u "i64"))); (u "set", u "size", [RName (u "i64")], RetUnit)] /\
  ex_pair (ex_prop (pkg_world []) 9 OwnerClass) = [(u "get", u "size", [], RetType (RName (u "i64"))); (u "set", u "size", [RName (u "i64")], RetUnit)].
Proof. split; vm_compute; reflexivity. Qed.
(** [Some({"a": vec![(1, shape, {"x", "y"})]})] for the annotation of [Prop_Rust] *)
Definition ex_given : rv := ValOption (Some (ValMap [(ValString (u "a"),
    ValVec [ValTuple [ValI64 1; ValPy (VObject (u "Shape")); ValSet [ValString (u "x"); ValString (u "y")]]])])).
Lemma ex_typed : match into_rs ex_ctx ex_type with Ok (_, b) => typed b ex_given | _ => False end.
Proof.
  cbn. right. eexists. split; [reflexivity|]. eexists. split; [reflexivity|]. cbn.
  split; [constructor; [now exists (u "a")|constructor]|]. split.
  - constructor; [|constructor]. eexists. split; [reflexivity|]. constructor; [|constructor]. eexists. split; [reflexivity|].
    split; [now exists 1%Z|]. split; [now exists (VObject (u "Shape"))|]. split; [|exact I]. eexists. split; [reflexivity|]. split.
    + constructor; [now exists (u "x")|]. constructor; [now exists (u "y")|constructor].
    + constructor; [intros [H|[]]; discriminate|]. constructor; [easy|constructor].
  - constructor; [easy|constructor].
Qed.
Example C76_ex : solid ex_given /\ (match into_rs ex_ctx ex_type with Ok (_, b) => typed b ex_given | _ => False end) /\
  match into_rs ex_ctx ex_type, preprocess_borrowed ex_ctx ex_type with Ok (o, _), Ok p => extract (fun _ => None) o (passed p ex_given) | _, _ => None end = Some ex_given.
Proof. split; [cbn; repeat split; discriminate|]. split; [exact ex_typed|]. vm_compute. reflexivity. Qed.
