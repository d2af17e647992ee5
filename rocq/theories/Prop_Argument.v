(** * Property theorems: the values that arrive in Python (C61)

    [Prop_Rust] shows that the Rust types belong to the annotations; here the values themselves are followed. *)
From Coq Require Import ZArith.
From Verif Require Import Base Model_Ident Model_Path Model_Text Model_Config Model_Type Model_IntoRs
  Model_World Model_Out Model_Function Spec_Path Spec_Names Spec_Call Spec_Rust Spec_Items Spec_Value
  Proof_IntoRs Proof_Ident Proof_Value Proof_Argument Example_World Prop_Items Prop_Rust Prop_Setget.

(** Full claim: for every annotation. [faithful] leaves out the annotations refuted in [Prop_Rust] and below. *)
Theorem C61_value_partial : forall c t o b p r, good_keys t = true -> faithful t = true ->
  into_rs c t = Ok (o, b) -> preprocess_borrowed c t = Ok p -> typed b r -> vouched t r -> conforms t (passed p r).
Proof. exact passed_conforms. Qed.
Print Assumptions C61_value_partial.
(** It is the value that was given. *)
Theorem C61_same_value_partial : forall round c t o b p r, good_keys t = true -> faithful t = true ->
  into_rs c t = Ok (o, b) -> (p = PrepOptDict -> r <> ValOption None) -> typed b r -> solid r -> stands round r (passed p r).
Proof. exact passed_stands. Qed.
Print Assumptions C61_same_value_partial.
(** For the parameters of every function: the type belongs to the annotation of the Python parameter of the same name;
    [*args], [**kwargs] and an unexpected [self] are passed as they are. *)
Theorem C61_function_partial : forall round e o sg name typ f g scope impl d x b, uni_ok (e_uni e) ->
  w_signature (e_world e) o = Some sg -> (forall sp, In sp (sig_params sg) -> py_identifier (e_uni e) (sp_name sp)) ->
  (forall sp, In sp (tl (sig_params sg)) -> sp_name sp <> u "self") ->
  (forall sp, In sp (sig_params sg) -> sp_name sp = u "self" -> sp_kind sp = 0%N \/ sp_kind sp = 1%N) ->
  fn_parse e o name typ = Ok f -> fn_generate g scope f = Ok impl -> In (GFn d) (frags_of impl) -> In (x, b) (k_params (f_contract d)) ->
  exists pr t, In (x, pr) (f_prep d) /\
    ((exists sp, In sp (sig_params sg) /\ x = u "p_" ++ sp_name sp /\
        match sp_kind sp with
        | 2%N => t = TTuple [TUnknown]
        | 4%N => t = TOptional (TDict TUnknown TUnknown)
        | _ => read_ann (e_dbg e) (sp_ann sp) = Ok t
        end) \/
     x = u "p___unknown_self__" /\ t = TUnknown) /\
    (good_keys t = true -> faithful t = true -> forall r, typed b r ->
      (vouched t r -> conforms t (passed pr r)) /\
      (solid r -> (pr = PrepOptDict -> r <> ValOption None) -> stands round r (passed pr r))).
Proof.
  intros round e o sg name typ f g scope impl d x b HU Hs Hn Ht Hk Hp Hg Hin Hx.
  destruct (function_param _ _ _ _ _ _ _ Hg Hin Hx) as (p & pr & ow & Hpin & Ex & Et & Epr & Hpr). exists pr, (p_ann p). split; [exact Hpr|]. split.
  - destruct (param_source _ _ _ _ _ _ HU Hp Hs Hn Ht Hk p Hpin) as [(sp & Hsp & Er)|[En Ea]].
    + left. exists sp. split; [exact Hsp|]. destruct (read_param_inv _ _ _ Er) as (En & Ek & Ea).
      rewrite Ex, En, (as_py_from_py (e_uni e) (sp_name sp) (py_identifier_no_raw _ _ HU (Hn sp Hsp))). split; [reflexivity|].
      unfold pkind_of_u8 in Ek. destruct (sp_kind sp) as [|[[|[|[]|]|]|[|[|[]|]|]|]]; try discriminate Ek; injection Ek as Ek; rewrite <- Ek in Ea; exact Ea.
    + right. split; [|exact Ea]. now rewrite Ex, En.
  - intros H1 H2 r Hr. split.
    + intros Hv. exact (passed_conforms _ _ _ _ _ _ H1 H2 Et Epr Hr Hv).
    + intros Hd Hnn. exact (passed_stands round _ _ _ _ _ _ H1 H2 Et Hnn Hr Hd).
Qed.
Print Assumptions C61_function_partial.

(** The excluded annotations: a value of the Rust type that arrives as something else. *)
Definition wrong_value (t : ptype) : Prop := forall c, exists o b p r, into_rs c t = Ok (o, b) /\ preprocess_borrowed c t = Ok p /\ typed b r /\ vouched t r /\ ~ conforms t (passed p r).
Theorem C61_wrong_values_refuted : wrong_value TBytes /\ wrong_value TByteArray /\ wrong_value TPath /\ wrong_value (TFrozenSet TString) /\ wrong_value (TTuple [TLong; TEllipsis]).
Proof.
  repeat split; intros c; eexists _, _, _.
  1, 2: exists (ValVec []); split; [reflexivity|]; split; [reflexivity|]; split; [now exists []|]; split; [exact I|]; intros H; inversion H.
  - exists (ValPath (u "a")). split; [reflexivity|]. split; [reflexivity|]. split; [now exists (u "a")|]. split; [exact I|]. intros H. inversion H.
  - exists (ValSet []). split; [reflexivity|]. split; [reflexivity|]. split; [exists []; repeat constructor|]. split; [exact I|]. intros H. inversion H.
  - exists (ValVec []). split; [reflexivity|]. split; [reflexivity|]. split; [now exists []|]. split; [exact I|]. intros H. inversion H.
Qed.
Print Assumptions C61_wrong_values_refuted.
(** Where Rust does not look into the object it accepts more than is annotated: a key that is not a text. *)
Theorem C61_unchecked_keys_refuted : forall c dbg, exists t o b p r, from_str dbg (u "dict[str, Any]") = Ok t /\ into_rs c t = Ok (o, b) /\
  preprocess_borrowed c t = Ok p /\ typed b r /\ passed p r = VDict [(VInt 1, VNone)] /\ ~ conforms t (passed p r).
Proof.
  intros c dbg. exists (TDict TString TAny). eexists _, _, _, (ValPy (VDict [(VInt 1, VNone)])). split; [destruct dbg; vm_compute; reflexivity|].
  split; [reflexivity|]. split; [reflexivity|]. split; [now exists [(VInt 1, VNone)]|]. split; [reflexivity|].
  intros H. apply inv_dict in H as (l & E & F & _). injection E as <-. inversion F as [|? ? K]; subst. inversion K.
Qed.
Print Assumptions C61_unchecked_keys_refuted.

(** The nested annotation and the value of [Prop_Setget], and the function [f(x: int, y)] of the example package *)
Example C61_ex_value : good_keys ex_type = true /\ faithful ex_type = true /\ solid ex_given /\ vouched ex_type ex_given.
Proof.
  split; [reflexivity|]. split; [reflexivity|]. split; [cbn; repeat split; discriminate|]. cbn. constructor; [|constructor]. split; [exact I|].
  constructor; [|constructor]. cbn. repeat split.
Qed.
Definition ex_params (w : world) (o : oid) : list (ident * rty) * list (ident * prep) :=
  match (let! f := fn_parse (mk_env w false uni_ascii) o ex_size FFunction in fn_generate ex_gx [] f) with
  | Ok i => match fns (frags_of i) with d :: _ => (k_params (f_contract d), f_prep d) | [] => ([], []) end
  | _ => ([], [])
  end.
Example C61_ex_function : ex_params (pkg_world []) 5 =
  ([(u "p_x", RName (u "i64")); (u "p_y", into_py_of "PyAny")], [(u "p_x", PrepNone); (u "p_y", PrepIntoAny)]).
Proof. vm_compute. reflexivity. Qed.
