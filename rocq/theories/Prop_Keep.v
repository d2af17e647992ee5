(** * Property theorems: functions that keep to their annotations (C77)

    The parts are C24 (arguments reach the right parameter), C61 (they arrive as annotated) and C75 (results arrive as
    annotated): a Python function that keeps to its annotations can be called from Rust with any values of the types of the
    generated function, and what it returns comes back. [callable] in [Spec_Keep] says so step by step. *)
From Coq Require Import ZArith Lia.
From Verif Require Import Base Model_Ident Model_Path Model_Text Model_Config Model_Type Model_IntoRs Model_World Model_Out Model_Function Model_Property Model_Class Model_Module Model_Parse
  Model_Codegen Spec_Path Spec_Names Spec_Call Spec_Tree Spec_Api Spec_Out Spec_Prop Spec_Acts Spec_Rust Spec_Items Spec_Value Spec_Keep
  Proof_Base Proof_Ident Proof_Function Proof_Acts Proof_Keep Example_World Example_Honest Prop_Items Prop_Forest Prop_Attr Prop_Doc Prop_Acts Prop_Function.

(** Functions, class and static methods. Full claim: for every signature, and for the annotations and names that C24, C61 and C75 leave out.
    [ordinary]: the names are those that Python allows, and no parameter is called [_], [__unknown_self__] or [self]. *)
Theorem C77_function_partial : forall round x g scope b n t f impl d sg s, uni_ok (pe_uni x) -> ordinary x b sg [] s ->
  fn_parse (pe_env x) b n t = Ok f -> has_receiver (fn_typ f) = false -> fn_generate g scope f = Ok impl -> In (GFn d) (frags_of impl) ->
  callable round (cx_numpy (g_cx g)) (pe_dbg x) d sg [] [] s.
Proof. exact function_callable. Qed.
Print Assumptions C77_function_partial.
(** Methods of an object [self] *)
Theorem C77_method_partial : forall round x g scope b n t f impl d sg sr s self, uni_ok (pe_uni x) -> ordinary x b sg [sr] s -> positional (pp_kind sr) = true ->
  fn_parse (pe_env x) b n t = Ok f -> has_receiver (fn_typ f) = true -> fn_generate g scope f = Ok impl -> In (GFn d) (frags_of impl) ->
  callable round (cx_numpy (g_cx g)) (pe_dbg x) d sg [sr] [self] s.
Proof. exact method_callable. Qed.
Print Assumptions C77_method_partial.
(** Every function of an output, at every depth: it uses the attribute it is named after of the object at its own path (as in C65), and can be called with
    values of its types as the object it was made of demands; accessors give and take values of the type of the variable or property. *)
Theorem C77_output_partial : forall round x numpy fuel l c out, uni_ok (pe_uni x) -> order_ok (pe_ord x) -> honest (pe_uni x) (pe_world x) -> asked_modules (pe_world x) l ->
  asks x fuel l cg_new = Ok c -> cg_generate x numpy fuel c = Ok out ->
  forall ns k y, at_path out ns k -> In y k -> acts (answering round numpy x) x ns k y.
Proof. intros round x numpy fuel l c out HU. exact (output_acts (answering round numpy x) x numpy fuel l c out (kept_answering round x numpy HU) HU). Qed.
Print Assumptions C77_output_partial.

(** A package with the function [f(a: int, *rest, key: str, **more) -> list[int]], the variable [n], and a class with the method [m(self, k: float) -> int] *)
Definition f_params : list sig_param :=
  [par "a" (Some "int"%string); mk_sig_param (u "rest") 2 None false; mk_sig_param (u "key") 3 (Some (AText (u "str"))) false; mk_sig_param (u "more") 4 None false].
Definition w_keep : world :=
  world_of [at_ "pkg" 2%N]
    [none_ob; str_ob "pkg"; module_ob "pkg" [at_ "__name__" 1%N; at_ "__path__" 1%N; at_ "f" 3%N; at_ "C" 4%N; at_ "n" 6%N] None [];
     fn_ob 1 (sig f_params (Some "list[int]"%string));
     class_ob 1 [at_ "m" 5%N] [(u "m", StoredOther)]; fn_ob 1 (sig [par "self" None; par "k" (Some "float"%string)] (Some "int"%string)); int_ob].
Definition the_fns (l : list frag) : list fn_def := flat_map (fun f => match f with GFn d => [d] | _ => [] end) l.
(** What [f] passes to Python for these values *)
Definition keep_s : list pyparam := [mk_pyparam (u "a") PositionalOrKeyword false; mk_pyparam (u "rest") VarPositional false;
  mk_pyparam (u "key") KeywordOnly false; mk_pyparam (u "more") VarKeyword false].
Definition ex_rs : list rv := [ValI64 3; ValPy (VTuple [VNone; VInt 1]); ValString (u "k"); ValOption (Some (ValPy (VDict [(VStr (u "z"), VInt 2)])))].
Definition keep_args : list (rarg pyv) := [AOne (VInt 3); ATuple [VNone; VInt 1]; AOne (VStr (u "k")); AOptDict (Some [(u "z", VInt 2)])].
Example C77_ex_output : let x := env_of w_keep in let out := fx_output x fx_pkg in
  uni_ok (pe_uni x) /\ order_ok (pe_ord x) /\ honest (pe_uni x) (pe_world x) /\ asked_modules (pe_world x) fx_pkg /\
  asks x 5 fx_pkg cg_new = Ok (fx_codegen x fx_pkg) /\ cg_generate x false 5 (fx_codegen x fx_pkg) = Ok out /\
  map (fun d => (k_name (f_contract d), map snd (k_params (f_contract d)), k_ret (f_contract d))) (the_fns (inside out)) =
    [(u "f", [RName (u "i64"); into_py_of "PyTuple"; RRef (RName (u "str")); r_option (RBound (pyo3_type "PyDict"))], RetType (RVec (RName (u "i64"))));
     (u "n", [], RetType (RName (u "i64"))); (u "set_n", [RName (u "i64")], RetUnit)].
Proof.
  cbv zeta. split; [exact uni_ascii_ok|]. split; [exact ax_order_ok|]. split; [apply honestb_ok; vm_compute; reflexivity|].
  split; [intros r o [<-|[]] [E|[]]; injection E as <-; reflexivity|]. do 2 (split; [vm_compute; reflexivity|]). vm_compute. reflexivity.
Qed.
(** [f] called with 3, two further arguments, the keyword [key], and a dictionary *)
Definition ex_f : option fn_def := match the_fns (inside (fx_output (env_of w_keep) fx_pkg)) with d :: _ => Some d | [] => None end.
Example C77_ex_call : match ex_f with
  | Some d => handed d ex_rs = [VInt 3; VTuple [VNone; VInt 1]; VStr (u "k"); VDict [(VStr (u "z"), VInt 2)]] /\
      map (fun e => spread (pp_kind (fst e)) (snd e)) (combine keep_s (handed d ex_rs)) = map Some keep_args /\
      match python_call d keep_args with
      | Some (pos, kw) => pos = [VInt 3; VNone; VInt 1] /\ kw = [(u "z", VInt 2); (u "key", VStr (u "k"))] /\ bind_args keep_s pos kw = Some (combine (map pp_name keep_s) (map meant keep_args))
      | None => False
      end
  | None => False
  end.
Proof. vm_compute. repeat split. Qed.
(** The signature is ordinary, the values suit it and have the types. *)
Example C77_ex_ordinary : ordinary (env_of w_keep) 3 (sig f_params (Some "list[int]"%string)) [] keep_s /\ Forall2 (suits keep_s) keep_s keep_args.
Proof.
  split; [|repeat constructor; cbn; intuition (subst; reflexivity || easy)].
  split; [reflexivity|]. split; [repeat constructor|]. split; [split; [ordered|repeat (constructor; [cbn; intuition congruence|]); constructor]|].
  split; [intros p Hp; apply ascii_identifier; cbn in Hp; intuition (subst; reflexivity)|].
  split; [intros p Hp; cbn in Hp; intuition (subst; discriminate)|]. split; intros p Hp; cbn in Hp; intuition (subst; discriminate).
Qed.
Definition ex_tys : list rty := [RName (u "i64"); into_py_of "PyTuple"; RRef (RName (u "str")); r_option (RBound (pyo3_type "PyDict"))].
Example C77_ex_typed : match ex_f with Some d => map snd (k_params (f_contract d)) = ex_tys | None => False end /\ Forall2 typed ex_tys ex_rs /\
  fit TLong /\ vouched TLong (ValI64 3) /\ fit TString /\ sound (TList TLong) /\ Forall solid ex_rs.
Proof.
  split; [vm_compute; reflexivity|]. split; [|repeat (split || constructor); cbn; try easy; discriminate].
  constructor; [exists 3%Z; split; reflexivity|]. constructor; [eexists; split; reflexivity|]. constructor; [eexists; reflexivity|].
  constructor; [right; eexists; split; [reflexivity|]; eexists; split; reflexivity|constructor].
Qed.
(** A function that keeps to its annotations: [f] returns the list of [a]. *)
Definition ex_F : pyfun := fun l => match l with (_, BOne v) :: _ => Some (VList [v]) | _ => None end.
Example C77_ex_keeps : keeps (fun _ => True) keep_s [TLong; TTuple [TUnknown]; TString; TOptional (TDict TUnknown TUnknown)] (TList TLong) ex_F.
Proof.
  intros bs v H E. inversion H as [|? b ? bs' Hb _]; subst. cbn in Hb, E. destruct b; try contradiction. injection E as <-. constructor. now repeat constructor.
Qed.
