(** * Property theorems: what getters return (C33)

    Beside the parameters of setters: the result of a getter has the type that the Python getter is annotated with. If
    Python knows no signature of the getter, it is the type of the property object; for a variable of a module, it is
    the type of its present value. *)
From Verif Require Import Base Model_Ident Model_Path Model_Text Model_Config Model_Type Model_IntoRs
  Model_World Model_Out Model_Function Model_Property Spec_Prop Spec_Items Proof_Getter Example_World Prop_Items.

Theorem C33_getter_result : forall e o name p gx scope tr impls n d,
  prop_parse e o name OwnerClass = Ok p -> prop_generate gx scope p = Ok (IMethod tr impls) -> In (GFn d) impls -> f_body d = BGet n ->
  exists t ty, k_ret (f_contract d) = RetType ty /\ into_rs_owned (g_cx gx) t = Ok ty /\
    ((exists g a, getter_of (e_world e) o g /\ result_annotation (e_world e) g a /\ read_ann (e_dbg e) a = Ok t) \/
     ((forall g, getter_of (e_world e) o g -> w_signature (e_world e) g = None) /\ type_of e o = Ok t)).
Proof. exact getter_gives. Qed.
Print Assumptions C33_getter_result.
Theorem C33_variable_result : forall e o name p gx scope impls n d,
  prop_parse e o name OwnerModule = Ok p -> prop_generate gx scope p = Ok (IFunction impls) -> In (GFn d) impls -> f_body d = BGet n ->
  exists t ty, k_ret (f_contract d) = RetType ty /\ into_rs_owned (g_cx gx) t = Ok ty /\ type_of e o = Ok t.
Proof. exact variable_gives. Qed.
Print Assumptions C33_variable_result.
(** The getter of object 9 returns [int]; object 4 is a property without a getter; object 3 is the number 1. *)
Definition ex_getter (i : outcome fn_impl) : list ret :=
  match i with
  | Ok (IMethod _ l) | Ok (IFunction l) => map (fun d => k_ret (f_contract d)) (filter (fun d => match f_body d with BGet _ => true | _ => false end) (fns l))
  | _ => []
  end.
Definition w_bare : world := w_pkg [] [] [] [int_ob; prop_ob [at_ "fset" 0%N]].
Example C33_ex_results :
  ex_getter (ex_prop (pkg_world []) 9 OwnerClass) = [RetType (RName (u "i64"))] /\
  ex_getter (ex_prop w_bare 4 OwnerClass) = [RetType (RBound (RAbs (map u ["pyo3"; "types"; "PyAny"]%string) []))] /\
  ex_getter (ex_prop w_bare 3 OwnerModule) = [RetType (RName (u "i64"))].
Proof. repeat split; vm_compute; reflexivity. Qed.
