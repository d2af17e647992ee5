(** * Property theorems: what private names add (C81) *)
From Verif Require Import Base Model_Ident Model_Path Model_Import Model_Config Model_Type Model_World Model_Function Model_Property Model_Class Model_Module Model_Parse Model_Codegen
  Spec_Path Spec_Names Spec_Items Spec_Tree Spec_Api Spec_Attr Spec_Privacy Spec_Block Spec_Open Spec_Added Proof_Open Proof_Added Example_World Prop_Forest Prop_Open.

(** ** C81
    An item that only the run with private names has is there because of an attribute with a private name, or one that comes from a private module, or that is imported from a private place.
    The conditions are those of [C81_ex]. *)
Theorem C81_added : forall h x fuel o m m', honest (pe_uni x) (pe_world x) -> own_submodules (pe_world x) -> is_module (pe_world x) o ->
  mod_parse x fuel o = Ok m -> mod_parse (open_run h x) fuel o = Ok m' -> forall it', (forall i, it' <> AnExport i) -> has m' it' ->
  (exists it, has m it /\ open_item it it') \/ private_item (pe_uni x) (pe_world x) o (m_name m) it'.
Proof. intros h x fuel o m m' Hw Hs. exact (open_added h x Hw Hs fuel o m m'). Qed.
Print Assumptions C81_added.
(** The same for the members of a class *)
Theorem C81_members : forall e cfg o name c c', class_parse e cfg o name = Ok c -> class_parse e (with_private cfg) o name = Ok c' ->
  (forall f, In f (cl_methods c') -> In f (cl_methods c) \/ private_member (e_uni e) (e_world e) o name (fn_name f)) /\
  (forall p, In p (cl_props c') -> In p (cl_props c) \/ private_member (e_uni e) (e_world e) o name (pr_name p)).
Proof. exact class_added. Qed.
Print Assumptions C81_members.
(** In the example, [_g] has a private name, and [h] comes from [_low]; the class [C] gets [_n]. *)
Definition ends_of (l : list path) : list str := map (fun p => match path_name p with Ok i => as_py i | _ => [] end) l.
Example C81_added_ex : exists m m' c c', is_module (pe_world ox) 2%N /\ mod_parse ox 5 2%N = Ok m /\ mod_parse ox' 5 2%N = Ok m' /\
  ends_of (map fn_name (m_functions m)) = [u "f"] /\ ends_of (map fn_name (m_functions m')) = map u ["f"; "_g"]%string /\
  map im_origin (m_imports m) = [mk_path false (map u ["other"; "k"]%string)] /\ map im_origin (m_imports m') = [mk_path false (map u ["_low"; "h"]%string); mk_path false (map u ["other"; "k"]%string)] /\
  class_parse (pe_env ox) (pe_cfg ox) 5%N (mk_path false (map u ["pkg"; "C"]%string)) = Ok c /\ class_parse (pe_env ox) (with_private (pe_cfg ox)) 5%N (mk_path false (map u ["pkg"; "C"]%string)) = Ok c' /\
  ends_of (map fn_name (cl_methods c)) = map u ["__init__"; "m"]%string /\ ends_of (map fn_name (cl_methods c')) = map u ["__init__"; "m"; "_n"]%string.
Proof. do 4 eexists. repeat split; vm_compute; reflexivity. Qed.
