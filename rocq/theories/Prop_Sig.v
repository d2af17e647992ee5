(** * Property theorems: what the types in the generated signatures refer to (C66) *)
From Verif Require Import Base Model_Ident Model_Path Model_Import Model_Text Model_Config Model_Type Model_IntoRs Model_World Model_Out Model_Function Model_Property
  Model_Class Model_Module Model_Parse Model_Codegen Spec_Path Spec_Names Spec_Rust Spec_Items Spec_Tree Spec_Api Spec_Out Spec_Attr Spec_Use Spec_Switch Spec_Sig
  Example_World Example_Honest Proof_Base Proof_Sig Prop_Items Prop_Forest Prop_Use Prop_Switch Prop_Clash Prop_Alias.

(** ** C66 *)
(** Every path to a generated item in the type of a parameter or result, read from the module that the signature stands in, leads to a struct or type of the output.
    Missing: nothing may be switched off that types refer to (see below). *)
Theorem C66_local_partial : forall x numpy fuel l c ms out, uni_ok (pe_uni x) -> order_ok (pe_ord x) -> honest (pe_uni x) (pe_world x) -> asked_modules (pe_world x) l ->
  asks x fuel l cg_new = Ok c -> final_modules x fuel c = Ok ms -> cg_generate x numpy fuel c = Ok out ->
  traverse_submodules (pe_cfg x) = true -> generate_classes (pe_cfg x) = true -> generate_type_vars (pe_cfg x) = true ->
  forall ns k p, at_path out ns k -> mentioned k (MLocal p) -> type_at out ns (segs p).
Proof. intros x numpy fuel l c ms out HU Ho Hw Hl Hc Hf Hg. exact (mentions_types x HU Ho Hw numpy fuel l c ms out Hl Hc Hf Hg). Qed.
Print Assumptions C66_local_partial.
(** Every other name is one of six that Rust knows, or a path of a library that exists; two paths do not (C21). *)
Theorem C66_known_partial : forall x numpy fuel l c ms out, order_ok (pe_ord x) -> honest (pe_uni x) (pe_world x) -> asked_modules (pe_world x) l ->
  asks x fuel l cg_new = Ok c -> final_modules x fuel c = Ok ms -> cg_generate x numpy fuel c = Ok out ->
  forall ns k, at_path out ns k ->
    (forall s, mentioned k (MBare s) -> In s (map u ["bool"; "u8"; "f64"; "i64"; "str"; "Vec"]%string)) /\
    (forall p, mentioned k (MLib p) -> In p (segs_of ["pyo3"; "Bound"]%string :: existing_items) \/ p = segs_of ["std"; "net"; "IpV4Addr"]%string \/ p = segs_of ["std"; "net"; "IpV6Addr"]%string).
Proof.
  intros x numpy fuel l c ms out Ho Hw Hl Hc Hf Hg ns k A. destruct (mentions_known x Ho Hw numpy fuel l c ms out Hl Hc Hf Hg ns k A) as [K1 K2].
  split; [exact K1|]. intros p Hp. destruct (K2 p Hp) as [K|[<-|[<-|[]]]]; auto.
Qed.
Print Assumptions C66_known_partial.
(** The six bare names keep their meaning, unless the Python module itself has something of this name. *)
Theorem C66_bare_partial : forall x numpy fuel l c ms out, uni_ok (pe_uni x) -> order_ok (pe_ord x) -> honest (pe_uni x) (pe_world x) -> asked_modules (pe_world x) l ->
  asks x fuel l cg_new = Ok c -> final_modules x fuel c = Ok ms -> cg_generate x numpy fuel c = Ok out ->
  forall ns k s, at_path out ns k -> mentioned k (MBare s) -> hides k s -> exists m m0, In m0 ms /\ within m m0 /\ ns = segs (m_name m) /\ in_use m s.
Proof. intros x numpy fuel l c ms out HU Ho Hw Hl Hc Hf Hg. exact (bare_hidden x HU Ho Hw numpy fuel l c ms out Hl Hc Hf Hg). Qed.
Print Assumptions C66_bare_partial.

(** A package with a class and a function that returns it, and a submodule whose function takes it, a list of texts and a type variable of its own *)
Definition w_typed : world :=
  world_of [at_ "pkg" 2%N; at_ "pkg.sub" 6%N]
    [none_ob; str_ob "pkg"; module_ob "pkg" [at_ "__name__" 1%N; at_ "__path__" 1%N; at_ "f" 3%N; at_ "C" 4%N; at_ "sub" 6%N] None [u "sub"];
     fn_ob 1 (sig [par "n" (Some "int"%string)] (Some "pkg.C"%string)); class_ob 1 [] [];
     str_ob "pkg.sub"; module_ob "pkg.sub" [at_ "__name__" 5%N; at_ "g" 7%N; at_ "T" 8%N] None [];
     fn_ob 5 (sig [par "c" (Some "pkg.C"%string); par "l" (Some "list[str]"%string); par "t" (Some "pkg.sub.T"%string)] (Some "bool"%string)); type_var_ob].
Definition mention_list (k : list frag) : list mention := flat_map (fun c => flat_map mentions (sig_types c)) (contracts k).
Lemma mention_list_ok : forall k r, mentioned k r <-> In r (mention_list k).
Proof.
  intros k r. unfold mentioned, mention_list. rewrite in_flat_map. setoid_rewrite in_flat_map. split; [intros (c & t & H1 & H2 & H3)|intros (c & H1 & t & H2 & H3)]; eauto.
Qed.
Example C66_ex : let x := env_of w_typed in let out := fx_output x fx_pkg in
  uni_ok (pe_uni x) /\ order_ok (pe_ord x) /\ honest (pe_uni x) (pe_world x) /\ asked_modules (pe_world x) fx_pkg /\
  asks x 5 fx_pkg cg_new = Ok (fx_codegen x fx_pkg) /\ final_modules x 5 (fx_codegen x fx_pkg) = Ok (fx_forest x fx_pkg) /\ cg_generate x false 5 (fx_codegen x fx_pkg) = Ok out /\
  traverse_submodules (pe_cfg x) = true /\ generate_classes (pe_cfg x) = true /\ generate_type_vars (pe_cfg x) = true /\
  (exists k, at_path out (map u ["pkg"; "sub"]%string) k /\ mention_list k =
    [MLib (segs_of ["pyo3"; "Bound"]%string); MLocal (mk_path false [u "super"; u "C"]); MLib (segs_of ["std"; "string"; "String"]%string);
     MLib (segs_of ["pyo3"; "Bound"]%string); MLocal (mk_path false [u "T"]); MBare (u "bool")]).
Proof.
  cbv zeta. split; [exact uni_ascii_ok|]. split; [exact fx_order_ok|]. split; [apply honestb_ok; vm_compute; reflexivity|].
  split; [intros r o [<-|[]] [E|[]]; injection E as <-; reflexivity|].
  do 3 (split; [vm_compute; reflexivity|]). do 3 (split; [reflexivity|]).
  exists (px_body (px_body (fx_output (env_of w_typed) fx_pkg))). split; [apply bodies_ok; vm_compute; tauto|]. vm_compute. reflexivity.
Qed.

(** The package has a class [bool] of its own, and a function annotated with Python's [bool] (as [builtins.bool]): it is declared to return the struct. *)
Definition builtin_bool : pyann := Model_Type.AClass (fun b => match b with BBool | BLong => true | _ => false end) (u "<class 'bool'>").
Definition w_bool : world := w_pkg [at_ "bool" 3%N; at_ "f" 4%N] [] [] [class_ob 1 [] []; fn_ob 1 (mk_signature [] (Some builtin_bool))].
Theorem C66_capture_refuted : exists x c out k, runs x c out k /\ results k = [(u "f", RetType (RName (u "bool")))] /\ mentioned k (MBare (u "bool")) /\ In (GStruct (u "bool")) k.
Proof. clash w_bool. split; [vm_compute; reflexivity|]. split; [apply mention_list_ok; vm_compute; now left|vm_compute; tauto]. Qed.
Print Assumptions C66_capture_refuted.
(** With classes switched off, the types still refer to them. *)
Definition w_maker : world := w_pkg [at_ "C" 3%N; at_ "f" 4%N] [] [] [class_ob 1 [] []; fn_ob 1 (sig [] (Some "pkg.C"%string))].
Lemma local_missing : forall out ns p, (forall q i k, resolve ns (segs p) = Some (q ++ [i]) -> In k (bodies out q) -> existsb (fun f => match f with GStruct j | GType j => str_eqb j i | _ => false end) k = false) -> ~ type_at out ns (segs p).
Proof.
  intros out ns p H (q & i & k & R & A & D). apply bodies_ok in A. specialize (H q i k R A). assert (K : existsb (fun f => match f with GStruct j | GType j => str_eqb j i | _ => false end) k = true); [|congruence].
  apply existsb_exists. destruct D as [D|D]; eexists; (split; [exact D|now apply str_eqb_eq]).
Qed.
Theorem C66_off_refuted : exists x c out k p, uni_ok (pe_uni x) /\ order_ok (pe_ord x) /\ honest (pe_uni x) (pe_world x) /\ asked_modules (pe_world x) fx_pkg /\
  pe_cfg x = off Classes default_config /\ asks x 5 fx_pkg cg_new = Ok c /\ cg_generate x false 5 c = Ok out /\
  at_path out [u "pkg"] k /\ mentioned k (MLocal p) /\ ~ type_at out [u "pkg"] (segs p).
Proof.
  pose (x := mk_penv (pe_env (env_of w_maker)) (off Classes default_config) (pe_ord (env_of w_maker))). exists x, (fx_codegen x fx_pkg), (fx_output x fx_pkg), (px_body (fx_output x fx_pkg)), (mk_path false [u "C"]).
  split; [exact uni_ascii_ok|]. split; [exact fx_order_ok|]. split; [apply honestb_ok; vm_compute; reflexivity|]. split; [intros r o [<-|[]] [E|[]]; injection E as <-; reflexivity|]. split; [reflexivity|].
  do 2 (split; [vm_compute; reflexivity|]). split; [apply bodies_ok; vm_compute; tauto|]. split; [apply mention_list_ok; vm_compute; tauto|].
  apply local_missing. intros q i k R. change (Some [u "pkg"; u "C"] = Some (q ++ [i])) in R. injection R as R. apply (app_inj_tail [u "pkg"] q) in R as [<- <-].
  set (b := bodies _ _). vm_compute in b. subst b. intros [<-|[]]. reflexivity.
Qed.
Print Assumptions C66_off_refuted.
(** So do the types of a module with a class in another module of the package, if both are asked for and submodules are not traversed: the second module hangs on the first one and is left out. *)
Definition w_both : world :=
  world_of [at_ "pkg" 2%N; at_ "pkg.sub" 5%N]
    [none_ob; str_ob "pkg"; module_ob "pkg" [at_ "__name__" 1%N; at_ "__path__" 1%N; at_ "f" 3%N; at_ "sub" 5%N] None [];
     fn_ob 1 (sig [] (Some "pkg.sub.C"%string)); str_ob "pkg.sub"; module_ob "pkg.sub" [at_ "__name__" 4%N; at_ "C" 6%N] None []; class_ob 4 [] []].
Definition fx_both : list request := [AddName (u "pkg"); AddName (u "pkg.sub")].
Theorem C66_traversal_refuted : exists x c out k p, uni_ok (pe_uni x) /\ order_ok (pe_ord x) /\ honest (pe_uni x) (pe_world x) /\ asked_modules (pe_world x) fx_both /\
  pe_cfg x = no_traversal default_config /\ asks x 5 fx_both cg_new = Ok c /\ cg_generate x false 5 c = Ok out /\
  at_path out [u "pkg"] k /\ mentioned k (MLocal p) /\ ~ type_at out [u "pkg"] (segs p).
Proof.
  pose (x := sx_off (env_of w_both)). exists x, (fx_codegen x fx_both), (fx_output x fx_both), (px_body (fx_output x fx_both)), (mk_path false [u "sub"; u "C"]).
  split; [exact uni_ascii_ok|]. split; [exact fx_order_ok|]. split; [apply honestb_ok; vm_compute; reflexivity|]. split; [intros r o [<-|[<-|[]]] [E|[]]; injection E as <-; reflexivity|]. split; [reflexivity|].
  do 2 (split; [vm_compute; reflexivity|]). split; [apply bodies_ok; vm_compute; tauto|]. split; [apply mention_list_ok; vm_compute; tauto|].
  apply local_missing. intros q i k R. change (Some [u "pkg"; u "sub"; u "C"] = Some (q ++ [i])) in R. injection R as R. apply (app_inj_tail [u "pkg"; u "sub"] q) in R as [<- <-].
  set (b := bodies _ _). vm_compute in b. subst b. intros [].
Qed.
Print Assumptions C66_traversal_refuted.
