(** * Property theorems: the generated items (C31, C33, C34, C51, C56, C63) *)
From Verif Require Import Base Model_Ident Model_Path Model_Import Model_Config Model_Type Model_IntoRs Model_World Model_Out Model_Function Model_Property
  Model_Class Model_Module Model_Parse Model_Codegen Spec_Path Spec_Items Spec_Tree Spec_Api Spec_Safe Spec_Out Spec_Prop Example_World Example_Honest
  Proof_Base Proof_Ident Proof_Path Proof_Items Proof_Module Proof_Api Proof_Calm Proof_Rooted Proof_Parts Proof_Property.

Definition ex_request : list request := [AddName (u "pkg")].
Lemma id_order_ok : order_ok id_order.
Proof. intros A l. cbn. apply Permutation.Permutation_refl. Qed.
Definition ex_generate (x : penv) (l : list request) : outcome (list frag) :=
  let! c := asks x 5 l cg_new in cg_generate x false 5 c.

(** ** C31
    The full claim has no condition on the names; it fails ([C31_dangling_pub_refuted]) exactly when an accessor of a
    variable of a module cannot be named. *)
Theorem C31_output_partial : forall x numpy fuel l c out, uni_ok (pe_uni x) -> order_ok (pe_ord x) -> asks x fuel l cg_new = Ok c ->
  (forall ms m k, final_modules x fuel c = Ok ms -> In m ms -> within k m -> variables_named (pe_uni x) k) ->
  cg_generate x numpy fuel c = Ok out -> well_formed (pe_uni x) InModule out.
Proof. exact output_wf. Qed.
Print Assumptions C31_output_partial.
Theorem C31_class : forall g c l, uni_ok (g_uni g) -> (forall k v, In (k, v) (cx_local (g_cx g)) -> leading_colon v = false) ->
  (forall p, In p (cl_props c) -> pr_owner p = OwnerClass) -> class_generate g c = Ok l -> well_formed (g_uni g) InModule l.
Proof. exact class_wf. Qed.
Print Assumptions C31_class.
Definition the_codegen (x : penv) (l : list request) : codegen := match asks x 5 l cg_new with Ok c => c | _ => cg_new end.
Definition the_output (x : penv) (l : list request) : list frag := match ex_generate x l with Ok o => o | _ => [] end.
Definition ex_clash : penv := pkg_env default_config [at_ "set_LIMIT" 5%N].
Theorem C31_dangling_pub_refuted : exists x l c out, uni_ok (pe_uni x) /\ order_ok (pe_ord x) /\ asks x 5 l cg_new = Ok c /\
  cg_generate x false 5 c = Ok out /\ ~ well_formed (pe_uni x) InModule out.
Proof.
  exists ex_clash, ex_request, (the_codegen ex_clash ex_request), (the_output ex_clash ex_request).
  split; [exact uni_ascii_ok|]. split; [exact id_order_ok|]. split; [vm_compute; reflexivity|]. split; [vm_compute; reflexivity|].
  set (o := the_output ex_clash ex_request). vm_compute in o. subst o. intros H. unfold well_formed in H. cbn [items item_ok] in H.
  repeat match goal with H : _ /\ _ |- _ => destruct H | H : Pub <> Pub |- _ => now apply H end.
Qed.
Print Assumptions C31_dangling_pub_refuted.

Definition ex_env : penv := pkg_env default_config [].
Lemma ex_called : forall a b, starts_with (u "r#") b = false -> called uni_ascii (mk_path false (a ++ [ident_from_py uni_ascii b])) b.
Proof. intros a b H. split; [exact H|]. now exists a. Qed.
Example C31_ex : asks ex_env 5 ex_request cg_new = Ok (the_codegen ex_env ex_request) /\
  (forall ms m k, final_modules ex_env 5 (the_codegen ex_env ex_request) = Ok ms -> In m ms -> within k m -> variables_named uni_ascii k) /\
  cg_generate ex_env false 5 (the_codegen ex_env ex_request) = Ok (the_output ex_env ex_request).
Proof.
  split; [vm_compute; reflexivity|]. split; [|vm_compute; reflexivity]. intros ms m k H Hm Hk. vm_compute in H. injection H as <-.
  destruct Hm as [<-|[]]. inversion Hk as [|? s Hs Hk']; subst.
  - exists [u "f"]. split; [constructor; [exact (ex_called [u "pkg"] (u "f") eq_refl)|constructor]|]. intros p [<-|[]]. exists (u "LIMIT").
    split; [exact (ex_called [u "pkg"] (u "LIMIT") eq_refl)|]. split; [left|intros [K|[]]; discriminate].
    split; [|split; [intros K; vm_compute in K; intuition discriminate|split; intros K; vm_compute in K; intuition discriminate]].
    eexists _, _. split; [reflexivity|]. split; [right; reflexivity|]. intros y Hy. cbn in Hy. repeat (destruct Hy as [<-|Hy]; [reflexivity|]). easy.
  - destruct Hs as [<-|[]]. inversion Hk' as [|? s' Hs' Hk'']; subst; [|easy].
    exists [u "g"]. split; [constructor; [exact (ex_called [u "pkg"; u "sub"] (u "g") eq_refl)|constructor]|]. intros p [].
Qed.

(** ** C63 *)
Theorem C63_traits_and_implementations : forall x numpy fuel l c out, uni_ok (pe_uni x) -> order_ok (pe_ord x) -> asks x fuel l cg_new = Ok c ->
  cg_generate x numpy fuel c = Ok out -> forall ns k, at_path out ns k ->
  (forall t n impls, In (GImplFor t n impls) k -> exists defs, In (GTrait t defs) k /\ In (GStruct n) k /\ declared defs = defined impls) /\
  (forall t defs, In (GTrait t defs) k -> exists n impls, In (GImplFor t n impls) k /\ declared defs = defined impls).
Proof. exact output_traits. Qed.
Print Assumptions C63_traits_and_implementations.
(** The trait of class [C] in [pkg]: method [scale] and both accessors of [size] *)
Example C63_ex : exists k t n impls, at_path (the_output ex_env ex_request) [u "pkg"] k /\ In (GImplFor t n impls) k /\
  map k_name (defined impls) = [u "scale"; u "size"; u "set_size"].
Proof.
  set (o := the_output ex_env ex_request). vm_compute in o. subst o. eexists _, _, _, _. split; [eapply at_down; [right; right; left; reflexivity|apply at_here]|].
  split; [cbn; repeat (first [left; reflexivity|right])|reflexivity].
Qed.

(** ** C33
    The full claim: the parameter of a setter has the type of the Python setter's value parameter. The engine takes
    the annotation of the getter, so the claim holds if and only if both annotations become the same Rust type. *)
Theorem C33_setter_type_partial : forall e o g s a b t t' name p gx scope tr impls n v d,
  getter_of (e_world e) o g -> result_annotation (e_world e) g a -> read_ann (e_dbg e) a = Ok t ->
  setter_of (e_world e) o s -> value_annotation (e_world e) s b -> read_ann (e_dbg e) b = Ok t' ->
  prop_parse e o name OwnerClass = Ok p -> prop_generate gx scope p = Ok (IMethod tr impls) -> In (GFn d) impls -> f_body d = BSet n v ->
  (exists pn ty, k_params (f_contract d) = [(pn, ty)] /\ into_rs_borrowed (g_cx gx) t' = Ok ty) <-> into_rs_borrowed (g_cx gx) t' = into_rs_borrowed (g_cx gx) t.
Proof.
  intros e o g s a b t t' name p gx scope tr impls n v d Hg Ha Ht _ _ _ Hp Hi Hx Hb.
  destruct (setter_takes e o g a t name p gx scope tr impls (GFn d) n v d Hg Ha Ht Hp Hi Hx eq_refl Hb) as (pn & ty & E & E1). rewrite E, E1.
  split; [intros (pn' & ty' & K & K1); injection K as <- <-; exact K1|intros K; now exists pn, ty].
Qed.
Print Assumptions C33_setter_type_partial.
Theorem C33_variables : forall e o t name p gx scope impls n v d, type_of e o = Ok t ->
  prop_parse e o name OwnerModule = Ok p -> prop_generate gx scope p = Ok (IFunction impls) -> In (GFn d) impls -> f_body d = BSet n v ->
  exists pn ty, k_params (f_contract d) = [(pn, ty)] /\ into_rs_borrowed (g_cx gx) t = Ok ty.
Proof. intros e o t name p gx scope impls n v d Ht Hp Hi Hx Hb. now apply (variable_takes e o name p gx scope impls (GFn d) n v d t). Qed.
Print Assumptions C33_variables.
(** The getter returns [int], the setter takes [str]: the binding takes [i64]. *)
Definition ex_size : path := mk_path false (map u ["pkg"; "C"; "size"]%string).
Definition ex_gx : gctx := mk_gctx default_config (fun _ => false) (mk_ctx false false uni_ascii []).
Definition ex_prop (w : world) (o : oid) (owner : powner) : outcome fn_impl :=
  let! p := prop_parse (mk_env w false uni_ascii) o ex_size owner in prop_generate ex_gx [] p.
Definition ex_setter (i : outcome fn_impl) : list (list (ident * rty)) :=
  match i with
  | Ok (IMethod _ l) | Ok (IFunction l) => map (fun d => k_params (f_contract d)) (filter (fun d => match f_body d with BSet _ _ => true | _ => false end) (fns l))
  | _ => []
  end.
Theorem C33_getter_type_refuted : exists w o g s, getter_of w o g /\ result_annotation w g (Some (AText (u "int"))) /\
  setter_of w o s /\ value_annotation w s (Some (AText (u "str"))) /\
  ex_setter (ex_prop w o OwnerClass) = [[(u "p_value", RName (u "i64"))]] /\
  into_rs_borrowed (g_cx ex_gx) TString <> Ok (RName (u "i64")).
Proof.
  exists (pkg_world []), 9%N, 10%N, 13%N. split; [reflexivity|]. split; [eexists; split; reflexivity|]. split; [split; reflexivity|].
  split; [do 4 eexists; split; [reflexivity|split; reflexivity]|]. split; [vm_compute; reflexivity|vm_compute; discriminate].
Qed.
Print Assumptions C33_getter_type_refuted.
Example C33_ex : read_ann false (Some (AText (u "str"))) = Ok TString /\
  ex_setter (ex_prop (pkg_world []) 7 OwnerModule) = [[(u "p_value", RName (u "i64"))]].
Proof. split; vm_compute; reflexivity. Qed.

(** ** C34 *)
Theorem C34_no_setter : forall e o name p, no_setter (e_world e) o -> prop_parse e o name OwnerClass = Ok p ->
  forall g scope t i, prop_generate g scope p = Ok (IMethod t i) -> forall n x, In x i -> ~ writes_attr n x.
Proof. exact prop_immutable. Qed.
Print Assumptions C34_no_setter.
(** [F]: the methods of the class. Without the condition on the names, see [C31_dangling_pub_refuted] and C32. *)
Theorem C34_setter : forall e o s name q n F p g t i, uni_ok (g_uni g) -> starts_with (u "r#") n = false -> (forall f, In f F -> starts_with (u "r#") f = false) ->
  setter_of (e_world e) o s -> prop_parse e o name OwnerClass = Ok p -> segs name = q ++ [ident_from_py (g_uni g) n] ->
  accessors_named (g_uni g) F n -> prop_generate g (map (ident_from_py (g_uni g)) F) p = Ok (IMethod t i) ->
  (exists x, In x i /\ reads_attr n x) /\ (exists x, In x i /\ writes_attr n x).
Proof. exact prop_both. Qed.
Print Assumptions C34_setter.
Theorem C34_documentation : forall e o s g name p, setter_of (e_world e) o s -> getter_of (e_world e) o g -> prop_parse e o name OwnerClass = Ok p ->
  (forall d, documented (e_world e) g d -> pr_doc p = Some d) /\ (forall d, documented (e_world e) s d -> pr_setter_doc p = Some d) /\
  (undocumented (e_world e) g -> forall d, documented (e_world e) s d -> pr_doc p = Some d) /\
  (undocumented (e_world e) s -> forall d, documented (e_world e) g d -> pr_setter_doc p = Some d) /\
  (undocumented (e_world e) g -> undocumented (e_world e) s -> pr_doc p = None /\ pr_setter_doc p = None).
Proof. exact prop_docs. Qed.
Print Assumptions C34_documentation.
(** "Never panics" fails. Every panic comes from the conversion of an annotation (C11) or from a setter without value parameter. *)
Theorem C34_panics_partial : forall e o name owner k, prop_parse e o name owner = Panic k ->
  type_of e o = Panic k \/
  (exists g a, getter_of (e_world e) o g /\ result_annotation (e_world e) g a /\ read_ann (e_dbg e) a = Panic k) \/
  (exists s a, setter_of (e_world e) o s /\ value_annotation (e_world e) s a /\ read_ann (e_dbg e) a = Panic k) \/
  (exists s sg, setter_of (e_world e) o s /\ w_signature (e_world e) s = Some sg /\ length (sig_params sg) < 2 /\ k = PUnwrap).
Proof. exact prop_panic. Qed.
Print Assumptions C34_panics_partial.
Theorem C34_short_setter_refuted : forall e o s sg name r, setter_of (e_world e) o s -> w_signature (e_world e) s = Some sg -> length (sig_params sg) < 2 ->
  read_getter e o = Ok r -> prop_parse e o name OwnerClass = Panic PUnwrap.
Proof. exact prop_short_setter. Qed.
Print Assumptions C34_short_setter_refuted.
(** Objects: 3 a read-only property, 4 one with both, 5 and 6 its functions, 7 one whose setter is variadic *)
Definition doc_ob (m d : oid) (sg : signature) : ob :=
  mk_ob [at_ "__doc__" d; at_ "__module__" m] (u "<function>") (facts "function" false false false true false no_sub "<class 'function'>") (Some sg) [] [] None [].
Definition w_props : world :=
  w_pkg [] [] [] [prop_ob [at_ "fget" 5%N; at_ "fset" 0%N]; prop_ob [at_ "fget" 5%N; at_ "fset" 6%N];
                  fn_ob 1 (sig [par "self" None] None); doc_ob 1 1 (sig [par "self" None; par "v" None] None);
                  prop_ob [at_ "fget" 5%N; at_ "fset" 8%N]; fn_ob 1 (sig [par "args" None] None)].
Example C34_ex : no_setter w_props 3 /\ setter_of w_props 4 6 /\ getter_of w_props 4 5 /\ undocumented w_props 5 /\ documented w_props 6 (u "pkg") /\
  (exists p, prop_parse (mk_env w_props false uni_ascii) 3 ex_size OwnerClass = Ok p /\ exists t i, prop_generate ex_gx [] p = Ok (IMethod t i) /\ length i = 1) /\
  (exists p, prop_parse (mk_env w_props false uni_ascii) 4 ex_size OwnerClass = Ok p /\ pr_doc p = Some (u "pkg") /\
     exists t i, prop_generate ex_gx [] p = Ok (IMethod t i) /\ map k_name (defined i) = [u "size"; u "set_size"]) /\
  prop_parse (mk_env w_props false uni_ascii) 7 ex_size OwnerClass = Panic PUnwrap.
Proof.
  split; [intros s [H H1]; vm_compute in H; injection H as <-; discriminate|]. split; [split; reflexivity|]. split; [reflexivity|].
  split; [intros d H; vm_compute in H; injection H as <-; now right|]. split; [split; [reflexivity|split; discriminate]|].
  split; [eexists; split; [vm_compute; reflexivity|]; eexists _, _; split; [vm_compute; reflexivity|reflexivity]|].
  split; [eexists; split; [vm_compute; reflexivity|]; split; [reflexivity|]; eexists _, _; split; [vm_compute; reflexivity|reflexivity]|].
  vm_compute; reflexivity.
Qed.

(** ** C56
    The full claim covers every parsed forest; a module whose [__name__] is the empty text refutes it. *)
Theorem C56_unreachable_partial : forall x numpy fuel l c ms, uni_ok (pe_uni x) -> order_ok (pe_ord x) ->
  named_world (pe_world x) -> asked_modules (pe_world x) l -> asks x fuel l cg_new = Ok c -> final_modules x fuel c = Ok ms ->
  cg_generate x numpy fuel c <> Panic PUnreachable /\ cg_generate x numpy fuel c <> OutOfFuel.
Proof.
  intros x numpy fuel l c ms HU Ho Hw Hl Hc Hf.
  assert (K : calm (fun k => k <> PUnreachable) (fun _ => True) (cg_generate x numpy fuel c)) by (apply (generation_calm _ _ x numpy fuel l c ms); auto; try discriminate; right; discriminate).
  split; intros E; rewrite E in K; cbn in K; auto.
Qed.
Print Assumptions C56_unreachable_partial.
Theorem C56_nameless_module_refuted : exists x l c ms, uni_ok (pe_uni x) /\ order_ok (pe_ord x) /\ asked_modules (pe_world x) l /\
  asks x 5 l cg_new = Ok c /\ final_modules x 5 c = Ok ms /\ cg_generate x false 5 c = Panic PUnreachable.
Proof.
  exists (env_of w_nameless), [AddModule 2%N], (the_codegen (env_of w_nameless) [AddModule 2%N]).
  eexists. split; [exact uni_ascii_ok|]. split; [exact id_order_ok|]. split; [intros r o [<-|[]] [E|[]]; injection E as <-; reflexivity|].
  split; [vm_compute; reflexivity|]. split; [vm_compute; reflexivity|]. vm_compute; reflexivity.
Qed.
Print Assumptions C56_nameless_module_refuted.
Lemma pkg_named : named_world (pkg_world []).
Proof. apply named_objects; repeat (constructor; [cbn; first [discriminate|easy]|]); constructor. Qed.
Lemma pkg_asked : asked_modules (pkg_world []) ex_request.
Proof. intros r o [<-|[]] [E|[]]. injection E as <-. reflexivity. Qed.
Example C56_ex : named_world (pkg_world []) /\ asked_modules (pkg_world []) ex_request /\ asks ex_env 5 ex_request cg_new = Ok (the_codegen ex_env ex_request) /\
  exists m, final_modules ex_env 5 (the_codegen ex_env ex_request) = Ok [m] /\ length (m_functions m) = 1 /\ length (m_properties m) = 1 /\ length (m_classes m) = 1.
Proof.
  split; [exact pkg_named|]. split; [exact pkg_asked|]. split; [vm_compute; reflexivity|]. eexists. split; [vm_compute; reflexivity|]. repeat split.
Qed.

(** ** C51
    The full claim: no name at all can make generation fail. It holds for the names of functions and methods;
    the names of modules, type variables, module variables, imports, parameters and classes need a spelling. *)
Theorem C51_generation_succeeds_partial : forall x numpy fuel l c ms, pe_dbg x = false -> uni_ok (pe_uni x) -> order_ok (pe_ord x) ->
  named_world (pe_world x) -> asked_modules (pe_world x) l -> asks x fuel l cg_new = Ok c -> final_modules x fuel c = Ok ms ->
  (forall m k p, In m ms -> within k m -> In p (map cl_name (m_classes k)) \/ In p (m_typevars k) -> has_text p /\ sayable (pe_uni x) p) ->
  (forall m k, In m ms -> within k m -> spelled (pe_uni x) k) ->
  exists out, cg_generate x numpy fuel c = Ok out.
Proof.
  intros x numpy fuel l c ms Hd HU Ho Hw Hl Hc Hf Ht Hs.
  assert (K : calm (fun _ => False) (fun _ => False) (cg_generate x numpy fuel c)).
  { apply (generation_calm _ _ x numpy fuel l c ms); auto; [congruence| |]; left; intros p Hp; apply all_types_In in Hp as (m & k & Hm & Hk & Hp); now apply (Ht m k). }
  destruct (cg_generate x numpy fuel c) as [out| | |]; [now exists out|easy|easy|easy].
Qed.
Print Assumptions C51_generation_succeeds_partial.
(** Functions and methods called [x-y] do no harm. *)
Example C51_ex : exists ms out, named_world w_odd_functions /\ asked_modules w_odd_functions ex_request /\
  final_modules (env_of w_odd_functions) 5 (the_codegen (env_of w_odd_functions) ex_request) = Ok ms /\
  (forall m k p, In m ms -> within k m -> In p (map cl_name (m_classes k)) \/ In p (m_typevars k) -> has_text p /\ sayable uni_ascii p) /\
  (forall m k, In m ms -> within k m -> spelled uni_ascii k) /\
  ex_generate (env_of w_odd_functions) ex_request = Ok out.
Proof.
  eexists _, (the_output (env_of w_odd_functions) ex_request). split; [apply named_objects; repeat (constructor; [cbn; first [discriminate|easy]|]); constructor|].
  split; [intros r o [<-|[]] [E|[]]; injection E as <-; reflexivity|]. split; [vm_compute; reflexivity|].
  assert (L : forall (P : ident -> Prop) p i, last_opt (segs p) = Some i -> P i -> last_is P p).
  { intros P p i E Hi q j Ej. rewrite Ej, last_opt_app in E. now injection E as <-. }
  split; [|split].
  - intros m k p [<-|[]] Hk Hp. inversion Hk as [|? s Hs _]; subst; [|easy]. destruct Hp as [[<-|[]]|[]].
    split; [eapply L; [reflexivity|]; split; discriminate|]. split; [reflexivity|]. intros s [<-|[<-|[]]]; left; apply syn_rust_ident; reflexivity.
  - intros m k [<-|[]] Hk. inversion Hk as [|? s Hs _]; subst; [|easy]. constructor; cbn.
    + eapply L; [reflexivity|]. apply syn_rust_ident. reflexivity.
    + easy.
    + easy.
    + intros p [<-|[]]. eapply L; [reflexivity|]. intros y Hy. cbn in Hy. repeat (destruct Hy as [<-|Hy]; [reflexivity|]). easy.
    + intros f [<-|[]] p [<-|[]] y [<-|[]]. reflexivity.
    + intros c [<-|[]]. split; [|easy]. intros f [<-|[]] p [].
  - vm_compute; reflexivity.
Qed.
Theorem C51_odd_names_refuted :
  ex_generate (env_of w_odd_submodule) ex_request = Err ECodegen /\ ex_generate (env_of w_odd_variable) ex_request = Err ESyn /\
  ex_generate (env_of w_odd_type_var) ex_request = Err ESyn /\ ex_generate (env_of w_odd_class) ex_request = Panic PUnwrap /\
  ex_generate (env_of w_class_super) [AddName (u "m"); AddName (u "pkg")] = Panic PIndex.
Proof. repeat split; vm_compute; reflexivity. Qed.
Print Assumptions C51_odd_names_refuted.
