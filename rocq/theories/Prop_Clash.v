(** * Property theorems: no name is defined twice (C32) *)
From Verif Require Import Base Model_Ident Model_Path Model_Import Model_Config Model_Type Model_IntoRs Model_World Model_Out Model_Function Model_Property
  Model_Class Model_Module Model_Parse Model_Codegen Spec_Path Spec_Names Spec_Items Spec_Tree Spec_Api Spec_Out Spec_Privacy Spec_Attr Spec_Use Spec_Clash Example_World Example_Honest
  Proof_Base Proof_Ident Proof_Items Proof_Use Proof_Distinct Proof_Clash Prop_Items Prop_Forest Prop_Switch Prop_Use.

(** ** C32
    In every scope of the output, and in every [impl] block and trait in it, each name is defined once.
    The full claim has no condition on the Python names; [clear] lists the names that do clash (see the refutations below). *)
Theorem C32_once_partial : forall x numpy fuel l c ms out, uni_ok (pe_uni x) -> order_ok (pe_ord x) -> honest (pe_uni x) (pe_world x) -> names_differ (pe_world x) ->
  asked_modules (pe_world x) l -> asks x fuel l cg_new = Ok c -> final_modules x fuel c = Ok ms -> cg_generate x numpy fuel c = Ok out ->
  (forall m k, In m ms -> within k m -> clear (pe_uni x) k) ->
  forall ns k, at_path out ns k ->
  NoDup (map as_py (value_names k)) /\ NoDup (map as_py (type_names k)) /\
  (forall n b, In (GImpl n b) k -> NoDup (map as_py (block_names b))) /\
  (forall n b, In (GTrait n b) k -> NoDup (map as_py (block_names b))) /\
  (forall t n b, In (GImplFor t n b) k -> NoDup (map as_py (block_names b))).
Proof.
  intros x numpy fuel l c ms out HU Ho Hw Hd. exact (output_once x HU Ho Hw Hd numpy fuel l c ms out).
Qed.
Print Assumptions C32_once_partial.

(** ** Checks for the examples *)
Definition name_of (p : path) : str := as_py (last (segs p) []).
Lemma called_is : forall U p n, called U p n -> name_of p = n.
Proof. intros U p n (H & q & E). unfold name_of. rewrite E, last_last. now apply as_py_from_py. Qed.
Definition spellableb (U : uni) (p : path) : bool := syn_ident_ok U (ident_from_py U (name_of p)).
Lemma spellableb_ok : forall U p n, uni_ok U -> spellableb U p = true -> called U p n -> spellable_name U n.
Proof. intros U p n HU H C. unfold spellableb in H. rewrite (called_is _ _ _ C) in H. apply rust_spellable; [exact HU|apply C|]. now apply syn_rust_ident. Qed.
Definition clear_classb (U : uni) (c : class) : bool :=
  let fs := map (fun f => name_of (fn_name f)) (cl_methods c) in
  let ps := map (fun p => name_of (pr_name p)) (cl_props c) in
  forallb (fun f => spellableb U (fn_name f)) (cl_methods c) && forallb (fun p => spellableb U (pr_name p)) (cl_props c) &&
  forallb (fun p => negb (pr_mutable p) || negb (mem_str (u "set_" ++ name_of (pr_name p)) ps)) (cl_props c) &&
  negb (mem_str (u "get_new") ps) && negb (mem_str (u "get_call") ps) &&
  (negb (mem_str (u "__call__") fs) || forallb (fun p => negb (starts_with (u "call") p)) ps).
Lemma clear_classb_ok : forall U c, uni_ok U -> clear_classb U c = true -> clear_class U c.
Proof.
  intros U c HU H. unfold clear_classb in H. rewrite !andb_true_iff, !forallb_forall in H. destruct H as [[[[[H1 H2] H3] H4] H5] H6].
  assert (P : forall p n, In p (cl_props c) -> called U (pr_name p) n -> mem_str n (map (fun p => name_of (pr_name p)) (cl_props c)) = true).
  { intros p n Hp C. apply mem_str_In. apply in_map_iff. exists p. split; [now apply (called_is U)|exact Hp]. }
  split.
  - intros f n Hf. apply spellableb_ok; auto.
  - intros p n Hp. apply spellableb_ok; auto.
  - intros p q n Hp Hq Hm C C'. specialize (H3 p Hp). rewrite Hm, (called_is _ _ _ C), (P q _ Hq C') in H3. discriminate.
  - intros p q n Hp Hq Hn _ C'. apply (P q _ Hq) in C'. destruct Hn as [-> | ->]; [change (u "get_" ++ u "new") with (u "get_new") in C'; rewrite C' in H4|change (u "get_" ++ u "call") with (u "get_call") in C'; rewrite C' in H5]; discriminate.
  - intros f p j Hf Cf Hp C. assert (M : mem_str (u "__call__") (map (fun f => name_of (fn_name f)) (cl_methods c)) = true).
    { apply mem_str_In. apply in_map_iff. exists f. split; [now apply (called_is U)|exact Hf]. }
    rewrite M in H6. cbn [negb orb] in H6. rewrite forallb_forall in H6. specialize (H6 (name_of (pr_name p))). rewrite (called_is _ _ _ C) in H6.
    assert (In (numbered (u "call") (S j)) (map (fun p => name_of (pr_name p)) (cl_props c))) as K by (apply in_map_iff; exists p; split; [now apply (called_is U)|exact Hp]). apply H6 in K. discriminate.
Qed.
Definition plainb (it : item) : bool := match it with AFunction _ | AProperty _ => true | _ => false end.
Definition clearb (U : uni) (m : module) : bool :=
  forallb (fun it => spellableb U (path_in it)) (items m) &&
  forallb (fun it => forallb (fun p => negb (str_eqb (name_of (path_in it)) (u "set_" ++ name_of (pr_name p))) || match it with AFunction _ | ATypeVar _ => true | _ => false end) (m_properties m)) (items m) &&
  forallb (fun c => forallb (fun it => negb (str_eqb (name_of (path_in it)) (name_of (cl_name c) ++ u "Methods")) || plainb it) (items m) &&
                    forallb (fun s => negb (str_eqb (name_of (m_name s)) (name_of (cl_name c) ++ u "Methods"))) (m_subs m)) (m_classes m) &&
  forallb (fun s => forallb (fun it => negb (str_eqb (name_of (path_in it)) (name_of (m_name s))) || plainb it) (items m)) (m_subs m) &&
  forallb (fun it => negb (str_eqb (name_of (path_in it)) embed_name)) (items m) && forallb (clear_classb U) (m_classes m).
Lemma clearb_ok : forall U m, uni_ok U -> clearb U m = true -> clear U m.
Proof.
  intros U m HU H. unfold clearb in H. rewrite !andb_true_iff, !forallb_forall in H. destruct H as [[[[[H1 H2] H3] H4] H5] H6].
  assert (I : forall it p, has m it -> item_path it = Some p -> In it (items m) /\ path_in it = p).
  { intros it p Hit E. split; [apply items_has; split; [exact Hit|congruence]|]. unfold path_in. now rewrite E. }
  split.
  - intros it p n Hit E C. destruct (I it p Hit E) as [Hi <-]. revert C. apply spellableb_ok; auto.
  - intros q n it p Hq Cq Hit E C. destruct (I it p Hit E) as [Hi <-]. specialize (H2 it Hi). rewrite forallb_forall in H2. specialize (H2 q Hq).
    rewrite (called_is _ _ _ C), (called_is _ _ _ Cq), str_eqb_refl in H2. destruct it; try discriminate; exact I0 || exact Logic.I.
  - intros c n Hc Cc. specialize (H3 c Hc). rewrite andb_true_iff, !forallb_forall in H3. destruct H3 as [H3 H3']. split.
    + intros it p Hit E C. destruct (I it p Hit E) as [Hi <-]. specialize (H3 it Hi). rewrite (called_is _ _ _ C), (called_is _ _ _ Cc), str_eqb_refl in H3. destruct it; try discriminate; exact Logic.I.
    + intros s Hs C. specialize (H3' s Hs). rewrite (called_is _ _ _ C), (called_is _ _ _ Cc), str_eqb_refl in H3'. discriminate.
  - intros s n it p Hs Cs Hit E C. destruct (I it p Hit E) as [Hi <-]. specialize (H4 s Hs). rewrite forallb_forall in H4. specialize (H4 it Hi).
    rewrite (called_is _ _ _ C), (called_is _ _ _ Cs), str_eqb_refl in H4. destruct it; try discriminate; exact Logic.I.
  - intros _ it p Hit E C. destruct (I it p Hit E) as [Hi <-]. specialize (H5 it Hi). rewrite (called_is _ _ _ C), str_eqb_refl in H5. discriminate.
  - intros c Hc. apply clear_classb_ok; auto.
Qed.
Definition all_clear := fix go (m : module) : bool := clearb uni_ascii m && forallb go (m_subs m).
Lemma all_clear_ok : forall ms, forallb all_clear ms = true -> forall m k, In m ms -> within k m -> clear uni_ascii k.
Proof.
  intros ms H m k Hm Hk. rewrite forallb_forall in H. specialize (H m Hm). clear Hm. apply clearb_ok; [exact uni_ascii_ok|].
  induction Hk as [|m t Ht Hk IH].
  - destruct k as [a b c subs cl tv fn pr d ip sr]. cbn [all_clear] in H. now apply andb_true_iff in H as [H _].
  - apply IH. destruct m as [a b c subs cl tv fn pr d ip sr]. cbn [all_clear m_subs] in *. apply andb_true_iff in H as [_ H]. rewrite forallb_forall in H. now apply H.
Qed.
Fixpoint nodupb (l : list str) : bool := match l with [] => true | s :: r => negb (mem_str s r) && nodupb r end.
Lemma nodupb_ok : forall l, NoDup l -> nodupb l = true.
Proof. induction 1 as [|s r H1 H2 IH]; [reflexivity|]. cbn. rewrite IH, andb_true_r. destruct (mem_str s r) eqn:E; [|reflexivity]. now apply mem_str_In in E. Qed.

Lemma trait_twice : forall k, existsb (fun f => match f with GTrait _ b => negb (nodupb (map as_py (block_names b))) | _ => false end) k = true ->
  exists n b, In (GTrait n b) k /\ ~ NoDup (map as_py (block_names b)).
Proof.
  intros k H. apply existsb_exists in H as (f & Hf & H). destruct f as [| | | | | | | | | | |tn tb| | |]; try discriminate. exists tn, tb. split; [exact Hf|].
  intros N. apply nodupb_ok in N. now rewrite N in H.
Qed.

(** The example package has a function, a variable with two accessors, a class with a constructor, a property with two accessors and a method, an import and a prelude. *)
Example C32_ex : uni_ok (pe_uni fx_env) /\ honest (pe_uni fx_env) (pe_world fx_env) /\ names_differ (pe_world fx_env) /\ asked_modules (pe_world fx_env) fx_pkg /\
  asks fx_env 5 fx_pkg cg_new = Ok (fx_codegen fx_env fx_pkg) /\ final_modules fx_env 5 (fx_codegen fx_env fx_pkg) = Ok (fx_forest fx_env fx_pkg) /\
  cg_generate fx_env false 5 (fx_codegen fx_env fx_pkg) = Ok (fx_output fx_env fx_pkg) /\ (forall m k, In m (fx_forest fx_env fx_pkg) -> within k m -> clear (pe_uni fx_env) k) /\
  map as_py (value_names (px_body (fx_output fx_env fx_pkg))) = map u ["g"; "C"; "f"; "LIMIT"; "set_LIMIT"]%string /\
  map as_py (type_names (px_body (fx_output fx_env fx_pkg))) = map u ["g"; "call"; "C"; "CMethods"; "sub"]%string /\
  map block_names (flat_map (fun f => match f with GImpl _ b | GTrait _ b | GImplFor _ _ b => [b] | _ => [] end) (px_body (fx_output fx_env fx_pkg))) =
    [map u ["new"]; map u ["scale"; "size"; "set_size"]; map u ["scale"; "size"; "set_size"]]%string.
Proof.
  split; [exact uni_ascii_ok|]. split; [exact fx_honest|]. split; [apply differb_ok; vm_compute; reflexivity|]. split; [intros r o [<-|[]] [E|[]]; injection E as <-; reflexivity|].
  split; [vm_compute; reflexivity|]. split; [vm_compute; reflexivity|]. split; [vm_compute; reflexivity|].
  split; [apply all_clear_ok; vm_compute; reflexivity|]. split; [vm_compute; reflexivity|]. split; vm_compute; reflexivity.
Qed.

(** ** Names that do clash
    Each package is asked for with the default configuration; [k] is what is generated for it. *)
Definition runs (x : penv) (c : codegen) (out k : list frag) : Prop :=
  uni_ok (pe_uni x) /\ order_ok (pe_ord x) /\ pe_cfg x = default_config /\ honest (pe_uni x) (pe_world x) /\ names_differ (pe_world x) /\ asked_modules (pe_world x) fx_pkg /\
  asks x 5 fx_pkg cg_new = Ok c /\ cg_generate x false 5 c = Ok out /\ at_path out [u "pkg"] k.
Ltac clash w :=
  let x := fresh "x" in set (x := env_of w); exists x, (fx_codegen x fx_pkg), (fx_output x fx_pkg), (px_body (fx_output x fx_pkg));
  split; [split; [exact uni_ascii_ok|split; [exact fx_order_ok|split; [reflexivity|split; [apply honestb_ok; vm_compute; reflexivity|split; [apply differb_ok; vm_compute; reflexivity|
    split; [intros r o [<-|[]] [E|[]]; injection E as <-; reflexivity|split; [vm_compute; reflexivity|split; [vm_compute; reflexivity|apply bodies_ok; vm_compute; tauto]]]]]]]]|].
Ltac twice := let H := fresh in intros H; apply nodupb_ok in H; vm_compute in H; discriminate.

(** Variables [foo] and [set_foo]: the setter of the first one has the name of the getter of the second one. *)
Definition w_set_variable : world := w_pkg [at_ "foo" 3%N; at_ "set_foo" 3%N] [] [] [int_ob].
Theorem C32_setter_refuted : exists x c out k, runs x c out k /\ ~ NoDup (map as_py (value_names k)).
Proof. clash w_set_variable. twice. Qed.
Print Assumptions C32_setter_refuted.
(** Properties [foo] and [set_foo] of a class *)
Definition getter : ob := fn_ob 1 (sig [par "self" None] None).
Definition setter : ob := fn_ob 1 (sig [par "self" None; par "value" None] None).
Definition read_ob : ob := prop_ob [at_ "fget" 4%N; at_ "fset" 0%N].
Definition write_ob : ob := prop_ob [at_ "fget" 4%N; at_ "fset" 5%N].
(** A package with one class; 4 and 5 are a getter and a setter, 6 and 7 properties without and with a setter, 8 is a method. *)
Definition w_class (attrs : list (str * oid)) (stored : list (str * storage)) : world :=
  w_pkg [at_ "C" 3%N] [] [] [class_ob 1 attrs stored; getter; setter; read_ob; write_ob; fn_ob 1 (sig [par "self" None] None)].
Definition w_set_property : world := w_class [at_ "foo" 7%N; at_ "set_foo" 6%N] [].
Theorem C32_class_setter_refuted : exists x c out k, runs x c out k /\ exists n b, In (GTrait n b) k /\ ~ NoDup (map as_py (block_names b)).
Proof. clash w_set_property. apply trait_twice. vm_compute. reflexivity. Qed.
Print Assumptions C32_class_setter_refuted.
(** Classes [Foo] and [FooMethods]: the trait of the first one has the name of the second one. *)
Definition w_methods : world := w_pkg [at_ "Foo" 3%N; at_ "FooMethods" 3%N] [] [] [class_ob 1 [] []].
Theorem C32_trait_refuted : exists x c out k, runs x c out k /\ ~ NoDup (map as_py (type_names k)).
Proof. clash w_methods. twice. Qed.
Print Assumptions C32_trait_refuted.
(** A package with a class [Foo] of its own and a module [Foo]: only if the class comes from the module, the module is dropped (module.rs:211-275). *)
Definition w_same_name : world := w_pkg [at_ "Foo" 3%N] [u "Foo"] [at_ "pkg.Foo" 4%N] [class_ob 1 [] []; module_ob "pkg.Foo" [] None []].
Theorem C32_submodule_refuted : exists x c out k, runs x c out k /\ ~ NoDup (map as_py (type_names k)).
Proof. clash w_same_name. twice. Qed.
Print Assumptions C32_submodule_refuted.
(** Functions [Self] and [f_Self]: the first one is renamed to the second one. *)
Definition w_renamed : world := w_pkg [at_ "Self" 3%N; at_ "f_Self" 3%N] [] [] [plain_fn].
Theorem C32_renamed_refuted : exists x c out k, runs x c out k /\ ~ NoDup (map as_py (value_names k)).
Proof. clash w_renamed. twice. Qed.
Print Assumptions C32_renamed_refuted.
(** The fresh name for [__call__] avoids the methods, but not the properties. *)
Definition w_call1 : world := w_class [at_ "__call__" 8%N; at_ "call" 8%N; at_ "call1" 6%N] [(u "__call__", StoredOther); (u "call", StoredOther)].
Theorem C32_call_refuted : exists x c out k, runs x c out k /\ exists n b, In (GTrait n b) k /\ ~ NoDup (map as_py (block_names b)).
Proof. clash w_call1. apply trait_twice. vm_compute. reflexivity. Qed.
Print Assumptions C32_call_refuted.
(** The property [new] of a class with a constructor gets the name of the property [get_new]. *)
Definition w_get_new : world := w_class [at_ "__init__" 8%N; at_ "new" 6%N; at_ "get_new" 6%N] [(u "__init__", StoredOther)].
Theorem C32_getter_refuted : exists x c out k, runs x c out k /\ exists n b, In (GTrait n b) k /\ ~ NoDup (map as_py (block_names b)).
Proof. clash w_get_new. apply trait_twice. vm_compute. reflexivity. Qed.
Print Assumptions C32_getter_refuted.
(** The function that embeds the source text, and a function of the same name in the text *)
Definition w_embed : world := w_pkg [at_ "pyo3_embed_python_source_code" 3%N] [] [] [plain_fn].
Definition embed_request : list request := [AddSource (u "def pyo3_embed_python_source_code(): ...") (u "pkg") (Some 2%N)].
Theorem C32_embed_refuted : exists x c out k, uni_ok (pe_uni x) /\ order_ok (pe_ord x) /\ pe_cfg x = default_config /\ honest (pe_uni x) (pe_world x) /\ names_differ (pe_world x) /\
  asked_modules (pe_world x) embed_request /\ asks x 5 embed_request cg_new = Ok c /\ cg_generate x false 5 c = Ok out /\ at_path out [u "pkg"] k /\ ~ NoDup (map as_py (value_names k)).
Proof.
  set (x := env_of w_embed). exists x, (fx_codegen x embed_request), (fx_output x embed_request), (px_body (fx_output x embed_request)).
  split; [exact uni_ascii_ok|]. split; [exact fx_order_ok|]. split; [reflexivity|]. split; [apply honestb_ok; vm_compute; reflexivity|]. split; [apply differb_ok; vm_compute; reflexivity|].
  split; [intros r o [<-|[]] [E|[]]; injection E as <-; reflexivity|]. split; [vm_compute; reflexivity|]. split; [vm_compute; reflexivity|].
  split; [apply bodies_ok; vm_compute; tauto|]. twice.
Qed.
Print Assumptions C32_embed_refuted.
