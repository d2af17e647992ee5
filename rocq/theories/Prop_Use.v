(** * Property theorems: what the generated [use] items refer to (C30, C48, C59) *)
From Verif Require Import Base Model_Ident Model_Path Model_Import Model_Config Model_Type Model_IntoRs Model_World Model_Out Model_Function Model_Property
  Model_Class Model_Module Model_Parse Model_Codegen Spec_Path Spec_Names Spec_Items Spec_Tree Spec_Api Spec_Out Spec_Privacy Spec_Attr Spec_Use Example_World Example_Honest
  Proof_Base Proof_Ident Proof_Items Proof_Use Prop_Items Prop_Forest Prop_Switch.

(** ** Checks for the examples *)
Fixpoint bodies (l : list frag) (ns : list ident) : list (list frag) :=
  match ns with
  | [] => [l]
  | n :: r => flat_map (fun f => match f with GMod i b => if str_eqb i n then bodies b r else [] | _ => [] end) l
  end.
Lemma bodies_ok : forall ns l k, at_path l ns k <-> In k (bodies l ns).
Proof.
  induction ns as [|n r IH]; intros l k; split; intros H.
  - inversion H; subst. now left.
  - destruct H as [<-|[]]. constructor.
  - inversion H as [|? ? b ? ? Hin Hb]; subst. cbn [bodies]. apply in_flat_map. exists (GMod n b). split; [exact Hin|]. rewrite str_eqb_refl. now apply IH.
  - cbn [bodies] in H. apply in_flat_map in H as (f & Hf & H). destruct f; try easy. destruct (str_eqb _ n) eqn:E; [|easy]. apply str_eqb_eq in E as <-.
    econstructor; [exact Hf|]. now apply IH.
Qed.
Definition definesb (k : list frag) (i : ident) : bool :=
  existsb (fun f => match f with GFn d => str_eqb (k_name (f_contract d)) i | GType j | GStruct j | GMod j _ => str_eqb j i | _ => false end) k.
Lemma definesb_ok : forall k i, defines k i <-> definesb k i = true.
Proof.
  intros k i. unfold definesb. rewrite existsb_exists. split.
  - intros [(d & H & E)|[H|[H|(b & H)]]]; eexists; (split; [exact H|]); cbn; apply str_eqb_eq; auto.
  - intros (f & H & E). destruct f; try discriminate; apply str_eqb_eq in E; subst.
    all: first [left; eexists; split; [exact H|reflexivity] | right; left; exact H | right; right; left; exact H | right; right; right; eexists; exact H].
Qed.
Definition refersb (out : list frag) (ns p : list ident) : bool :=
  match resolve ns p with
  | Some (a :: r) => existsb (fun k => definesb k (last (a :: r) [])) (bodies out (removelast (a :: r)))
  | _ => false
  end.
Lemma refersb_ok : forall out ns p, refers out ns p <-> refersb out ns p = true.
Proof.
  intros out ns p. unfold refersb. split.
  - intros (q & i & k & -> & Hk & Hd). destruct (q ++ [i]) as [|a r] eqn:E; [now destruct q|]. rewrite <- E, removelast_last, last_last.
    apply existsb_exists. exists k. split; [now apply bodies_ok|now apply definesb_ok].
  - intros H. destruct (resolve ns p) as [[|a r]|] eqn:E; try discriminate. apply existsb_exists in H as (k & Hk & Hd).
    exists (removelast (a :: r)), (last (a :: r) []), k. split; [rewrite E; f_equal; now apply app_removelast_last|]. split; [now apply bodies_ok|now apply definesb_ok].
Qed.
Definition spelled_exports := fix go (m : module) : bool := forallb (syn_ident_ok uni_ascii) (m_prelude m) && forallb go (m_subs m).
Lemma spelled_exports_ok : forall ms, forallb spelled_exports ms = true -> exports_spelled uni_ascii ms.
Proof.
  intros ms H m k i Hm Hk Hi _. rewrite forallb_forall in H. specialize (H m Hm). clear Hm.
  assert (E : spelled_exports k = true).
  { induction Hk as [|m t Ht Hk IH]; [exact H|]. apply IH. destruct m as [a b c subs]. cbn [spelled_exports m_subs] in H. apply andb_true_iff in H as [_ H]. rewrite forallb_forall in H. now apply H. }
  clear Hk H. destruct k as [a b c subs cl tv fn pr d ip sr]. cbn [spelled_exports] in E. apply andb_true_iff in E as [E _]. rewrite forallb_forall in E. now apply syn_rust_ident, E.
Qed.
(** The preludes, and the [use] paths, of a scope *)
Definition ux_preludes (k : list frag) : list (ident * list ident) := flat_map (fun f => match f with GMod c [GPub; GUseSuper ex] => [(c, ex)] | _ => [] end) k.
Definition ux_uses (k : list frag) : list (list ident) := flat_map (fun f => match f with GUse v => [use_path v] | _ => [] end) k.

(** ** C48
    The full claim is for all configurations. Here nothing is switched off that can be imported ([C48_off_refuted]). *)
Theorem C48_uses_partial : forall x numpy fuel l c ms out, uni_ok (pe_uni x) -> order_ok (pe_ord x) -> honest (pe_uni x) (pe_world x) ->
  asked_modules (pe_world x) l -> asks x fuel l cg_new = Ok c -> final_modules x fuel c = Ok ms -> cg_generate x numpy fuel c = Ok out ->
  all_on (pe_cfg x) -> forall ns k v, at_path out ns k -> In (GUse v) k -> refers out ns (use_path v).
Proof.
  intros x numpy fuel l c ms out HU Ho Hw. exact (uses_refer x HU Ho Hw numpy fuel l c ms out).
Qed.
Print Assumptions C48_uses_partial.
(** A prelude is written inside of the module that it refers to; every name in it is defined there. *)
Theorem C48_preludes_partial : forall x numpy fuel l c ms out, uni_ok (pe_uni x) -> order_ok (pe_ord x) -> honest (pe_uni x) (pe_world x) ->
  asked_modules (pe_world x) l -> asks x fuel l cg_new = Ok c -> final_modules x fuel c = Ok ms -> cg_generate x numpy fuel c = Ok out ->
  all_on (pe_cfg x) -> forall ns k ex, at_path out ns k -> In (GUseSuper ex) k ->
  exists q cc k', ns = q ++ [cc] /\ at_path out q k' /\ In (GMod cc k) k' /\ forall i, In i ex -> defines k' i.
Proof.
  intros x numpy fuel l c ms out HU Ho Hw. exact (preludes_refer x HU Ho Hw numpy fuel l c ms out).
Qed.
Print Assumptions C48_preludes_partial.
(** The example package takes [g] from its submodule. *)
Example C48_ex : uni_ok (pe_uni fx_env) /\ honest (pe_uni fx_env) (pe_world fx_env) /\ asked_modules (pe_world fx_env) fx_pkg /\
  asks fx_env 5 fx_pkg cg_new = Ok (fx_codegen fx_env fx_pkg) /\ final_modules fx_env 5 (fx_codegen fx_env fx_pkg) = Ok (fx_forest fx_env fx_pkg) /\
  cg_generate fx_env false 5 (fx_codegen fx_env fx_pkg) = Ok (fx_output fx_env fx_pkg) /\ all_on (pe_cfg fx_env) /\
  ux_uses (px_body (fx_output fx_env fx_pkg)) = [map u ["self"; "sub"; "g"]%string] /\
  ux_preludes (px_body (fx_output fx_env fx_pkg)) = [(u "call", map u ["f"; "C"]%string)].
Proof.
  split; [exact uni_ascii_ok|]. split; [exact fx_honest|]. split; [intros r o [<-|[]] [E|[]]; injection E as <-; reflexivity|]. split; [vm_compute; reflexivity|]. split; [vm_compute; reflexivity|].
  split; [vm_compute; reflexivity|]. split; [repeat split; reflexivity|]. split; vm_compute; reflexivity.
Qed.
(** With functions switched off, the import of a function is still written, and so is its name in the prelude. *)
Definition no_functions (c : config) : config :=
  {| traverse_submodules := traverse_submodules c; generate_preludes := generate_preludes c; generate_imports := generate_imports c;
     generate_classes := generate_classes c; generate_type_vars := generate_type_vars c; generate_functions := false;
     generate_properties := generate_properties c; generate_docs := generate_docs c; blocklist_names := blocklist_names c; include_private := include_private c;
     generate_dependencies := generate_dependencies c; suppress_python_stdout := suppress_python_stdout c; suppress_python_stderr := suppress_python_stderr c |}.
Definition ux_off (x : penv) : penv := mk_penv (pe_env x) (no_functions (pe_cfg x)) (pe_ord x).
Theorem C48_off_refuted : exists x l c out k v cc ex i, order_ok (pe_ord x) /\ honest (pe_uni x) (pe_world x) /\ asked_modules (pe_world x) l /\
  asks x 5 l cg_new = Ok c /\ cg_generate x false 5 c = Ok out /\ at_path out [u "pkg"] k /\
  (In (GUse v) k /\ ~ refers out [u "pkg"] (use_path v)) /\ prelude_of k cc ex /\ In i ex /\ ~ defines k i.
Proof.
  set (x := ux_off fx_env). set (k := px_body (fx_output x fx_pkg)).
  exists x, fx_pkg, (fx_codegen x fx_pkg), (fx_output x fx_pkg), k, (mk_use (map u ["self"; "sub"; "g"]%string) None), (u "call"), (map u ["f"; "C"]%string), (u "f").
  split; [exact fx_order_ok|]. split; [exact fx_honest|]. split; [intros r o [<-|[]] [E|[]]; injection E as <-; reflexivity|]. split; [vm_compute; reflexivity|]. split; [vm_compute; reflexivity|].
  split; [apply bodies_ok; subst k; vm_compute; tauto|].
  split; [split; [subst k; vm_compute; tauto|]|].
  - intros R. apply refersb_ok in R. vm_compute in R. discriminate.
  - split; [unfold prelude_of; subst k; vm_compute; tauto|]. split; [vm_compute; tauto|]. intros R. apply definesb_ok in R. vm_compute in R. discriminate.
Qed.
Print Assumptions C48_off_refuted.
(** ** C59
    What a module declares for export: names in [__all__] that exist, come from the same package and are not hidden,
    unless [__all__] is just the list of the public names. *)
Theorem C59_declared : forall x fuel o m i, mod_parse x fuel o = Ok m -> (In i (m_prelude m) <-> exported x o (m_name m) i).
Proof.
  exact declared_iff.
Qed.
Print Assumptions C59_declared.
(** Nothing else is exported: every name in a prelude is declared by the module and has a counterpart in it. *)
Theorem C59_only : forall x numpy fuel l c ms out, uni_ok (pe_uni x) -> order_ok (pe_ord x) -> honest (pe_uni x) (pe_world x) ->
  asked_modules (pe_world x) l -> asks x fuel l cg_new = Ok c -> final_modules x fuel c = Ok ms -> cg_generate x numpy fuel c = Ok out ->
  forall ns k cc ex, at_path out ns k -> prelude_of k cc ex -> forall i, In i ex ->
  exists o m ch, is_module (pe_world x) o /\ segs (path_from_py (pe_uni x) (w_name (pe_world x) o)) = ns /\
    exported x o (path_from_py (pe_uni x) (w_name (pe_world x) o)) i /\
    reach ms ch m /\ m_name m = path_from_py (pe_uni x) (w_name (pe_world x) o) /\ counterpart m i.
Proof.
  intros x numpy fuel l c ms out HU Ho Hw. exact (prelude_only x HU Ho Hw numpy fuel l c ms out).
Qed.
Print Assumptions C59_only.
(** Everything declared that has a counterpart is exported. The full claim has no conditions on names ([C59_dropped_refuted]),
    and [listed] instead of [exported] ([C59_variable_refuted], [C59_public_refuted]); imports would be counterparts too ([C59_import_refuted]). *)
Theorem C59_all_partial : forall x numpy fuel l c ms out, uni_ok (pe_uni x) -> order_ok (pe_ord x) -> honest (pe_uni x) (pe_world x) ->
  asked_modules (pe_world x) l -> asks x fuel l cg_new = Ok c -> final_modules x fuel c = Ok ms -> cg_generate x numpy fuel c = Ok out ->
  traverse_submodules (pe_cfg x) = true -> exports_spelled (pe_uni x) ms ->
  forall m0 ch k0 f o i, In m0 (cg_modules c) -> reach [m0] ch k0 -> mod_parse x f o = Ok k0 -> exported x o (m_name k0) i -> counterpart k0 i ->
  exists k cc ex, at_path out (segs (m_name k0)) k /\ prelude_of k cc ex /\ In i ex.
Proof.
  intros x numpy fuel l c ms out HU Ho Hw. exact (prelude_all x HU Ho Hw numpy fuel l c ms out).
Qed.
Print Assumptions C59_all_partial.

(** Packages with a list [__all__] *)
Definition w_listed (attrs : list (str * oid)) (all : list String.string) (more : list ob) : world :=
  world_of [at_ "pkg" 2%N] (none_ob :: str_ob "pkg" :: module_ob "pkg" (at_ "__name__" 1%N :: at_ "__path__" 1%N :: attrs) (Some (map u all)) [] :: more).
Definition plain_fn : ob := fn_ob 1 (sig [] None).
Definition module_of (x : penv) : module := hd (fx_copy []) (fx_forest x fx_pkg).
Definition parsed_of (x : penv) : module := hd (fx_copy []) (cg_modules (fx_codegen x fx_pkg)).
(** [f] and [C] are declared and exported; [h] is not declared. *)
Definition w_exports : world := w_listed [at_ "f" 3%N; at_ "C" 4%N; at_ "h" 3%N] ["C"; "f"]%string [plain_fn; class_ob 1 [] []].
Example C59_ex : let x := env_of w_exports in uni_ok (pe_uni x) /\ honest (pe_uni x) (pe_world x) /\ asked_modules (pe_world x) fx_pkg /\
  asks x 5 fx_pkg cg_new = Ok (fx_codegen x fx_pkg) /\ final_modules x 5 (fx_codegen x fx_pkg) = Ok (fx_forest x fx_pkg) /\
  cg_generate x false 5 (fx_codegen x fx_pkg) = Ok (fx_output x fx_pkg) /\ traverse_submodules (pe_cfg x) = true /\ exports_spelled (pe_uni x) (fx_forest x fx_pkg) /\
  cg_modules (fx_codegen x fx_pkg) = [parsed_of x] /\ reach [parsed_of x] [m_name (parsed_of x)] (parsed_of x) /\ mod_parse x 5 2%N = Ok (parsed_of x) /\
  exported x 2%N (m_name (parsed_of x)) (u "f") /\ counterpart (parsed_of x) (u "f") /\
  ux_preludes (px_body (fx_output x fx_pkg)) = [(u "call", map u ["C"; "f"]%string)].
Proof.
  intros x.
  split; [exact uni_ascii_ok|]. split; [apply honestb_ok; vm_compute; reflexivity|]. split; [intros r o [<-|[]] [E|[]]; injection E as <-; reflexivity|].
  split; [vm_compute; reflexivity|]. split; [vm_compute; reflexivity|]. split; [vm_compute; reflexivity|]. split; [reflexivity|].
  split; [apply spelled_exports_ok; vm_compute; reflexivity|]. split; [vm_compute; reflexivity|]. split; [apply reach_here; now left|].
  assert (P : mod_parse x 5 2%N = Ok (parsed_of x)) by (vm_compute; reflexivity). split; [exact P|].
  split; [refine (proj1 (C59_declared x 5 2%N _ _ P) _); vm_compute; tauto|]. split; [|vm_compute; reflexivity].
  right. exists (AFunction (hd (mk_func (mk_path false []) FFunction [] TUnknown None) (m_functions (parsed_of x)))). eexists.
  split; [vm_compute; tauto|]. split; [reflexivity|]. split; [exists [u "pkg"]; vm_compute; reflexivity|discriminate].
Qed.

(** A variable that is listed and generated is not exported: it does not say which module it is from. *)
Definition w_variable : world := w_listed [at_ "f" 3%N; at_ "LIMIT" 4%N; at_ "h" 3%N] ["LIMIT"; "f"]%string [plain_fn; int_ob].
Theorem C59_variable_refuted : exists x l c ms out m k, order_ok (pe_ord x) /\ honest (pe_uni x) (pe_world x) /\ asked_modules (pe_world x) l /\ pe_cfg x = default_config /\
  asks x 5 l cg_new = Ok c /\ final_modules x 5 c = Ok ms /\ cg_generate x false 5 c = Ok out /\ exports_spelled (pe_uni x) ms /\ mod_parse x 5 2%N = Ok m /\ cg_modules c = [m] /\
  listed x 2%N (u "LIMIT") /\ counterpart m (u "LIMIT") /\ at_path out [u "pkg"] k /\ defines k (u "LIMIT") /\ ux_preludes k = [(u "call", [u "f"])].
Proof.
  set (x := env_of w_variable). exists x, fx_pkg, (fx_codegen x fx_pkg), (fx_forest x fx_pkg), (fx_output x fx_pkg), (parsed_of x), (px_body (fx_output x fx_pkg)).
  split; [exact fx_order_ok|]. split; [apply honestb_ok; vm_compute; reflexivity|]. split; [intros r o [<-|[]] [E|[]]; injection E as <-; reflexivity|]. split; [reflexivity|].
  split; [vm_compute; reflexivity|]. split; [vm_compute; reflexivity|]. split; [vm_compute; reflexivity|]. split; [apply spelled_exports_ok; vm_compute; reflexivity|].
  split; [vm_compute; reflexivity|]. split; [vm_compute; reflexivity|]. split; [exists (map u ["LIMIT"; "f"]%string), (u "LIMIT"); split; [reflexivity|split; [now left|reflexivity]]|].
  split. { right. exists (AProperty (hd (mk_property (mk_path false []) OwnerModule true TUnknown TUnknown None None) (m_properties (parsed_of x)))). eexists.
    split; [vm_compute; tauto|]. split; [reflexivity|]. split; [exists [u "pkg"]; vm_compute; reflexivity|discriminate]. }
  split; [apply bodies_ok; vm_compute; tauto|]. split; [apply definesb_ok; vm_compute; reflexivity|vm_compute; reflexivity].
Qed.
Print Assumptions C59_variable_refuted.
(** There is no prelude if [__all__] lists just the public names. *)
Definition w_public : world := w_listed [at_ "f" 3%N; at_ "h" 3%N] ["f"; "h"]%string [plain_fn].
Theorem C59_public_refuted : exists x l c ms out m k, order_ok (pe_ord x) /\ honest (pe_uni x) (pe_world x) /\ asked_modules (pe_world x) l /\ pe_cfg x = default_config /\
  asks x 5 l cg_new = Ok c /\ final_modules x 5 c = Ok ms /\ cg_generate x false 5 c = Ok out /\ exports_spelled (pe_uni x) ms /\ mod_parse x 5 2%N = Ok m /\ cg_modules c = [m] /\
  listed x 2%N (u "f") /\ counterpart m (u "f") /\ at_path out [u "pkg"] k /\ defines k (u "f") /\ ux_preludes k = [].
Proof.
  set (x := env_of w_public). exists x, fx_pkg, (fx_codegen x fx_pkg), (fx_forest x fx_pkg), (fx_output x fx_pkg), (parsed_of x), (px_body (fx_output x fx_pkg)).
  split; [exact fx_order_ok|]. split; [apply honestb_ok; vm_compute; reflexivity|]. split; [intros r o [<-|[]] [E|[]]; injection E as <-; reflexivity|]. split; [reflexivity|].
  split; [vm_compute; reflexivity|]. split; [vm_compute; reflexivity|]. split; [vm_compute; reflexivity|]. split; [apply spelled_exports_ok; vm_compute; reflexivity|].
  split; [vm_compute; reflexivity|]. split; [vm_compute; reflexivity|]. split; [exists (map u ["f"; "h"]%string), (u "f"); split; [reflexivity|split; [now left|reflexivity]]|].
  split. { right. exists (AFunction (hd (mk_func (mk_path false []) FFunction [] TUnknown None) (m_functions (parsed_of x)))). eexists.
    split; [vm_compute; tauto|]. split; [reflexivity|]. split; [exists [u "pkg"]; vm_compute; reflexivity|discriminate]. }
  split; [apply bodies_ok; vm_compute; tauto|]. split; [apply definesb_ok; vm_compute; reflexivity|vm_compute; reflexivity].
Qed.
Print Assumptions C59_public_refuted.
(** One name that Rust cannot spell, and the prelude is dropped without an error. *)
Definition w_dropped : world := w_listed [at_ "f" 3%N; at_ "crate" 3%N; at_ "h" 3%N] ["f"; "crate"]%string [plain_fn].
Theorem C59_dropped_refuted : exists x l c ms out m k, order_ok (pe_ord x) /\ honest (pe_uni x) (pe_world x) /\ asked_modules (pe_world x) l /\ pe_cfg x = default_config /\
  asks x 5 l cg_new = Ok c /\ final_modules x 5 c = Ok ms /\ cg_generate x false 5 c = Ok out /\ mod_parse x 5 2%N = Ok m /\ cg_modules c = [m] /\
  exported x 2%N (m_name m) (u "f") /\ counterpart m (u "f") /\ at_path out [u "pkg"] k /\ defines k (u "f") /\ ux_preludes k = [].
Proof.
  set (x := env_of w_dropped). exists x, fx_pkg, (fx_codegen x fx_pkg), (fx_forest x fx_pkg), (fx_output x fx_pkg), (parsed_of x), (px_body (fx_output x fx_pkg)).
  split; [exact fx_order_ok|]. split; [apply honestb_ok; vm_compute; reflexivity|]. split; [intros r o [<-|[]] [E|[]]; injection E as <-; reflexivity|]. split; [reflexivity|].
  split; [vm_compute; reflexivity|]. split; [vm_compute; reflexivity|]. split; [vm_compute; reflexivity|].
  assert (P : mod_parse x 5 2%N = Ok (parsed_of x)) by (vm_compute; reflexivity). split; [exact P|]. split; [vm_compute; reflexivity|].
  split; [refine (proj1 (C59_declared x 5 2%N _ _ P) _); vm_compute; tauto|].
  split. { right. exists (AFunction (hd (mk_func (mk_path false []) FFunction [] TUnknown None) (m_functions (parsed_of x)))). eexists.
    split; [vm_compute; tauto|]. split; [reflexivity|]. split; [exists [u "pkg"]; vm_compute; reflexivity|discriminate]. }
  split; [apply bodies_ok; vm_compute; tauto|]. split; [apply definesb_ok; vm_compute; reflexivity|vm_compute; reflexivity].
Qed.
Print Assumptions C59_dropped_refuted.
(** The function [g] that the example package takes from its submodule is declared and imported, but not in the prelude. *)
Theorem C59_import_refuted : exists x l c ms out m k v, order_ok (pe_ord x) /\ honest (pe_uni x) (pe_world x) /\ asked_modules (pe_world x) l /\ pe_cfg x = default_config /\
  asks x 5 l cg_new = Ok c /\ final_modules x 5 c = Ok ms /\ cg_generate x false 5 c = Ok out /\ exports_spelled (pe_uni x) ms /\ mod_parse x 5 3%N = Ok m /\ cg_modules c = [m] /\
  exported x 3%N (m_name m) (u "g") /\ at_path out [u "pkg"] k /\ In (GUse v) k /\ use_path v = map u ["self"; "sub"; "g"]%string /\ use_alias v = None /\
  ux_preludes k = [(u "call", map u ["f"; "C"]%string)].
Proof.
  set (x := fx_env). exists x, fx_pkg, (fx_codegen x fx_pkg), (fx_forest x fx_pkg), (fx_output x fx_pkg), (parsed_of x), (px_body (fx_output x fx_pkg)), (mk_use (map u ["self"; "sub"; "g"]%string) None).
  split; [exact fx_order_ok|]. split; [exact fx_honest|]. split; [intros r o [<-|[]] [E|[]]; injection E as <-; reflexivity|]. split; [reflexivity|].
  split; [vm_compute; reflexivity|]. split; [vm_compute; reflexivity|]. split; [vm_compute; reflexivity|]. split; [apply spelled_exports_ok; vm_compute; reflexivity|].
  assert (P : mod_parse x 5 3%N = Ok (parsed_of x)) by (vm_compute; reflexivity). split; [exact P|]. split; [vm_compute; reflexivity|].
  split; [refine (proj1 (C59_declared x 5 3%N _ _ P) _); vm_compute; tauto|]. split; [apply bodies_ok; vm_compute; tauto|]. split; [vm_compute; tauto|]. split; [reflexivity|]. split; vm_compute; reflexivity.
Qed.
Print Assumptions C59_import_refuted.

(** ** C30, for the prelude module
    It is called [call], [call1], .., the first of these that is not in use in its module. *)
Theorem C30_prelude : forall x numpy fuel l c ms out, uni_ok (pe_uni x) -> order_ok (pe_ord x) -> honest (pe_uni x) (pe_world x) ->
  asked_modules (pe_world x) l -> asks x fuel l cg_new = Ok c -> final_modules x fuel c = Ok ms -> cg_generate x numpy fuel c = Ok out ->
  forall ns k cc ex, at_path out ns k -> prelude_of k cc ex ->
  exists m ch j, reach ms ch m /\ segs (m_name m) = ns /\ cc = numbered (u "call") j /\ ~ in_use m cc /\ forall n, n < j -> in_use m (numbered (u "call") n).
Proof.
  intros x numpy fuel l c ms out HU Ho Hw. exact (prelude_fresh x HU Ho Hw numpy fuel l c ms out).
Qed.
Print Assumptions C30_prelude.
(** There is a function [call], so the prelude is called [call1]. *)
Definition w_call : world := w_listed [at_ "f" 3%N; at_ "call" 3%N; at_ "call2" 3%N] ["f"; "call"]%string [plain_fn].
Example C30_prelude_ex : let x := env_of w_call in uni_ok (pe_uni x) /\ honest (pe_uni x) (pe_world x) /\ asked_modules (pe_world x) fx_pkg /\
  asks x 5 fx_pkg cg_new = Ok (fx_codegen x fx_pkg) /\ final_modules x 5 (fx_codegen x fx_pkg) = Ok (fx_forest x fx_pkg) /\
  cg_generate x false 5 (fx_codegen x fx_pkg) = Ok (fx_output x fx_pkg) /\
  at_path (fx_output x fx_pkg) [u "pkg"] (px_body (fx_output x fx_pkg)) /\ prelude_of (px_body (fx_output x fx_pkg)) (u "call1") (map u ["f"; "call"]%string).
Proof.
  intros x.
  split; [exact uni_ascii_ok|]. split; [apply honestb_ok; vm_compute; reflexivity|]. split; [intros r o [<-|[]] [E|[]]; injection E as <-; reflexivity|].
  split; [vm_compute; reflexivity|]. split; [vm_compute; reflexivity|]. split; [vm_compute; reflexivity|]. split; [apply bodies_ok; vm_compute; tauto|unfold prelude_of; vm_compute; tauto].
Qed.
