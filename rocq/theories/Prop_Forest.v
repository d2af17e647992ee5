(** * Property theorems: the forest of modules (C38 - C43, C57, C58) *)
From Verif Require Import Base Model_Ident Model_Path Model_Import Model_Config Model_Type Model_IntoRs Model_World Model_Out Model_Function Model_Property
  Model_Class Model_Module Model_Parse Model_Codegen Spec_Path Spec_Items Spec_Tree Spec_Api Spec_Safe Spec_Out Spec_Privacy Example_World Example_Honest
  Proof_Base Proof_Ident Proof_Path Proof_Items Proof_Parse Proof_Forest Proof_Api Proof_Honest Proof_Order Proof_Rooted Proof_Embed Proof_Deps.

Definition fx_order_ok : order_ok id_order := fun A l => Permutation.Permutation_refl l.
Definition fx_codegen (x : penv) (l : list request) : codegen := match asks x 5 l cg_new with Ok c => c | _ => cg_new end.
Definition fx_forest (x : penv) (l : list request) : list module := match final_modules x 5 (fx_codegen x l) with Ok ms => ms | _ => [] end.
Definition fx_output (x : penv) (l : list request) : list frag := match cg_generate x false 5 (fx_codegen x l) with Ok o => o | _ => [] end.
Definition fx_env : penv := pkg_env default_config [].
Definition fx_both : list request := [AddName (u "pkg.sub"); AddName (u "pkg")].
Lemma fx_honest : honest uni_ascii (pkg_world []).
Proof. apply honestb_ok. vm_compute. reflexivity. Qed.
Lemma fx_asked : asked_modules (pkg_world []) fx_both.
Proof. intros r o [<-|[<-|[]]] [E|[]]; injection E as <-; reflexivity. Qed.

(** ** C38 *)
Theorem C38_needs_a_module : forall x fuel l c, asks x fuel l cg_new = Ok c ->
  (final_modules x fuel c = Err ECodegen <-> flat_map (asked (pe_world x)) l = []).
Proof. exact empty_rejected. Qed.
Print Assumptions C38_needs_a_module.
Theorem C38_generate_rejects : forall x numpy fuel l c, asks x fuel l cg_new = Ok c -> flat_map (asked (pe_world x)) l = [] ->
  cg_generate x numpy fuel c = Err ECodegen.
Proof. intros x numpy fuel l c H E. apply (empty_rejected x fuel l c H) in E. unfold cg_generate. now rewrite E. Qed.
Print Assumptions C38_generate_rejects.
Example C38_ex : asks fx_env 5 [AddModules []; AddNames []] cg_new = Ok cg_new /\ final_modules fx_env 5 cg_new = Err ECodegen /\
  flat_map (asked (pkg_world [])) fx_both = [Some 4%N; Some 3%N].
Proof. repeat split; vm_compute; reflexivity. Qed.

(** ** C39 *)
Theorem C39_linked : forall x fuel l c ms, order_ok (pe_ord x) -> honest (pe_uni x) (pe_world x) -> asked_modules (pe_world x) l ->
  asks x fuel l cg_new = Ok c -> final_modules x fuel c = Ok ms ->
  forall ch, present ms ch -> linked ch /\ exists n r, ch = n :: r /\ length (segs n) = 1.
Proof. intros x fuel l c ms Ho Hw Hl Hc Hf. exact (final_linked x Ho Hw fuel l c ms Hl Hc Hf). Qed.
Print Assumptions C39_linked.
(** Every requested module is at its own path, and so is everything in it. *)
Theorem C39_requested : forall x fuel l c ms o, order_ok (pe_ord x) -> honest (pe_uni x) (pe_world x) -> asked_modules (pe_world x) l ->
  asks x fuel l cg_new = Ok c -> final_modules x fuel c = Ok ms -> In (Some o) (flat_map (asked (pe_world x)) l) ->
  exists m, mod_parse x fuel o = Ok m /\ m_name m = path_from_py (pe_uni x) (w_name (pe_world x) o) /\
    present ms (parents (m_name m) ++ [m_name m]) /\ forall ch it, holds [m] ch it -> holds ms (parents (m_name m) ++ ch) it.
Proof.
  intros x fuel l c ms o Ho Hw Hl Hc Hf Hin. destruct (asked_parsed x fuel l c o Hc Hin) as (m & Hm & Hp). exists m. split; [exact Hp|].
  assert (Mo : is_module (pe_world x) o) by (apply in_flat_map in Hin as (r & Hr & Hin); exact (Hl r o Hr Hin)).
  split; [exact (parsed_name x Ho Hw fuel o m Mo Hp)|]. pose proof (final_requested x Ho fuel c ms Hf m Hm) as R. split.
  - destruct (R [m_name m] None) as (k & Hk & _); [exists m; split; [apply reach_here; now left|exact I]|]. now exists k.
  - intros ch it H. exact (R ch (Some it) H).
Qed.
Print Assumptions C39_requested.
(** Requested by name, the module is at the requested path. *)
Theorem C39_requested_name : forall x fuel l c ms n, order_ok (pe_ord x) -> honest (pe_uni x) (pe_world x) -> asked_modules (pe_world x) l ->
  asks x fuel l cg_new = Ok c -> final_modules x fuel c = Ok ms -> In (AddName n) l ->
  present ms (parents (path_from_py (pe_uni x) n) ++ [path_from_py (pe_uni x) n]).
Proof.
  intros x fuel l c ms n Ho Hw Hl Hc Hf Hin. destruct (w_import (pe_world x) n) as [o|] eqn:E.
  - destruct (C39_requested x fuel l c ms o Ho Hw Hl Hc Hf) as (m & _ & En & K & _).
    { apply in_flat_map. exists (AddName n). split; [exact Hin|]. cbn. rewrite E. now left. }
    destruct (hn_import _ _ Hw n o E) as [_ <-]. now rewrite <- En.
  - exfalso. pose proof (asks_state x fuel l c Hc) as F. assert (K : In None (flat_map (asked (pe_world x)) l)) by (apply in_flat_map; exists (AddName n); split; [exact Hin|]; cbn; rewrite E; now left).
    clear - F K. induction F as [|a m q ms (o & -> & _) F IH]; [easy|]. destruct K as [K|K]; [discriminate|auto].
Qed.
Print Assumptions C39_requested_name.
(** The tree can be built if the parents of all requested modules can be imported. *)
Theorem C39_succeeds : forall x fuel l c, order_ok (pe_ord x) -> generate_dependencies (pe_cfg x) = false -> asks x fuel l cg_new = Ok c ->
  flat_map (asked (pe_world x)) l <> [] -> (forall m, In m (cg_modules c) -> parents_importable (pe_world x) (m_name m)) ->
  exists ms, final_modules x fuel c = Ok ms.
Proof.
  intros x fuel l c Ho Hd Hc Hne Hp. destruct (canonicalize_total x (cg_modules c) Ho Hp) as (k & Hk). unfold final_modules. rewrite Hd.
  pose proof (asks_state x fuel l c Hc) as F. destruct (cg_modules c) as [|a r] eqn:E; [inversion F; congruence|]. cbn [obind]. rewrite Hk. eexists. reflexivity.
Qed.
Print Assumptions C39_succeeds.
(** A module of a package that cannot be imported: the [unreachable!] in [canonicalize] is reached. *)
Theorem C39_unimportable_parent_refuted : exists x l c, order_ok (pe_ord x) /\ honest (pe_uni x) (pe_world x) /\ asked_modules (pe_world x) l /\
  asks x 5 l cg_new = Ok c /\ cg_modules c <> [] /\ final_modules x 5 c = Panic PUnreachable.
Proof.
  exists (env_of w_sources), [AddSource (u "a = 1") (u "lone.mod") (Some 3%N)], (fx_codegen (env_of w_sources) [AddSource (u "a = 1") (u "lone.mod") (Some 3%N)]).
  split; [exact fx_order_ok|]. split; [apply honestb_ok; vm_compute; reflexivity|]. split; [intros r o [<-|[]] [E|[]]; injection E as <-; reflexivity|].
  split; [vm_compute; reflexivity|]. split; [vm_compute; discriminate|vm_compute; reflexivity].
Qed.
Print Assumptions C39_unimportable_parent_refuted.
(** A module that is imported under another name than its own ([os.path]) is not at the requested path. *)
Theorem C39_alias_refuted : exists x n c ms, order_ok (pe_ord x) /\ named_world (pe_world x) /\ asks x 5 [AddName n] cg_new = Ok c /\ final_modules x 5 c = Ok ms /\
  ~ present ms (parents (path_from_py (pe_uni x) n) ++ [path_from_py (pe_uni x) n]).
Proof.
  exists (env_of w_alias), (u "pkg.path"), (fx_codegen (env_of w_alias) [AddName (u "pkg.path")]), (fx_forest (env_of w_alias) [AddName (u "pkg.path")]).
  split; [exact fx_order_ok|]. split.
  { apply named_objects; repeat (constructor; [cbn; first [discriminate|easy]|]); constructor. }
  split; [vm_compute; reflexivity|]. split; [vm_compute; reflexivity|].
  intros (m & H). vm_compute in H. inversion H as [|l1 m1 c1 k1 Hin Hr E1]; subst. vm_compute in Hin. destruct Hin as [<-|[]]. discriminate.
Qed.
Print Assumptions C39_alias_refuted.
Example C39_ex : order_ok (pe_ord fx_env) /\ honest uni_ascii (pkg_world []) /\ asked_modules (pkg_world []) fx_both /\
  asks fx_env 5 fx_both cg_new = Ok (fx_codegen fx_env fx_both) /\ final_modules fx_env 5 (fx_codegen fx_env fx_both) = Ok (fx_forest fx_env fx_both) /\
  (forall m, In m (cg_modules (fx_codegen fx_env fx_both)) -> parents_importable (pkg_world []) (m_name m)) /\
  map (fun m => to_py (m_name m)) (fx_forest fx_env fx_both) = [u "pkg"] /\ flat_map (fun m => map (fun s => to_py (m_name s)) (m_subs m)) (fx_forest fx_env fx_both) = [u "pkg.sub"].
Proof.
  split; [exact fx_order_ok|]. split; [exact fx_honest|]. split; [exact fx_asked|]. split; [vm_compute; reflexivity|]. split; [vm_compute; reflexivity|].
  split; [|split; vm_compute; reflexivity].
  intros m Hm q Hq. set (c := cg_modules (fx_codegen fx_env fx_both)) in Hm. vm_compute in c. subst c. destruct Hm as [<-|[<-|[]]]; vm_compute in Hq; [|easy].
  destruct Hq as [<-|[]]. exists 3%N. split; [vm_compute; reflexivity|vm_compute; discriminate].
Qed.

(** ** C40 *)
Theorem C40_merge_loses_nothing : forall x l l', order_ok (pe_ord x) -> merge_duplicates x l = Ok l' -> same_forest l l'.
Proof. intros x l l' Ho. exact (duplicates_same x Ho l l'). Qed.
Print Assumptions C40_merge_loses_nothing.
(** It never fails. *)
Theorem C40_merge_succeeds : forall x l, exists l', merge_duplicates x l = Ok l'.
Proof. exact duplicates_ok. Qed.
Print Assumptions C40_merge_succeeds.
(** Two copies of [pkg.sub] with different items *)
Definition fx_copy (fns : list func) : module :=
  mk_module (mk_path false [u "pkg"]) [] [] [mk_module (mk_path false [u "pkg"; u "sub"]) [] [] [] [] [] fns [] None false None] [] [] [] [] None true None.
Definition fx_fn (n : String.string) : func := mk_func (mk_path false [u "pkg"; u "sub"; u n]) FFunction [] TUnknown None.
Example C40_ex : exists l', merge_duplicates fx_env [fx_copy [fx_fn "f"]; fx_copy [fx_fn "f"; fx_fn "g"]] = Ok l' /\
  map (fun m => map (fun s => map fn_name (m_functions s)) (m_subs m)) l' = [[[mk_path false (map u ["pkg"; "sub"; "f"]%string); mk_path false (map u ["pkg"; "sub"; "g"]%string)]]].
Proof. eexists. split; vm_compute; reflexivity. Qed.

(** ** C41 *)
Theorem C41_siblings_differ : forall x fuel l c ms, order_ok (pe_ord x) -> honest (pe_uni x) (pe_world x) -> asked_modules (pe_world x) l ->
  asks x fuel l cg_new = Ok c -> final_modules x fuel c = Ok ms -> siblings_differ ms.
Proof. intros x fuel l c ms Ho Hw Hl Hc Hf. exact (final_siblings x Ho Hw fuel l c ms Hl Hc Hf). Qed.
Print Assumptions C41_siblings_differ.
(** At the top of the output no [mod] has the name of another. *)
Theorem C41_written_once : forall x numpy fuel l c out, order_ok (pe_ord x) -> honest (pe_uni x) (pe_world x) -> asked_modules (pe_world x) l ->
  asks x fuel l cg_new = Ok c -> cg_generate x numpy fuel c = Ok out -> NoDup (mod_names out).
Proof. exact roots_once. Qed.
Print Assumptions C41_written_once.
Example C41_ex : length (cg_modules (fx_codegen fx_env fx_both)) = 2 /\ mod_names (fx_output fx_env fx_both) = [u "pkg"].
Proof. split; vm_compute; reflexivity. Qed.

(** ** C42 *)
Theorem C42_order_and_repetition : forall x fuel l l' c ms, order_ok (pe_ord x) ->
  (generate_dependencies (pe_cfg x) = true -> honest (pe_uni x) (pe_world x) /\ names_differ (pe_world x)) ->
  same_members (flat_map (asked (pe_world x)) l) (flat_map (asked (pe_world x)) l') ->
  asks x fuel l cg_new = Ok c -> final_modules x fuel c = Ok ms ->
  exists c' ms', asks x fuel l' cg_new = Ok c' /\ final_modules x fuel c' = Ok ms' /\ same_forest ms ms'.
Proof. exact final_same. Qed.
Print Assumptions C42_order_and_repetition.
Example C42_ex : same_members (flat_map (asked (pkg_world [])) fx_both) (flat_map (asked (pkg_world [])) [AddModule 3%N; AddNames [u "pkg.sub"; u "pkg"]]) /\
  asks fx_env 5 fx_both cg_new = Ok (fx_codegen fx_env fx_both) /\ final_modules fx_env 5 (fx_codegen fx_env fx_both) = Ok (fx_forest fx_env fx_both).
Proof. split; [intros a; vm_compute; intuition|]. split; vm_compute; reflexivity. Qed.

(** ** C43
    The full claim is about every name; it fails for names that are not written the same way in Rust
    ([C43_keyword_refuted], [C43_dotted_refuted]). *)
Theorem C43_nothing_else_embedded : forall x numpy fuel l c out, order_ok (pe_ord x) -> honest (pe_uni x) (pe_world x) -> asked_modules (pe_world x) l ->
  asks x fuel l cg_new = Ok c -> cg_generate x numpy fuel c = Ok out -> forall ns k, at_path out ns k ->
  embeds k = match ns with [n] => match given l n with Some s => [GEmbed n (n ++ u "/__init__.py") s] | None => [] end | _ => [] end \/
  exists ex, k = [GPub; GUseSuper ex].
Proof. exact output_embeds. Qed.
Print Assumptions C43_nothing_else_embedded.
Theorem C43_embedded_partial : forall x numpy fuel l c out src n o, order_ok (pe_ord x) -> honest (pe_uni x) (pe_world x) -> asked_modules (pe_world x) l ->
  asks x fuel l cg_new = Ok c -> cg_generate x numpy fuel c = Ok out -> In (AddSource src n (Some o)) l -> w_name (pe_world x) o = n ->
  component n -> ident_from_py (pe_uni x) n = n ->
  NoDup (mod_names out) /\ exists k s, given l n = Some s /\ at_path out [n] k /\ embeds k = [GEmbed n (n ++ u "/__init__.py") s].
Proof.
  intros x numpy fuel l c out src n o Ho Hw Hl Hc Hout Hr Hn Hcomp Hid. split; [exact (roots_once x numpy fuel l c out Ho Hw Hl Hc Hout)|].
  exact (source_embedded x numpy fuel l c out src n o Ho Hw Hl Hc Hout Hr Hn Hcomp Hid).
Qed.
Print Assumptions C43_embedded_partial.
Definition fx_src (n : String.string) (o : oid) : list request := [AddName (u "pkg"); AddSource (u "a = 1") (u n) (Some o)].
Lemma fx_sources_honest : honest uni_ascii w_sources.
Proof. apply honestb_ok. vm_compute. reflexivity. Qed.
Lemma no_text_by : forall x l c out, order_ok (pe_ord x) -> honest (pe_uni x) (pe_world x) -> asked_modules (pe_world x) l ->
  asks x 5 l cg_new = Ok c -> cg_generate x false 5 c = Ok out -> (forall n, In n (mod_names out) -> given l n = None) -> no_text out.
Proof.
  intros x l c out Ho Hw Hl Hc Hout H ns k Hk. destruct (output_embeds x false 5 l c out Ho Hw Hl Hc Hout ns k Hk) as [E|(ex & ->)]; [|reflexivity].
  rewrite E. destruct ns as [|n [|n' ns]]; try reflexivity. rewrite H; [reflexivity|]. inversion Hk as [|l0 n0 b ns0 k0 Hin _]; subst.
  apply in_flat_map. eexists. split; [exact Hin|]. now left.
Qed.
(** A keyword *)
Theorem C43_keyword_refuted : exists x l c out src n o, order_ok (pe_ord x) /\ honest (pe_uni x) (pe_world x) /\ asked_modules (pe_world x) l /\
  asks x 5 l cg_new = Ok c /\ cg_generate x false 5 c = Ok out /\ In (AddSource src n (Some o)) l /\ w_name (pe_world x) o = n /\ no_text out.
Proof.
  exists (env_of w_sources), (fx_src "match" 4), (fx_codegen (env_of w_sources) (fx_src "match" 4)), (fx_output (env_of w_sources) (fx_src "match" 4)), (u "a = 1"), (u "match"), 4%N.
  assert (A : asked_modules w_sources (fx_src "match" 4)) by (intros r o [<-|[<-|[]]] [E|[]]; injection E as <-; reflexivity).
  split; [exact fx_order_ok|]. split; [exact fx_sources_honest|]. split; [exact A|].
  split; [vm_compute; reflexivity|]. split; [vm_compute; reflexivity|]. split; [right; left; reflexivity|]. split; [reflexivity|].
  apply (no_text_by (env_of w_sources) (fx_src "match" 4) (fx_codegen (env_of w_sources) (fx_src "match" 4))); [exact fx_order_ok|exact fx_sources_honest|exact A|vm_compute; reflexivity..|].
  intros n Hn. vm_compute in Hn. repeat (destruct Hn as [<-|Hn]; [vm_compute; reflexivity|]). easy.
Qed.
Print Assumptions C43_keyword_refuted.
(** A module in a package *)
Theorem C43_dotted_refuted : exists x l c out src n o, order_ok (pe_ord x) /\ honest (pe_uni x) (pe_world x) /\ asked_modules (pe_world x) l /\
  asks x 5 l cg_new = Ok c /\ cg_generate x false 5 c = Ok out /\ In (AddSource src n (Some o)) l /\ w_name (pe_world x) o = n /\ no_text out.
Proof.
  exists (env_of w_sources), (fx_src "pkg.gen" 5), (fx_codegen (env_of w_sources) (fx_src "pkg.gen" 5)), (fx_output (env_of w_sources) (fx_src "pkg.gen" 5)), (u "a = 1"), (u "pkg.gen"), 5%N.
  assert (A : asked_modules w_sources (fx_src "pkg.gen" 5)) by (intros r o [<-|[<-|[]]] [E|[]]; injection E as <-; reflexivity).
  split; [exact fx_order_ok|]. split; [exact fx_sources_honest|]. split; [exact A|].
  split; [vm_compute; reflexivity|]. split; [vm_compute; reflexivity|]. split; [right; left; reflexivity|]. split; [reflexivity|].
  apply (no_text_by (env_of w_sources) (fx_src "pkg.gen" 5) (fx_codegen (env_of w_sources) (fx_src "pkg.gen" 5))); [exact fx_order_ok|exact fx_sources_honest|exact A|vm_compute; reflexivity..|].
  intros n Hn. vm_compute in Hn. repeat (destruct Hn as [<-|Hn]; [vm_compute; reflexivity|]). easy.
Qed.
Print Assumptions C43_dotted_refuted.
Example C43_ex : honest uni_ascii w_sources /\ asked_modules w_sources (fx_src "plain" 6) /\ asks (env_of w_sources) 5 (fx_src "plain" 6) cg_new = Ok (fx_codegen (env_of w_sources) (fx_src "plain" 6)) /\
  cg_generate (env_of w_sources) false 5 (fx_codegen (env_of w_sources) (fx_src "plain" 6)) = Ok (fx_output (env_of w_sources) (fx_src "plain" 6)) /\
  w_name w_sources 6 = u "plain" /\ component (u "plain") /\ ident_from_py uni_ascii (u "plain") = u "plain" /\ mod_names (fx_output (env_of w_sources) (fx_src "plain" 6)) = [u "pkg"; u "plain"].
Proof.
  split; [exact fx_sources_honest|]. split; [intros r o [<-|[<-|[]]] [E|[]]; injection E as <-; reflexivity|]. split; [vm_compute; reflexivity|]. split; [vm_compute; reflexivity|].
  split; [reflexivity|]. split; [split; [discriminate|split; [|reflexivity]]; intros K; vm_compute in K; intuition discriminate|]. split; vm_compute; reflexivity.
Qed.

(** ** C57 *)
Theorem C57_known_types : forall x numpy ms,
  NoDup (mx_types (gen_ctx x numpy ms)) /\
  forall p, In p (mx_types (gen_ctx x numpy ms)) <-> exists m k, In m ms /\ within k m /\ (In p (map cl_name (m_classes k)) \/ In p (m_typevars k)).
Proof. intros x numpy ms. split; [apply unique_NoDup; intros; apply path_eqb_eq|]. intros p. apply all_types_In. Qed.
Print Assumptions C57_known_types.
Example C57_ex : map to_py (mx_types (gen_ctx fx_env false (fx_forest fx_env fx_both))) = [u "pkg.C"].
Proof. vm_compute. reflexivity. Qed.

(** ** C58
    The full claim allows for modules that cannot be imported; they stop the generation ([C58_unimportable_refuted]). *)
Theorem C58_contents_partial : forall x, order_ok (pe_ord x) -> honest (pe_uni x) (pe_world x) -> names_differ (pe_world x) ->
  forall fuel l c ms, asked_modules (pe_world x) l -> asks x fuel l cg_new = Ok c -> final_modules x fuel c = Ok ms ->
    (forall ch it, holds ms ch it <-> exists m ch', (In m (cg_modules c) \/
        (generate_dependencies (pe_cfg x) = true /\ exists o, imported_from (pe_world x) (cg_modules c) o /\ ~ excluded x o /\ mod_parse x fuel o = Ok m)) /\
        ch = parents (m_name m) ++ ch' /\ holds [m] ch' it) /\
    (generate_dependencies (pe_cfg x) = true -> forall o, imported_from (pe_world x) (cg_modules c) o -> ~ excluded x o ->
       exists m, mod_parse x fuel o = Ok m /\ m_name m = path_from_py (pe_uni x) (w_name (pe_world x) o) /\ forall ch, present [m] ch -> present ms (parents (m_name m) ++ ch)) /\
    (forall ch, present ms ch -> exists m, (In m (cg_modules c) \/
        (generate_dependencies (pe_cfg x) = true /\ exists o, imported_from (pe_world x) (cg_modules c) o /\ ~ excluded x o /\ mod_parse x fuel o = Ok m)) /\
        ((exists ch', ch = parents (m_name m) ++ ch' /\ present [m] ch') \/ exists j, 1 <= j < length (segs (m_name m)) /\ ch = firstn j (parents (m_name m)))).
Proof. exact final_contents. Qed.
Print Assumptions C58_contents_partial.
Definition deps_cfg : config := {|
  traverse_submodules := true; generate_preludes := true; generate_imports := true; generate_classes := true; generate_type_vars := true; generate_functions := true;
  generate_properties := true; generate_docs := true; blocklist_names := default_blocklist; include_private := false; generate_dependencies := true;
  suppress_python_stdout := true; suppress_python_stderr := true |}.
Definition deps_env (w : world) : penv := mk_penv (mk_env w false uni_ascii) deps_cfg id_order.
Definition fx_pkg : list request := [AddName (u "pkg")].
Theorem C58_unimportable_refuted : exists x l c, order_ok (pe_ord x) /\ honest (pe_uni x) (pe_world x) /\ names_differ (pe_world x) /\ asked_modules (pe_world x) l /\
  generate_dependencies (pe_cfg x) = true /\ asks x 5 l cg_new = Ok c /\ final_modules x 5 c = Panic PUnwrap.
Proof.
  exists (deps_env (w_deps true)), fx_pkg, (fx_codegen (deps_env (w_deps true)) fx_pkg). split; [exact fx_order_ok|]. split; [apply honestb_ok; vm_compute; reflexivity|].
  split; [apply differb_ok; vm_compute; reflexivity|]. split; [intros r o [<-|[]] [E|[]]; injection E as <-; reflexivity|]. repeat split; vm_compute; reflexivity.
Qed.
Print Assumptions C58_unimportable_refuted.
Example C58_ex : honest uni_ascii (w_deps false) /\ names_differ (w_deps false) /\ asked_modules (w_deps false) fx_pkg /\
  asks (deps_env (w_deps false)) 5 fx_pkg cg_new = Ok (fx_codegen (deps_env (w_deps false)) fx_pkg) /\
  final_modules (deps_env (w_deps false)) 5 (fx_codegen (deps_env (w_deps false)) fx_pkg) = Ok (fx_forest (deps_env (w_deps false)) fx_pkg) /\
  imported_from (w_deps false) (cg_modules (fx_codegen (deps_env (w_deps false)) fx_pkg)) 7%N /\ ~ excluded (deps_env (w_deps false)) 7%N /\
  map (fun m => to_py (m_name m)) (fx_forest (deps_env (w_deps false)) fx_pkg) = [u "dep"; u "pkg"] /\
  map (fun m => to_py (m_name m)) (fx_forest (env_of (w_deps false)) fx_pkg) = [u "pkg"].
Proof.
  split; [apply honestb_ok; vm_compute; reflexivity|]. split; [apply differb_ok; vm_compute; reflexivity|].
  split; [intros r o [<-|[]] [E|[]]; injection E as <-; reflexivity|]. split; [vm_compute; reflexivity|]. split; [vm_compute; reflexivity|].
  split; [|split; [|split; vm_compute; reflexivity]].
  - set (c := cg_modules _). vm_compute in c. subst c. eexists _, _, _. split; [left; reflexivity|]. split; [apply within_here|]. split; [right; left; reflexivity|]. split; [reflexivity|].
    apply home_iff. vm_compute. reflexivity.
  - unfold excluded. change (w_name (pe_world (deps_env (w_deps false))) 7%N) with (as_py (u "dep.sub")). rewrite <- hidden_iff. vm_compute. discriminate.
Qed.
