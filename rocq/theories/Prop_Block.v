(** * Property theorems: excluding more names (C79) *)
From Verif Require Import Base Model_Ident Model_Path Model_Import Model_Config Model_Type Model_IntoRs Model_World Model_Out Model_Function Model_Property
  Model_Class Model_Module Model_Parse Model_Codegen Spec_Path Spec_Names Spec_Items Spec_Tree Spec_Api Spec_Out Spec_Use Spec_Items Spec_Rust Spec_Hash Spec_Privacy Spec_More Spec_Block Spec_Fuller Example_World Example_Honest
  Proof_Base Proof_Ident Proof_Path Proof_IntoRs Prop_Items Prop_Forest Prop_Switch Prop_Use Prop_Full Prop_More Proof_Block Proof_Fuller Spec_Rust.

(** ** C79
    Two runs on the same interpreter; the second one excludes the names [b] too. Packages are to have their own submodules under the names of these ([C79_hidden_refuted]).
    A module: if it can be read at all, it can be read without these names, and what is found is what was found before without these names, at every depth. *)
Theorem C79_module : forall b h x fuel o m', order_ok (pe_ord x) -> order_ok h -> honest (pe_uni x) (pe_world x) -> own_submodules (pe_world x) -> is_module (pe_world x) o ->
  mod_parse x fuel o = Ok m' -> exists m, mod_parse (blocked_run b h x) fuel o = Ok m /\ less b m m'.
Proof. intros b h x fuel o m' Ho Ho' Hw Hs Hm H. exact (parse_less b h x Ho Ho' Hw Hs fuel o m' Hm H). Qed.
Print Assumptions C79_module.
(** All requests *)
Theorem C79_requests : forall b h x fuel l c', order_ok (pe_ord x) -> order_ok h -> honest (pe_uni x) (pe_world x) -> own_submodules (pe_world x) -> asked_modules (pe_world x) l ->
  asks x fuel l cg_new = Ok c' -> exists c, asks (blocked_run b h x) fuel l cg_new = Ok c /\ Forall2 (less b) (cg_modules c) (cg_modules c').
Proof. intros b h x fuel l c' Ho Ho' Hw Hs Hl H. exact (requests_less b h x Ho Ho' Hw Hs fuel l c' Hl H). Qed.
Print Assumptions C79_requests.
(** The forests, dependencies included: the second run has nothing new. *)
Theorem C79_forest : forall b h x fuel l c c' ms ms', order_ok (pe_ord x) -> order_ok h -> honest (pe_uni x) (pe_world x) -> own_submodules (pe_world x) -> asked_modules (pe_world x) l ->
  (generate_dependencies (pe_cfg x) = true -> names_differ (pe_world x)) ->
  asks x fuel l cg_new = Ok c' -> final_modules x fuel c' = Ok ms' -> asks (blocked_run b h x) fuel l cg_new = Ok c -> final_modules (blocked_run b h x) fuel c = Ok ms ->
  forall ch, (present ms ch -> present ms' ch) /\ forall it, holds ms ch it -> exists it', holds ms' ch it' /\ without b it' = Some it.
Proof.
  intros b h x fuel l c c' ms ms' Ho Ho' Hw Hs Hl Hd Hc' Hf' Hc Hf. exact (proj1 (forest_less b h x Ho Ho' Hw Hs fuel l c c' ms ms' Hl Hd Hc' Hf' Hc Hf)).
Qed.
Print Assumptions C79_forest.
(** Without dependencies: nothing else is missing. *)
Theorem C79_rest : forall b h x fuel l c c' ms ms', order_ok (pe_ord x) -> order_ok h -> honest (pe_uni x) (pe_world x) -> own_submodules (pe_world x) -> asked_modules (pe_world x) l ->
  generate_dependencies (pe_cfg x) = false ->
  asks x fuel l cg_new = Ok c' -> final_modules x fuel c' = Ok ms' -> asks (blocked_run b h x) fuel l cg_new = Ok c -> final_modules (blocked_run b h x) fuel c = Ok ms ->
  forall ch, (forall p, In p ch -> called_unblocked b p = true) -> (present ms' ch -> present ms ch) /\ forall it it', holds ms' ch it' -> without b it' = Some it -> holds ms ch it.
Proof.
  intros b h x fuel l c c' ms ms' Ho Ho' Hw Hs Hl Hd Hc' Hf' Hc Hf. refine (proj2 (forest_less b h x Ho Ho' Hw Hs fuel l c c' ms ms' Hl _ Hc' Hf' Hc Hf) Hd).
  rewrite Hd. discriminate.
Qed.
Print Assumptions C79_rest.

(** The outputs, if every name in an annotation can stand for one class at most, every name in a prelude can be written in Rust, and no excluded name is one that the engine
    could give to an accessor, a constructor or a call (the full claim has no such conditions: [C79_setter_refuted], [C79_new_refuted], [C79_prelude_refuted]).
    Every item of the second run is in the first one at the same path, with the same calls; there, types can be sharper, classes can have further members, and preludes can list more. *)
Theorem C79_output_partial : forall b h x numpy fuel l c c' ms ms' out out', uni_ok (pe_uni x) -> order_ok (pe_ord x) -> order_ok h -> honest (pe_uni x) (pe_world x) -> own_submodules (pe_world x) ->
  names_differ (pe_world x) -> ordinary b -> asked_modules (pe_world x) l ->
  asks (blocked_run b h x) fuel l cg_new = Ok c -> final_modules (blocked_run b h x) fuel c = Ok ms -> cg_generate (blocked_run b h x) numpy fuel c = Ok out ->
  asks x fuel l cg_new = Ok c' -> final_modules x fuel c' = Ok ms' -> cg_generate x numpy fuel c' = Ok out' ->
  traverse_submodules (pe_cfg x) = true ->
  (forall m k, In m ms' -> within k m -> one_meaning (pe_uni x) (all_types ms') k) ->
  (forall m k, In m ms' -> within k m -> forall j, In j (m_prelude k) -> counterpart k j -> rust_ident (pe_uni x) j) ->
  forall ns k y, at_path out ns k -> In y k -> leads y = false ->
    (exists ex, y = GUseSuper ex) \/ exists k', at_path out' ns k' /\ ((exists y', In y' k' /\ fuller y y') \/
      exists n ex n' ex', y = GMod n [GPub; GUseSuper ex] /\ In (GMod n' [GPub; GUseSuper ex']) k' /\ incl ex ex').
Proof. exact fl_output. Qed.
Print Assumptions C79_output_partial.

(** ** An example
    [pkg] has functions [f] and [g], a class [C] with [__init__], [m] and [n], the submodules [sub] and [tools], and takes [h] from [other.deep] and [k] from [other]. *)
Definition own_submodulesb (l : list ob) : bool :=
  forallb (fun b => if tf_is_module (ob_type b) then
    forallb (fun s => match find_str (ob_attrs b) s with
                      | None => true
                      | Some a => match find_str (ob_attrs (ob_at l a)) (u "__module__"), find_str (ob_attrs (ob_at l a)) (u "__name__") with
                                  | None, Some n => str_eqb (ob_str (ob_at l n)) (dot (ob_name b) s)
                                  | _, _ => false
                                  end
                      end) (ob_iter b) else true) l.
Lemma own_submodulesb_ok : forall imports l, own_submodulesb l = true -> own_submodules (world_of imports l).
Proof.
  intros imports l H o s a Hm Hs Ha. unfold own_submodulesb in H. rewrite forallb_forall in H. unfold is_module in Hm. cbn [w_type w_iter_modules w_getattr w_name world_of] in *.
  assert (Hin : In (ob_at l o) l) by (now apply ob_at_In). specialize (H _ Hin). rewrite Hm in H. rewrite forallb_forall in H. specialize (H s Hs). rewrite Ha in H.
  left. unfold module_text, attr_text. cbn [w_getattr w_str world_of]. destruct (find_str (ob_attrs (ob_at l a)) (u "__module__")); [discriminate|].
  destruct (find_str (ob_attrs (ob_at l a)) (u "__name__")) as [n|]; [|discriminate]. apply str_eqb_eq in H. cbn [option_map]. split; [reflexivity|now rewrite H].
Qed.
Definition w_block : world :=
  w_pkg [at_ "f" 3%N; at_ "g" 4%N; at_ "C" 5%N; at_ "sub" 9%N; at_ "h" 12%N; at_ "k" 14%N] [u "sub"; u "tools"] [at_ "pkg.sub" 9%N; at_ "pkg.tools" 11%N]
    [fn_ob 1 (sig [] None); fn_ob 1 (sig [] None); class_ob 1 [at_ "__init__" 6%N; at_ "m" 6%N; at_ "n" 7%N] [(u "m", StoredOther); (u "n", StoredOther)];
     fn_ob 1 (sig [par "self" None] None); fn_ob 1 (sig [par "self" None] None);
     str_ob "pkg.sub"; module_ob "pkg.sub" [at_ "__name__" 8%N; at_ "g" 15%N; at_ "p" 15%N] None [];
     str_ob "pkg.tools"; module_ob "pkg.tools" [at_ "__name__" 10%N] None [];
     fn_ob 13 (sig [] None); str_ob "other.deep"; fn_ob 16 (sig [] None); fn_ob 8 (sig [] None); str_ob "other"].
Definition bx : penv := env_of w_block.
Definition bx_names : list str := map u ["g"; "n"; "deep"; "tools"; "__init__"]%string.
Definition rev_order : hash_order := mk_order (fun _ l => rev l).
Lemma rev_order_ok : order_ok rev_order.
Proof. intros A l. apply Permutation.Permutation_sym, Permutation.Permutation_rev. Qed.
Definition bx' : penv := blocked_run bx_names rev_order bx.
Definition names_in (m : module) : list (list ident) :=
  map (map (fun p => last (segs p) [])) [map fn_name (m_functions m); map cl_name (m_classes m); flat_map (fun c => map fn_name (cl_methods c)) (m_classes m); map im_target (m_imports m); map m_name (m_subs m)].
Example C79_ex : order_ok (pe_ord bx) /\ order_ok rev_order /\ honest (pe_uni bx) (pe_world bx) /\ own_submodules (pe_world bx) /\ asked_modules (pe_world bx) fx_pkg /\
  generate_dependencies (pe_cfg bx) = false /\ ends_ok fx_pkg bx /\ ends_ok fx_pkg bx' /\
  map names_in (cg_modules (fx_codegen bx fx_pkg)) = [map (map u) [["f"; "g"]; ["C"]; ["__init__"; "m"; "n"]; ["h"; "k"]; ["sub"; "tools"]]%string] /\
  map names_in (cg_modules (fx_codegen bx' fx_pkg)) = [map (map u) [["f"]; ["C"]; ["__init__"; "m"]; ["k"]; ["sub"]]%string] /\
  map names_in (flat_map m_subs (cg_modules (fx_codegen bx' fx_pkg))) = [map (map u) [["p"]; []; []; []; []]%string].
Proof.
  split; [exact fx_order_ok|]. split; [exact rev_order_ok|]. split; [apply honestb_ok; vm_compute; reflexivity|]. split; [apply own_submodulesb_ok; vm_compute; reflexivity|].
  split; [intros r o [<-|[]] [E|[]]; injection E as <-; reflexivity|]. split; [reflexivity|]. split; [repeat split; vm_compute; reflexivity|]. split; [repeat split; vm_compute; reflexivity|].
  repeat split; vm_compute; reflexivity.
Qed.

(** For the outputs: [pkg] has functions [f], [g] and [h], of which [__all__] names the first two, and a class [C] with [__init__], [m] and [n]. *)
Definition all_spelled (U : uni) := fix go (m : module) : bool := forallb (fun j => syn_ident_ok U j) (m_prelude m) && forallb go (m_subs m).
Lemma all_spelled_ok : forall U ms, forallb (all_spelled U) ms = true -> forall m k, In m ms -> within k m -> forall j, In j (m_prelude k) -> counterpart k j -> rust_ident U j.
Proof.
  intros U ms H m k Hm Hk j Hj _. rewrite forallb_forall in H. specialize (H m Hm). clear Hm. assert (E : syn_ident_ok U j = true).
  { induction Hk as [|m t Ht Hk IH].
    - destruct k as [a b c subs cl tv fn pr d ip sr]. cbn [all_spelled] in H. apply andb_true_iff in H as [H _]. rewrite forallb_forall in H. now apply H.
    - apply IH. destruct m as [a b c subs cl tv fn pr d ip sr]. cbn [all_spelled m_subs] in *. apply andb_true_iff in H as [_ H]. rewrite forallb_forall in H. now apply H. }
  exact (Proof_Items.syn_rust_ident U j E).
Qed.
Definition w_fuller : world := w_listed [at_ "f" 3%N; at_ "g" 3%N; at_ "h" 3%N; at_ "C" 4%N; at_ "v" 7%N] ["f"; "g"]%string
  [fn_ob 1 (sig [par "x" (Some "pkg.C"%string)] None); class_ob 1 [at_ "__init__" 5%N; at_ "m" 5%N; at_ "n" 6%N] [(u "m", StoredOther); (u "n", StoredOther)];
   fn_ob 1 (sig [par "self" None] None); fn_ob 1 (sig [par "self" None] None); int_ob].
Definition fb : penv := env_of w_fuller.
Definition fb_names : list str := map u ["g"; "n"]%string.
Definition fb' : penv := blocked_run fb_names rev_order fb.
Example C79_output_ex : uni_ok (pe_uni fb) /\ order_ok (pe_ord fb) /\ order_ok rev_order /\ honest (pe_uni fb) (pe_world fb) /\ own_submodules (pe_world fb) /\ names_differ (pe_world fb) /\ ordinary fb_names /\
  asked_modules (pe_world fb) fx_pkg /\ ends_ok fx_pkg fb /\ ends_ok fx_pkg fb' /\ traverse_submodules (pe_cfg fb) = true /\
  (forall m k, In m (fx_forest fb fx_pkg) -> within k m -> one_meaning (pe_uni fb) (all_types (fx_forest fb fx_pkg)) k) /\
  (forall m k, In m (fx_forest fb fx_pkg) -> within k m -> forall j, In j (m_prelude k) -> counterpart k j -> rust_ident (pe_uni fb) j) /\
  ux_preludes (px_body (fx_output fb fx_pkg)) = [(u "call", map u ["f"; "g"]%string)] /\ ux_preludes (px_body (fx_output fb' fx_pkg)) = [(u "call", [u "f"])] /\
  full_methods (fx_output fb fx_pkg) = map u ["new"; "m"; "n"]%string /\ full_methods (fx_output fb' fx_pkg) = map u ["new"; "m"]%string.
Proof.
  split; [exact uni_ascii_ok|]. split; [exact fx_order_ok|]. split; [exact rev_order_ok|]. split; [apply honestb_ok; vm_compute; reflexivity|]. split; [apply own_submodulesb_ok; vm_compute; reflexivity|].
  split; [apply differb_ok; vm_compute; reflexivity|]. split; [intros s p Hs Hp; cbn [In fb_names map] in Hs, Hp; repeat (destruct Hs as [<-|Hs]; [repeat (destruct Hp as [<-|Hp]; [reflexivity|]); destruct Hp|]); destruct Hs|].
  split; [intros r o [<-|[]] [E|[]]; injection E as <-; reflexivity|]. split; [repeat split; vm_compute; reflexivity|]. split; [repeat split; vm_compute; reflexivity|]. split; [reflexivity|].
  split; [apply all_meant_ok; vm_compute; reflexivity|]. split; [apply all_spelled_ok; vm_compute; reflexivity|]. repeat split; vm_compute; reflexivity.
Qed.

(** ** What a longer list can add
    [blocks b x l]: all conditions but that packages have their own submodules. *)
Definition blocks (b : list str) (x : penv) (l : list request) : Prop :=
  order_ok (pe_ord x) /\ honest (pe_uni x) (pe_world x) /\ names_differ (pe_world x) /\ asked_modules (pe_world x) l /\ pe_cfg x = default_config /\
  ends_ok l x /\ ends_ok l (blocked_run b (pe_ord x) x).
Ltac blocked :=
  split; [exact fx_order_ok|]; split; [apply honestb_ok; vm_compute; reflexivity|]; split; [apply differb_ok; vm_compute; reflexivity|];
  split; [intros r o Hr Ha; repeat (destruct Hr as [<-|Hr]; [destruct Ha as [E|[]]; injection E as <-; reflexivity|]); destruct Hr|];
  split; [reflexivity|]; split; repeat split; vm_compute; reflexivity.
(** [pkg] takes the function [tool] from [other.deep] and has a submodule [pkg.tool], which this hides. If [deep] is excluded, the submodule appears. *)
Definition w_hidden : world :=
  w_pkg [at_ "tool" 3%N] [u "tool"] [at_ "pkg.tool" 6%N]
    [mk_ob [at_ "__doc__" 0%N; at_ "__module__" 4%N; at_ "__name__" 7%N] (u "<function>") (facts "function" false false false true false no_sub "<class 'function'>") (Some (sig [] None)) [] [] None [];
     str_ob "other.deep"; str_ob "pkg.tool"; module_ob "pkg.tool" [at_ "__name__" 5%N; at_ "q" 8%N] None []; str_ob "tool"; fn_ob 5 (sig [] None)].
Theorem C79_hidden_refuted : exists b x l, blocks b x l /\
  map m_subs (fx_forest x l) = [[]] /\ map (fun m => map m_name (m_subs m)) (fx_forest (blocked_run b (pe_ord x) x) l) = [[mk_path false [u "pkg"; u "tool"]]].
Proof. exists [u "deep"], (env_of w_hidden), fx_pkg. split; [blocked|]. split; vm_compute; reflexivity. Qed.
Print Assumptions C79_hidden_refuted.
(** [pkg] has a variable [n] and a function [set_n]. If the function is excluded, the setter of the variable appears under its name. *)
Theorem C79_setter_refuted : exists b x l, blocks b x l /\ own_submodules (pe_world x) /\ b = [u "set_n"] /\
  map (fun d => (k_name (f_contract d), match f_body d with BCallMethod _ _ => true | _ => false end)) (px_fns (px_body (fx_output x l))) = [(u "set_n", true); (u "n", false)] /\
  map (fun d => (k_name (f_contract d), match f_body d with BCallMethod _ _ => true | _ => false end)) (px_fns (px_body (fx_output (blocked_run b (pe_ord x) x) l))) = [(u "n", false); (u "set_n", false)].
Proof.
  exists [u "set_n"], (env_of w_setter), fx_pkg. split; [blocked|]. split; [apply own_submodulesb_ok; vm_compute; reflexivity|]. split; [reflexivity|]. split; vm_compute; reflexivity.
Qed.
Print Assumptions C79_setter_refuted.
(** [f(x: pkg.C)]: if the class is excluded, the function takes any object. *)
Definition w_taken : world := w_pkg [at_ "C" 3%N; at_ "f" 4%N] [] [] [class_ob 1 [] []; fn_ob 1 (sig [par "x" (Some "pkg.C"%string)] None)].
Theorem C79_type_refuted : exists b x l, blocks b x l /\ own_submodules (pe_world x) /\
  params_of "f" (body_of "pkg" (fx_output x l)) = [[(u "p_x", RRef (RBound (RLocal (mk_path false [u "C"]))))]] /\
  params_of "f" (body_of "pkg" (fx_output (blocked_run b (pe_ord x) x) l)) = [[(u "p_x", into_py_of "PyAny")]].
Proof. exists [u "C"], (env_of w_taken), fx_pkg. split; [blocked|]. split; [apply own_submodulesb_ok; vm_compute; reflexivity|]. split; vm_compute; reflexivity. Qed.
Print Assumptions C79_type_refuted.
(** A class with a constructor and a method [new]: if the method is excluded, the constructor changes its name. *)
Definition w_named_new : world := w_pkg [at_ "C" 3%N] [] [] [class_ob 1 [at_ "__init__" 4%N; at_ "new" 5%N] [(u "new", StoredOther)]; fn_ob 1 (sig [par "self" None; par "n" (Some "int"%string)] None); fn_ob 1 (sig [par "self" None] None)].
Theorem C79_new_refuted : exists b x l, blocks b x l /\ own_submodules (pe_world x) /\ b = [u "new"] /\
  full_methods (fx_output x l) = map u ["new1"; "new"]%string /\ full_methods (fx_output (blocked_run b (pe_ord x) x) l) = [u "new"].
Proof. exists [u "new"], (env_of w_named_new), fx_pkg. split; [blocked|]. split; [apply own_submodulesb_ok; vm_compute; reflexivity|]. split; [reflexivity|]. split; vm_compute; reflexivity. Qed.
Print Assumptions C79_new_refuted.
(** [__all__] lists [f] and [crate], which Rust cannot spell: there is no prelude unless [crate] is excluded. *)
Theorem C79_prelude_refuted : exists b x l, blocks b x l /\ own_submodules (pe_world x) /\
  ux_preludes (px_body (fx_output x l)) = [] /\ ux_preludes (px_body (fx_output (blocked_run b (pe_ord x) x) l)) = [(u "call", [u "f"])].
Proof. exists [u "crate"], (env_of w_dropped), fx_pkg. split; [blocked|]. split; [apply own_submodulesb_ok; vm_compute; reflexivity|]. split; vm_compute; reflexivity. Qed.
Print Assumptions C79_prelude_refuted.
