(** * Property theorems: including private names (C81) *)
From Verif Require Import Base Model_Ident Model_Path Model_Import Model_Config Model_Type Model_IntoRs Model_World Model_Out Model_Function Model_Property
  Model_Class Model_Module Model_Parse Model_Codegen Spec_Path Spec_Names Spec_Items Spec_Tree Spec_Api Spec_Out Spec_Attr Spec_Use Spec_Rust Spec_Hash Spec_Privacy Spec_More Spec_Block Spec_Fuller Spec_Open Example_World Example_Honest
  Proof_Base Proof_Ident Proof_Path Proof_IntoRs Prop_Items Prop_Forest Prop_Switch Prop_Use Prop_Full Prop_More Prop_Block Proof_Open Proof_Opened Spec_Rust.

(** ** C81
    The same requests without private names ([x]) and with them ([open_run h x]). Packages are to have their own submodules under the names of these ([C81_hidden_refuted]).
    A module that can be read with private names can be read without them; everything that is found then is found with private names too, at every depth. *)
Theorem C81_module : forall h x fuel o m', order_ok (pe_ord x) -> order_ok h -> honest (pe_uni x) (pe_world x) -> own_submodules (pe_world x) -> is_module (pe_world x) o ->
  mod_parse (open_run h x) fuel o = Ok m' -> exists m, mod_parse x fuel o = Ok m /\ opens m m'.
Proof. intros h x fuel o m' Ho Ho' Hw Hs. exact (parse_open h x Ho Ho' Hw Hs fuel o m'). Qed.
Print Assumptions C81_module.
(** All requests *)
Theorem C81_requests : forall h x fuel l c', order_ok (pe_ord x) -> order_ok h -> honest (pe_uni x) (pe_world x) -> own_submodules (pe_world x) -> asked_modules (pe_world x) l ->
  asks (open_run h x) fuel l cg_new = Ok c' -> exists c, asks x fuel l cg_new = Ok c /\ Forall2 opens (cg_modules c) (cg_modules c').
Proof. intros h x fuel l c' Ho Ho' Hw Hs. exact (requests_open _ _ _ h x (parse_open h x Ho Ho' Hw Hs) fuel l c'). Qed.
Print Assumptions C81_requests.
(** The forests, dependencies included *)
Theorem C81_forest : forall h x fuel l c c' ms ms', order_ok (pe_ord x) -> order_ok h -> honest (pe_uni x) (pe_world x) -> own_submodules (pe_world x) -> asked_modules (pe_world x) l ->
  (generate_dependencies (pe_cfg x) = true -> names_differ (pe_world x)) ->
  asks x fuel l cg_new = Ok c -> final_modules x fuel c = Ok ms -> asks (open_run h x) fuel l cg_new = Ok c' -> final_modules (open_run h x) fuel c' = Ok ms' ->
  forall ch, (present ms ch -> present ms' ch) /\ forall it, holds ms ch it -> exists it', holds ms' ch it' /\ open_item it it'.
Proof. intros h x fuel l c c' ms ms' Ho Ho' Hw Hs. exact (forest_open _ _ _ h x Ho Ho' Hw (parse_open h x Ho Ho' Hw Hs) (open_excluded h x) fuel l c c' ms ms'). Qed.
Print Assumptions C81_forest.
(** The outputs, if every name in an annotation can stand for one class at most, every name in a prelude can be written in Rust, and no function or method that is added has a name that
    the engine could give to an accessor, a constructor or a call (the full claim has no such conditions: [C81_setter_refuted], [C81_new_refuted], [C81_prelude_refuted]).
    Every item is in the output with private names at the same path, with the same calls; types can be sharper, classes can have further members, and preludes can list more. *)
Theorem C81_output_partial : forall h x numpy fuel l c c' ms ms' out out', uni_ok (pe_uni x) -> order_ok (pe_ord x) -> order_ok h -> honest (pe_uni x) (pe_world x) -> own_submodules (pe_world x) ->
  names_differ (pe_world x) -> asked_modules (pe_world x) l ->
  asks x fuel l cg_new = Ok c -> final_modules x fuel c = Ok ms -> cg_generate x numpy fuel c = Ok out ->
  asks (open_run h x) fuel l cg_new = Ok c' -> final_modules (open_run h x) fuel c' = Ok ms' -> cg_generate (open_run h x) numpy fuel c' = Ok out' ->
  ordinary_additions ms ms' -> traverse_submodules (pe_cfg x) = true ->
  (forall m k, In m ms' -> within k m -> one_meaning (pe_uni x) (all_types ms') k) ->
  (forall m k, In m ms' -> within k m -> forall j, In j (m_prelude k) -> counterpart k j -> rust_ident (pe_uni x) j) ->
  forall ns k y, at_path out ns k -> In y k -> leads y = false ->
    (exists ex, y = GUseSuper ex) \/ exists k', at_path out' ns k' /\ ((exists y', In y' k' /\ fuller y y') \/
      exists n ex n' ex', y = GMod n [GPub; GUseSuper ex] /\ In (GMod n' [GPub; GUseSuper ex']) k' /\ incl ex ex').
Proof.
  intros h x numpy fuel l c c' ms ms' out out' HU Ho Ho' Hw Hs Hd Hl Hc Hf Hg Hc' Hf' Hg' Ha Ht Hv Hr.
  exact (op_output _ _ _ h x numpy fuel l c c' ms ms' out out' HU Ho Ho' Hw (parse_open h x Ho Ho' Hw Hs) (open_excluded h x) Hd Hl Hc Hf Hg Hc' Hf' Hg' Ha Ht Hv Hr).
Qed.
Print Assumptions C81_output_partial.

(** ** An example
    [pkg] has the functions [f] and [_g], a class [C] with [__init__], [m] and [_n], the submodules [sub] and [_impl], and takes [h] from [_low] and [k] from [other]; it declares [f] and [_g]. *)
Definition ordinary_endb (p : path) : bool := match rev (segs p) with i :: _ => forallb (fun s => negb (starts_with s (as_py i))) (map u ["get_"; "set_"; "new"; "call"]%string) | [] => true end.
Lemma ordinary_endb_ok : forall p, ordinary_endb p = true -> ordinary_end p.
Proof.
  intros p H q i s E Hs. unfold ordinary_endb in H. rewrite E, rev_app_distr in H. cbn [rev app] in H. rewrite forallb_forall in H. apply H in Hs. now destruct (starts_with s (as_py i)).
Qed.
Definition all_ordinary := fix go (m : module) : bool :=
  forallb (fun f => ordinary_endb (fn_name f)) (m_functions m) && forallb (fun c => forallb (fun f => ordinary_endb (fn_name f)) (cl_methods c)) (m_classes m) && forallb go (m_subs m).
Lemma all_ordinary_ok : forall ms ms', forallb all_ordinary ms' = true -> ordinary_additions ms ms'.
Proof.
  intros ms ms' H.
  assert (K : forall l ch k, reach l ch k -> forallb all_ordinary l = true -> all_ordinary k = true).
  { intros l ch k R. induction R as [l m Hm|l m ch k Hm R IH]; intros E; rewrite forallb_forall in E; specialize (E m Hm); [exact E|]. apply IH.
    destruct m as [a b c subs cl tv fn pr d ip sr]. cbn [all_ordinary m_subs] in *. now apply andb_true_iff in E as [_ E]. }
  assert (A : forall k, all_ordinary k = true -> (forall f, In f (m_functions k) -> ordinary_end (fn_name f)) /\ forall c f, In c (m_classes k) -> In f (cl_methods c) -> ordinary_end (fn_name f)).
  { intros [a b c subs cl tv fn pr d ip sr] E. cbn [all_ordinary m_functions m_classes] in *. apply andb_true_iff in E as [E _]. apply andb_true_iff in E as [E1 E2]. rewrite forallb_forall in E1, E2. split.
    - intros f Hf. apply ordinary_endb_ok. now apply E1.
    - intros c0 f Hc Hf. apply ordinary_endb_ok. specialize (E2 c0 Hc). rewrite forallb_forall in E2. now apply E2. }
  split.
  - intros ch f _ (k & R & Hf). right. now apply (A k (K _ _ _ R H)).
  - intros ch c c' f _ (k & R & Hc) _ Hf. right. now apply (proj2 (A k (K _ _ _ R H)) c').
Qed.
Definition w_open : world :=
  world_of [at_ "pkg" 2%N; at_ "pkg.sub" 8%N; at_ "pkg._impl" 10%N]
    [none_ob; str_ob "pkg";
     module_ob "pkg" [at_ "__name__" 1%N; at_ "__path__" 1%N; at_ "f" 3%N; at_ "_g" 4%N; at_ "C" 5%N; at_ "h" 11%N; at_ "k" 13%N] (Some (map u ["f"; "_g"]%string)) [u "sub"; u "_impl"];
     fn_ob 1 (sig [par "x" (Some "pkg.C"%string)] None); fn_ob 1 (sig [] None);
     class_ob 1 [at_ "__init__" 6%N; at_ "m" 6%N; at_ "_n" 6%N] [(u "m", StoredOther); (u "_n", StoredOther)]; fn_ob 1 (sig [par "self" None] None);
     str_ob "pkg.sub"; module_ob "pkg.sub" [at_ "__name__" 7%N; at_ "_q" 15%N; at_ "p" 15%N] None [];
     str_ob "pkg._impl"; module_ob "pkg._impl" [at_ "__name__" 9%N] None [];
     fn_ob 12 (sig [] None); str_ob "_low"; fn_ob 14 (sig [] None); str_ob "other"; fn_ob 7 (sig [] None)].
Definition ox : penv := env_of w_open.
Definition ox' : penv := open_run rev_order ox.
Example C81_ex : uni_ok (pe_uni ox) /\ order_ok (pe_ord ox) /\ order_ok rev_order /\ honest (pe_uni ox) (pe_world ox) /\ own_submodules (pe_world ox) /\ names_differ (pe_world ox) /\ asked_modules (pe_world ox) fx_pkg /\
  ends_ok fx_pkg ox /\ ends_ok fx_pkg ox' /\ ordinary_additions (fx_forest ox fx_pkg) (fx_forest ox' fx_pkg) /\ traverse_submodules (pe_cfg ox) = true /\
  (forall m k, In m (fx_forest ox' fx_pkg) -> within k m -> one_meaning (pe_uni ox) (all_types (fx_forest ox' fx_pkg)) k) /\
  (forall m k, In m (fx_forest ox' fx_pkg) -> within k m -> forall j, In j (m_prelude k) -> counterpart k j -> rust_ident (pe_uni ox) j).
Proof.
  split; [exact uni_ascii_ok|]. split; [exact fx_order_ok|]. split; [exact rev_order_ok|]. split; [apply honestb_ok; vm_compute; reflexivity|]. split; [apply own_submodulesb_ok; vm_compute; reflexivity|].
  split; [apply differb_ok; vm_compute; reflexivity|]. split; [intros r o [<-|[]] [E|[]]; injection E as <-; reflexivity|]. split; [repeat split; vm_compute; reflexivity|]. split; [repeat split; vm_compute; reflexivity|].
  split; [apply all_ordinary_ok; vm_compute; reflexivity|]. split; [reflexivity|]. split; [apply all_meant_ok; vm_compute; reflexivity|]. apply all_spelled_ok. vm_compute. reflexivity.
Qed.
Example C81_ex_names :
  map names_in (cg_modules (fx_codegen ox fx_pkg)) = [map (map u) [["f"]; ["C"]; ["__init__"; "m"]; ["k"]; ["sub"]]%string] /\
  map names_in (cg_modules (fx_codegen ox' fx_pkg)) = [map (map u) [["f"; "_g"]; ["C"]; ["__init__"; "m"; "_n"]; ["h"; "k"]; ["_impl"; "sub"]]%string] /\
  named_uses (body_of "pkg" (fx_output ox fx_pkg)) = [(u "call", [u "f"])] /\ named_uses (body_of "pkg" (fx_output ox' fx_pkg)) = [(u "call", map u ["f"; "_g"]%string)].
Proof. repeat split; vm_compute; reflexivity. Qed.

(** ** What does change
    [opened x l]: all conditions but those on names and that packages have their own submodules. *)
Definition opened (x : penv) (l : list request) : Prop :=
  order_ok (pe_ord x) /\ honest (pe_uni x) (pe_world x) /\ names_differ (pe_world x) /\ asked_modules (pe_world x) l /\ pe_cfg x = default_config /\
  ends_ok l x /\ ends_ok l (open_run (pe_ord x) x).
Ltac open :=
  split; [exact fx_order_ok|]; split; [apply honestb_ok; vm_compute; reflexivity|]; split; [apply differb_ok; vm_compute; reflexivity|];
  split; [intros r o Hr Ha; repeat (destruct Hr as [<-|Hr]; [destruct Ha as [E|[]]; injection E as <-; reflexivity|]); destruct Hr|];
  split; [reflexivity|]; split; repeat split; vm_compute; reflexivity.
(** [pkg] takes the function [tool] from [_low] and has a submodule [pkg.tool]. If private names are included, the submodule is lost, with all that it has. *)
Definition w_covered : world :=
  w_pkg [at_ "tool" 3%N] [u "tool"] [at_ "pkg.tool" 6%N]
    [mk_ob [at_ "__doc__" 0%N; at_ "__module__" 4%N; at_ "__name__" 7%N] (u "<function>") (facts "function" false false false true false no_sub "<class 'function'>") (Some (sig [] None)) [] [] None [];
     str_ob "_low"; str_ob "pkg.tool"; module_ob "pkg.tool" [at_ "__name__" 5%N; at_ "q" 8%N] None []; str_ob "tool"; fn_ob 5 (sig [] None)].
Theorem C81_hidden_refuted : exists x l, opened x l /\
  map (fun m => map m_name (m_subs m)) (fx_forest x l) = [[mk_path false [u "pkg"; u "tool"]]] /\ map m_subs (fx_forest (open_run (pe_ord x) x) l) = [[]].
Proof. exists (env_of w_covered), fx_pkg. split; [open|]. split; vm_compute; reflexivity. Qed.
Print Assumptions C81_hidden_refuted.
(** The module [_m] has a variable [n] and a function [set_n]. Without private names, the variable has a setter; with them, it does not, as the function has its name. *)
Definition w_inner : world := world_of [at_ "_m" 2%N] [none_ob; str_ob "_m"; module_ob "_m" [at_ "__name__" 1%N; at_ "n" 4%N; at_ "set_n" 3%N] None []; fn_ob 1 (sig [] None); int_ob].
(** What the functions [n] and [set_n] do: [true] for a call *)
Definition fn_kinds (k : list frag) : list (ident * bool) := filter (fun e => mem_str (fst e) (map u ["n"; "set_n"]%string)) (map (fun d => (k_name (f_contract d), match f_body d with BCallMethod _ _ => true | _ => false end)) (px_fns k)).
Theorem C81_setter_refuted : exists x l, opened x l /\ own_submodules (pe_world x) /\ l = [AddName (u "_m")] /\
  fn_kinds (body_of "_m" (fx_output x l)) = [(u "n", false); (u "set_n", false)] /\ fn_kinds (body_of "_m" (fx_output (open_run (pe_ord x) x) l)) = [(u "set_n", true); (u "n", false)].
Proof.
  exists (env_of w_inner), [AddName (u "_m")]. split; [open|]. split; [apply own_submodulesb_ok; vm_compute; reflexivity|]. split; [reflexivity|]. split; vm_compute; reflexivity.
Qed.
Print Assumptions C81_setter_refuted.
(** A class with a constructor inherits a method [new] from a class in [_low]: with private names, the constructor changes its name, and [new] is the method. *)
Definition w_inherits : world := w_pkg [at_ "C" 3%N] [] []
  [class_ob 1 [at_ "__init__" 4%N; at_ "new" 5%N] [(u "new", StoredOther)]; fn_ob 1 (sig [par "self" None; par "n" (Some "int"%string)] None); fn_ob 6 (sig [par "self" None] None); str_ob "_low"].
Theorem C81_new_refuted : exists x l, opened x l /\ own_submodules (pe_world x) /\
  full_methods (fx_output x l) = [u "new"] /\ full_methods (fx_output (open_run (pe_ord x) x) l) = map u ["new1"; "new"; "__doc__"; "__module__"]%string.
Proof. exists (env_of w_inherits), fx_pkg. split; [open|]. split; [apply own_submodulesb_ok; vm_compute; reflexivity|]. split; vm_compute; reflexivity. Qed.
Print Assumptions C81_new_refuted.
(** [f(x: pkg._C)]: the function takes any object; with private names, it takes instances of [_C] only. *)
Definition w_inner_class : world := w_pkg [at_ "_C" 3%N; at_ "f" 4%N] [] [] [class_ob 1 [] []; fn_ob 1 (sig [par "x" (Some "pkg._C"%string)] None)].
Theorem C81_type_refuted : exists x l, opened x l /\ own_submodules (pe_world x) /\
  params_of "f" (body_of "pkg" (fx_output x l)) = [[(u "p_x", into_py_of "PyAny")]] /\
  params_of "f" (body_of "pkg" (fx_output (open_run (pe_ord x) x) l)) = [[(u "p_x", RRef (RBound (RLocal (mk_path false [u "_C"]))))]].
Proof. exists (env_of w_inner_class), fx_pkg. split; [open|]. split; [apply own_submodulesb_ok; vm_compute; reflexivity|]. split; vm_compute; reflexivity. Qed.
Print Assumptions C81_type_refuted.
(** [__all__] lists the functions [f] and [_], which is no identifier in Rust: with private names there is no prelude. *)
Definition w_gettext : world := w_listed [at_ "f" 3%N; at_ "_" 3%N; at_ "h" 3%N] ["f"; "_"]%string [plain_fn].
Theorem C81_prelude_refuted : exists x l, opened x l /\ own_submodules (pe_world x) /\
  named_uses (body_of "pkg" (fx_output x l)) = [(u "call", [u "f"])] /\ named_uses (body_of "pkg" (fx_output (open_run (pe_ord x) x) l)) = [].
Proof. exists (env_of w_gettext), fx_pkg. split; [open|]. split; [apply own_submodulesb_ok; vm_compute; reflexivity|]. split; vm_compute; reflexivity. Qed.
Print Assumptions C81_prelude_refuted.
