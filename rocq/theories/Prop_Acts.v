(** * Property theorems: what the generated functions act on (C65) *)
From Verif Require Import Base Model_Ident Model_Path Model_Import Model_Text Model_Config Model_Type Model_IntoRs Model_World Model_Out Model_Function Model_Property
  Model_Class Model_Module Model_Parse Model_Codegen Spec_Path Spec_Names Spec_Call Spec_Items Spec_Tree Spec_Api Spec_Out Spec_Prop Spec_Attr Spec_Doc Spec_Full Spec_Acts
  Example_World Example_Honest Proof_Base Proof_Acts Prop_Items Prop_Forest Prop_Attr Prop_Doc.

(** ** C65
    Every function of the output, at every depth, looks up the object at its own path, applies to the attribute it is named after, and passes its arguments as meant;
    the functions of a struct and its trait do so for the class that stands at the path in the struct's macros.
    Missing: a module must be an attribute of its package for the lookup to find it (see below), and a method without parameters looks itself up (C27). *)
Theorem C65_acts_partial : forall x numpy fuel l c out, uni_ok (pe_uni x) -> order_ok (pe_ord x) -> honest (pe_uni x) (pe_world x) -> asked_modules (pe_world x) l ->
  asks x fuel l cg_new = Ok c -> cg_generate x numpy fuel c = Ok out ->
  forall ns k y, at_path out ns k -> In y k -> acts (passing x) x ns k y.
Proof. intros x numpy fuel l c out HU. exact (output_acts (passing x) x numpy fuel l c out (kept_passing x numpy HU) HU). Qed.
Print Assumptions C65_acts_partial.

(** A package with a function, a class that has a constructor, a method, a static method and a property, and a submodule with a function *)
Definition w_acting : world :=
  world_of [at_ "pkg" 2%N; at_ "pkg.sub" 12%N]
    [none_ob; str_ob "pkg"; module_ob "pkg" [at_ "__name__" 1%N; at_ "__path__" 1%N; at_ "f" 3%N; at_ "C" 4%N; at_ "sub" 12%N] None [u "sub"];
     fn_ob 1 (sig [par "a" None] None);
     class_ob 1 [at_ "__init__" 5%N; at_ "m" 6%N; at_ "s" 7%N; at_ "size" 8%N] [(u "__init__", StoredOther); (u "m", StoredOther); (u "s", StoredStaticMethod)];
     fn_ob 1 (sig [par "self" None; par "a" None] None); fn_ob 1 (sig [par "self" None] None); fn_ob 1 (sig [par "b" None] None); prop_ob [at_ "fget" 9%N];
     fn_ob 1 (sig [par "self" None] None); str_ob "pkg.sub"; fn_ob 10 (sig [] None);
     module_ob "pkg.sub" [at_ "__name__" 10%N; at_ "g" 11%N] None []].
(** The name of each function, what it looks up, and the attribute it uses *)
Definition applied (l : list frag) : list (str * option lookup * str) :=
  flat_map (fun f => match f with
    | GFn d => [(k_name (f_contract d), match f_disp d with DImport l => Some l | DSelf => None end, match f_body d with BCall _ => [] | BCallMethod n _ => n | BGet n => n | BSet n _ => n end)]
    | _ => [] end) l.
Definition in_impls (l : list frag) : list frag := flat_map (fun f => match f with GImpl _ b => b | _ => [] end) l.
Example C65_ex : let x := env_of w_acting in let out := fx_output x fx_pkg in
  uni_ok (pe_uni x) /\ order_ok (pe_ord x) /\ honest (pe_uni x) (pe_world x) /\ asked_modules (pe_world x) fx_pkg /\
  asks x 5 fx_pkg cg_new = Ok (fx_codegen x fx_pkg) /\ cg_generate x false 5 (fx_codegen x fx_pkg) = Ok out /\
  applied (inside out) = [(u "f", Some (mk_lookup (u "pkg") []), u "f")] /\
  applied (in_impls (inside out)) = [(u "new", Some (mk_lookup (u "pkg") [u "C"]), []); (u "s", Some (mk_lookup (u "pkg") [u "C"]), u "s")] /\
  applied (trait_impls (inside out)) = [(u "m", None, u "m"); (u "size", None, u "size")] /\
  applied (inside (inside out)) = [(u "g", Some (mk_lookup (u "pkg") [u "sub"]), u "g")] /\
  bound_in_parent w_acting [u "pkg"; u "sub"] 12%N.
Proof.
  cbv zeta. split; [exact uni_ascii_ok|]. split; [exact ax_order_ok|]. split; [apply honestb_ok; vm_compute; reflexivity|].
  split; [intros r o [<-|[]] [E|[]]; injection E as <-; reflexivity|].
  do 6 (split; [vm_compute; reflexivity|]). split; [reflexivity|]. intros q s E Hq. apply (app_inj_tail [u "pkg"] q (u "sub") s) in E as [<- <-].
  exists 2%N. split; reflexivity.
Qed.

(** The lookup of a module goes through its package: it finds whatever the package has under that name. *)
Definition w_hidden : world :=
  world_of [at_ "pkg" 2%N; at_ "pkg.sub" 5%N]
    [none_ob; str_ob "pkg"; module_ob "pkg" [at_ "__name__" 1%N; at_ "__path__" 1%N; at_ "sub" 3%N] None [];
     fn_ob 1 (sig [] None); str_ob "pkg.sub"; module_ob "pkg.sub" [at_ "__name__" 4%N; at_ "g" 6%N] None []; fn_ob 4 (sig [] None)].
Definition fx_sub : list request := [AddName (u "pkg.sub")].
Theorem C65_hidden_refuted : exists x o a L, order_ok (pe_ord x) /\ honest (pe_uni x) (pe_world x) /\ asked_modules (pe_world x) fx_sub /\
  cg_generate x false 5 (fx_codegen x fx_sub) = Ok (fx_output x fx_sub) /\
  w_import (pe_world x) (u "pkg.sub") = Some o /\ w_getattr (pe_world x) o (u "g") <> None /\
  applied (inside (inside (fx_output x fx_sub))) = [(u "g", Some L, u "g")] /\ finds (pe_world x) L a /\ a <> o /\ w_getattr (pe_world x) a (u "g") = None.
Proof.
  exists (env_of w_hidden), 5%N, 3%N, (mk_lookup (u "pkg") [u "sub"]). split; [exact ax_order_ok|]. split; [apply honestb_ok; vm_compute; reflexivity|].
  split; [intros r o [<-|[]] [E|[]]; injection E as <-; reflexivity|]. split; [vm_compute; reflexivity|]. split; [reflexivity|]. split; [discriminate|].
  split; [vm_compute; reflexivity|]. split; [|split; [discriminate|reflexivity]].
  exists 2%N. split; [reflexivity|]. econstructor; [reflexivity|constructor].
Qed.
Print Assumptions C65_hidden_refuted.
(** If importing the package does not load the submodule, and nothing else has, the lookup finds nothing although the module can be imported. *)
Definition w_unloaded : world :=
  world_of [at_ "pkg" 2%N; at_ "pkg.sub" 4%N]
    [none_ob; str_ob "pkg"; module_ob "pkg" [at_ "__name__" 1%N; at_ "__path__" 1%N] None [u "sub"];
     str_ob "pkg.sub"; module_ob "pkg.sub" [at_ "__name__" 3%N; at_ "g" 5%N] None []; fn_ob 3 (sig [] None)].
Theorem C65_unloaded_refuted : exists x o L, order_ok (pe_ord x) /\ honest (pe_uni x) (pe_world x) /\ asked_modules (pe_world x) fx_pkg /\
  cg_generate x false 5 (fx_codegen x fx_pkg) = Ok (fx_output x fx_pkg) /\
  w_import (pe_world x) (u "pkg.sub") = Some o /\ w_getattr (pe_world x) o (u "g") <> None /\
  applied (inside (inside (fx_output x fx_pkg))) = [(u "g", Some L, u "g")] /\ forall a, ~ finds (pe_world x) L a.
Proof.
  exists (env_of w_unloaded), 4%N, (mk_lookup (u "pkg") [u "sub"]). split; [exact ax_order_ok|]. split; [apply honestb_ok; vm_compute; reflexivity|].
  split; [intros r o [<-|[]] [E|[]]; injection E as <-; reflexivity|]. split; [vm_compute; reflexivity|]. split; [reflexivity|]. split; [discriminate|].
  split; [vm_compute; reflexivity|]. intros a (m & E & R). injection E as <-. inversion R; subst. discriminate.
Qed.
Print Assumptions C65_unloaded_refuted.
