(** * Property theorems: the declarations in the written file (C71) *)
From Verif Require Import Base Model_Ident Model_Path Model_Import Model_Text Model_Config Model_Type Model_IntoRs Model_World Model_Out Model_Function Model_Property
  Model_Class Model_Module Model_Parse Model_Codegen Model_Build Spec_Path Spec_Names Spec_Call Spec_Items Spec_Rust Spec_Tree Spec_Api Spec_Out Spec_Attr Spec_Doc Spec_Full Spec_Use Spec_Lex Spec_Code
  Model_Token Model_Print Example_World Example_Honest Proof_Base Proof_Io Proof_Stated Prop_Items Prop_Forest Prop_Attr Prop_Acts Prop_Clash Prop_Check Prop_Doc Prop_Sig Prop_Grammar Prop_Code Spec_Decl.

(** ** C71
    The text is read as Rust declarations, with their attributes, visibility and types.
    It states what was generated, nothing more and nothing less. *)
Theorem C71_read_partial : forall x numpy fuel l c out odd, uni_ok (pe_uni x) -> order_ok (pe_ord x) -> honest (pe_uni x) (pe_world x) -> asked_modules (pe_world x) l ->
  asks x fuel l cg_new = Ok c -> (forall ms m k, final_modules x fuel c = Ok ms -> In m ms -> within k m -> variables_named (pe_uni x) k) ->
  (forall a, odd a = true -> scalar a = true) -> cg_generate x numpy fuel c = Ok out ->
  read_decls (pe_uni x) (text odd out) = Some (states_all plain out).
Proof. intros x numpy fuel l c out odd HU Ho Hw Hl Hc Hv Hs Hg. exact (output_decls x HU Ho Hw numpy fuel l c out Hl Hc Hv Hg odd Hs). Qed.
Print Assumptions C71_read_partial.
(** Everything can be used from outside: modules, functions, structs, traits, aliases and imports are public, members of a struct, too;
    and the attributes in front of an item are those that belong there, with the name of the struct as an alias of its trait. *)
Theorem C71_presented_partial : forall x numpy fuel l c out odd, uni_ok (pe_uni x) -> order_ok (pe_ord x) -> honest (pe_uni x) (pe_world x) -> asked_modules (pe_world x) l ->
  asks x fuel l cg_new = Ok c -> (forall ms m k, final_modules x fuel c = Ok ms -> In m ms -> within k m -> variables_named (pe_uni x) k) ->
  (forall a, odd a = true -> scalar a = true) -> cg_generate x numpy fuel c = Ok out ->
  forall ds ns k, read_decls (pe_uni x) (text odd out) = Some ds -> inside_decls ds ns k ->
  forall d, In d k -> presented (match ns with [] => true | _ => false end) k d.
Proof.
  intros x numpy fuel l c out odd HU Ho Hw Hl Hc Hv Hs Hg ds ns k Hr Hi.
  rewrite (output_decls x HU Ho Hw numpy fuel l c out Hl Hc Hv Hg odd Hs) in Hr. injection Hr as <-. destruct (inside_states _ _ _ Hi out eq_refl) as (b & Hb & ->).
  exact (output_public x HU Ho Hw numpy fuel l c out Hl Hc Hv Hg ns b Hb).
Qed.
Print Assumptions C71_presented_partial.
(** Every path in the type of a parameter or result: one of the libraries (two do not exist, C21), [Self], one that Rust knows everywhere,
    or one that leads to a struct or alias of the file, seen from the module where it is written. *)
Theorem C71_types_partial : forall x numpy fuel l c out odd, uni_ok (pe_uni x) -> order_ok (pe_ord x) -> honest (pe_uni x) (pe_world x) -> asked_modules (pe_world x) l ->
  asks x fuel l cg_new = Ok c -> (forall ms m k, final_modules x fuel c = Ok ms -> In m ms -> within k m -> variables_named (pe_uni x) k) ->
  (forall a, odd a = true -> scalar a = true) -> cg_generate x numpy fuel c = Ok out ->
  forall ds ns k, read_decls (pe_uni x) (text odd out) = Some ds -> inside_decls ds ns k ->
  forall h t g p, In h (scope_heads k) -> In t (head_types h) -> In (g, p) (ty_paths t) ->
  if g then In p library_paths \/ p = map u ["std"; "net"; "IpV4Addr"]%string \/ p = map u ["std"; "net"; "IpV6Addr"]%string
  else p = [u "Self"] \/ (exists s, p = [s] /\ In s (map u ["bool"; "u8"; "f64"; "i64"; "str"; "Vec"]%string)) \/
    (traverse_submodules (pe_cfg x) = true -> generate_classes (pe_cfg x) = true -> generate_type_vars (pe_cfg x) = true ->
     exists b i, leads_to ds ns p b i /\ (has_struct b i \/ has_alias b i)).
Proof.
  intros x numpy fuel l c out odd HU Ho Hw Hl Hc Hv Hs Hg ds ns k Hr Hi.
  rewrite (output_decls x HU Ho Hw numpy fuel l c out Hl Hc Hv Hg odd Hs) in Hr. injection Hr as <-. destruct (inside_states _ _ _ Hi out eq_refl) as (b & Hb & ->).
  intros h t g p H1 H2 H3. pose proof (output_types x HU Ho Hw numpy fuel l c out Hl Hc Hv Hg ns b h t g p Hb H1 H2 H3) as K.
  destruct g; [|exact K]. destruct K as [K|[<-|[<-|[]]]]; auto.
Qed.
Print Assumptions C71_types_partial.
(** A trait is implemented for the wrapped struct of its scope, with the same functions in the same order. *)
Theorem C71_traits_partial : forall x numpy fuel l c out odd, uni_ok (pe_uni x) -> order_ok (pe_ord x) -> honest (pe_uni x) (pe_world x) -> asked_modules (pe_world x) l ->
  asks x fuel l cg_new = Ok c -> (forall ms m k, final_modules x fuel c = Ok ms -> In m ms -> within k m -> variables_named (pe_uni x) k) ->
  (forall a, odd a = true -> scalar a = true) -> cg_generate x numpy fuel c = Ok out ->
  forall ds ns k, read_decls (pe_uni x) (text odd out) = Some ds -> inside_decls ds ns k ->
  (forall p t ty b, In (CImpl p (Some t) ty b) k -> exists tn n q defs, t = YPath false [tn] [] /\ ty = pyo3 ["Bound"%string] [YLife (u "_"); YPath false [n] []] /\
     has_struct k n /\ In (CTrait q tn defs) k /\ map snd defs = fn_heads b) /\
  (forall q tn defs, In (CTrait q tn defs) k -> exists p n b,
     In (CImpl p (Some (YPath false [tn] [])) (pyo3 ["Bound"%string] [YLife (u "_"); YPath false [n] []]) b) k /\ map snd defs = fn_heads b).
Proof.
  intros x numpy fuel l c out odd HU Ho Hw Hl Hc Hv Hs Hg ds ns k Hr Hi.
  rewrite (output_decls x HU Ho Hw numpy fuel l c out Hl Hc Hv Hg odd Hs) in Hr. injection Hr as <-. destruct (inside_states _ _ _ Hi out eq_refl) as (b & Hb & ->).
  exact (output_impls x HU Ho numpy fuel l c out Hc Hv Hg ns b Hb).
Qed.
Print Assumptions C71_traits_partial.
(** A struct wraps any Python object, is documented as the class that it is made of, and is registered with the Python path of this class. *)
Theorem C71_structs_partial : forall x numpy fuel l c out odd, uni_ok (pe_uni x) -> order_ok (pe_ord x) -> honest (pe_uni x) (pe_world x) -> asked_modules (pe_world x) l ->
  asks x fuel l cg_new = Ok c -> (forall ms m k, final_modules x fuel c = Ok ms -> In m ms -> within k m -> variables_named (pe_uni x) k) ->
  (forall a, odd a = true -> scalar a = true) -> cg_generate x numpy fuel c = Ok out ->
  none_prints (pe_world x) ->
  forall ds ns k, read_decls (pe_uni x) (text odd out) = Some ds -> inside_decls ds ns k ->
  forall p n fs, In (COther p (OStruct n fs)) k -> fs = [pyo3 ["PyAny"%string] []] /\
  exists path i a, segs path = ns /\ stands (pe_uni x) (pe_world x) (path_snoc path i) a /\ tells_of x a (docs p) /\
    In (COther plain (OMacro (u "::pyo3::pyobject_native_type_named") [MName n])) k /\
    In (COther plain (OMacro (u "::pyo3::pyobject_native_type_info")
      [MName n; MText (u "::pyo3::pyobject_native_static_type_object!(::pyo3::ffi::PyBaseObject_Type)"); MSome (to_py (path_snoc path i))])) k.
Proof.
  intros x numpy fuel l c out odd HU Ho Hw Hl Hc Hv Hs Hg Hn ds ns k Hr Hi.
  rewrite (output_decls x HU Ho Hw numpy fuel l c out Hl Hc Hv Hg odd Hs) in Hr. injection Hr as <-. destruct (inside_states _ _ _ Hi out eq_refl) as (b & Hb & ->).
  intros p n fs. exact (output_structs x HU Ho Hw numpy fuel l c out Hl Hc Hv Hg Hn ns b p n fs Hb).
Qed.
Print Assumptions C71_structs_partial.
(** A module is documented as the Python module of its path; a module without documentation may be a prelude, which has one [use] and nothing else. *)
Theorem C71_modules_partial : forall x numpy fuel l c out odd, uni_ok (pe_uni x) -> order_ok (pe_ord x) -> honest (pe_uni x) (pe_world x) -> asked_modules (pe_world x) l ->
  asks x fuel l cg_new = Ok c -> (forall ms m k, final_modules x fuel c = Ok ms -> In m ms -> within k m -> variables_named (pe_uni x) k) ->
  (forall a, odd a = true -> scalar a = true) -> cg_generate x numpy fuel c = Ok out ->
  none_prints (pe_world x) ->
  forall ds ns k, read_decls (pe_uni x) (text odd out) = Some ds -> inside_decls ds ns k ->
  forall p n b, In (CMod p n b) k ->
  (docs p = [] /\ exists names, b = [COther (mk_front true []) (OUses [u "super"] names)]) \/
  exists o, is_module (pe_world x) o /\ segs (path_from_py (pe_uni x) (w_name (pe_world x) o)) = ns ++ [n] /\ tells_of x o (docs p).
Proof.
  intros x numpy fuel l c out odd HU Ho Hw Hl Hc Hv Hs Hg Hn ds ns k Hr Hi.
  rewrite (output_decls x HU Ho Hw numpy fuel l c out Hl Hc Hv Hg odd Hs) in Hr. injection Hr as <-. destruct (inside_states _ _ _ Hi out eq_refl) as (b & Hb & ->).
  intros p n b0. exact (output_modules x Ho Hw numpy fuel l c out Hl Hc Hg Hn ns b p n b0 Hb).
Qed.
Print Assumptions C71_modules_partial.
(** Every import leads to something that the file defines, if nothing is switched off; so do the names in a prelude. *)
Theorem C71_uses_partial : forall x numpy fuel l c out odd, uni_ok (pe_uni x) -> order_ok (pe_ord x) -> honest (pe_uni x) (pe_world x) -> asked_modules (pe_world x) l ->
  asks x fuel l cg_new = Ok c -> (forall ms m k, final_modules x fuel c = Ok ms -> In m ms -> within k m -> variables_named (pe_uni x) k) ->
  (forall a, odd a = true -> scalar a = true) -> cg_generate x numpy fuel c = Ok out ->
  all_on (pe_cfg x) ->
  forall ds ns k, read_decls (pe_uni x) (text odd out) = Some ds -> inside_decls ds ns k ->
  (forall p v alias, In (COther p (OUse v alias)) k -> exists b i, leads_to ds ns v b i /\ has_name b i) /\
  (forall p v names, In (COther p (OUses v names)) k -> v = [u "super"] /\ exists q n b, ns = q ++ [n] /\ inside_decls ds q b /\ forall i, In i names -> has_name b i).
Proof.
  intros x numpy fuel l c out odd HU Ho Hw Hl Hc Hv Hs Hg On ds ns k Hr Hi.
  rewrite (output_decls x HU Ho Hw numpy fuel l c out Hl Hc Hv Hg odd Hs) in Hr. injection Hr as <-. destruct (inside_states _ _ _ Hi out eq_refl) as (b & Hb & ->).
  split.
  - intros p v alias. exact (output_uses x HU Ho Hw numpy fuel l c out Hl Hc Hv Hg On ns b p v alias Hb).
  - intros p v names. exact (output_preludes x HU Ho Hw numpy fuel l c out Hl Hc Hv Hg On ns b p v names Hb).
Qed.
Print Assumptions C71_uses_partial.
(** What [Codegen::build] leaves in the file *)
Theorem C71_build_partial : forall x numpy fuel h l c path r ev odd, uni_ok (pe_uni x) -> order_ok (pe_ord x) -> honest (pe_uni x) (pe_world x) -> asked_modules (pe_world x) l ->
  asks x fuel l cg_new = Ok c -> (forall ms m k, final_modules x fuel c = Ok ms -> In m ms -> within k m -> variables_named (pe_uni x) k) ->
  (forall a, odd a = true -> scalar a = true) -> (forall l, h_show h l = text odd l) -> cg_build x numpy fuel h c path = (Ok r, ev) ->
  exists out written, cg_generate x numpy fuel c = Ok out /\ ev = [EvWrite path written] /\ read_decls (pe_uni x) written = Some (states_all plain out).
Proof.
  intros x numpy fuel h l c path r ev odd HU Ho Hw Hl Hc Hn Hs Hh H. destruct (build_events _ _ _ _ _ _ _ _ H) as [(_ & _ & K) | (out & Hout & -> & _)]; [now destruct (K r)|].
  exists out, (h_show h out). split; [exact Hout|]. split; [reflexivity|]. rewrite Hh. exact (C71_read_partial x numpy fuel l c out odd HU Ho Hw Hl Hc Hn Hs Hout).
Qed.
Print Assumptions C71_build_partial.

(** ** Texts that are read *)
Fixpoint scope_of (l : list decl) (ns : list str) : list decl :=
  match ns with
  | [] => l
  | n :: r => scope_of (flat_map (fun d => match d with CMod _ m b => if str_eqb m n then b else [] | _ => [] end) l) r
  end.
Definition read_scope (w : world) (ns : list string) : list decl :=
  match read_decls uni_ascii (text no_odd (fx_output (env_of w) fx_pkg)) with Some l => scope_of l (map u ns) | None => [] end.
Definition public_plain : front := mk_front true [].
Definition bound (t : gty) : gty := pyo3 ["Bound"%string] [YLife (u "py"); t].
Definition named (l : list string) : gty := YPath false (map u l) [].
Definition derived : attribute := AText (u "automatically_derived").
Definition std (l : list string) (a : list gty) : gty := YPath true (u "std" :: map u l) a.
Example C71_ex : uni_ok (pe_uni ex_env) /\ order_ok (pe_ord ex_env) /\ honest (pe_uni ex_env) (pe_world ex_env) /\ asked_modules (pe_world ex_env) ex_request /\
  asks ex_env 5 ex_request cg_new = Ok (the_codegen ex_env ex_request) /\
  (forall ms m k, final_modules ex_env 5 (the_codegen ex_env ex_request) = Ok ms -> In m ms -> within k m -> variables_named uni_ascii k) /\
  cg_generate ex_env false 5 (the_codegen ex_env ex_request) = Ok (the_output ex_env ex_request).
Proof. exact C69_ex. Qed.
(** The submodule of [w_typed]: a function that takes a class of the package, a list of texts and a type variable *)
Example C71_ex_types : read_scope w_typed ["pkg"; "sub"]%string =
  [COther public_plain (OAlias (u "T") (pyo3 ["types"; "PyAny"]%string []));
   CFn public_plain (mk_head (u "g")
     [(u "py", pyo3 ["marker"; "Python"]%string [YLife (u "py")]);
      (u "p_c", YRef (bound (named ["super"; "C"]%string)));
      (u "p_l", YRef (YSlice (std ["string"; "String"]%string [])));
      (u "p_t", YRef (bound (named ["T"]%string)))]
     (pyo3 ["PyResult"]%string [named ["bool"]%string]))].
Proof. vm_compute. reflexivity. Qed.
(** The class of [w_described]: a method and a property *)
Definition any_result : gty := pyo3 ["PyResult"]%string [bound (pyo3 ["types"; "PyAny"]%string [])].
Definition on_self (n : string) : head := mk_head (u n) [(u "self", YRef (YLife (u "py")))] any_result.
Example C71_ex_class : firstn 6 (read_scope w_described ["pkg"]%string) =
  [COther (mk_front true [ADoc (u " A class."); AText (u "repr(transparent)")]) (OStruct (u "C") [pyo3 ["PyAny"]%string []]);
   COther plain (OMacro (u "::pyo3::pyobject_native_type_named") [MName (u "C")]);
   COther plain (OMacro (u "::pyo3::pyobject_native_type_info")
     [MName (u "C"); MText (u "::pyo3::pyobject_native_static_type_object!(::pyo3::ffi::PyBaseObject_Type)"); MSome (u "pkg.C")]);
   CImpl (mk_front false [derived]) None (named ["C"]%string) [];
   CTrait (mk_front true
     [ADoc (u " These methods are defined for the `Bound<'py, T>` smart pointer, so to use");
      ADoc (u " method call syntax these methods are separated into a trait, because stable");
      ADoc (u " Rust does not yet support `arbitrary_self_types`."); AAlias (u "C"); derived]) (u "CMethods")
     [(plain, on_self "m"); (plain, on_self "size")];
   CImpl (mk_front false [derived]) (Some (named ["CMethods"]%string)) (pyo3 ["Bound"]%string [YLife (u "_"); named ["C"]%string])
     [CFn (mk_front false [ADoc (u " A method.")]) (on_self "m"); CFn (mk_front false [ADoc (u " The size.")]) (on_self "size")]].
Proof. vm_compute. reflexivity. Qed.
