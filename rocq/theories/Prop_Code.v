(** * Property theorems: what the written file does when it runs (C70) *)
From Verif Require Import Base Model_Ident Model_Path Model_Import Model_Text Model_Config Model_Type Model_IntoRs Model_World Model_Out Model_Function Model_Property
  Model_Class Model_Module Model_Parse Model_Codegen Model_Build Spec_Path Spec_Names Spec_Call Spec_Items Spec_Tree Spec_Api Spec_Out Spec_Attr Spec_Doc Spec_Full Spec_Acts Spec_Lex Spec_Code Spec_Behave
  Model_Token Model_Print Example_World Example_Honest Proof_Base Proof_Io Proof_Behave Prop_Items Prop_Forest Prop_Attr Prop_Acts Prop_Clash Prop_Check Prop_Grammar.

(** ** C70
    The text is read as Rust, its functions are run step by step, and an interpreter that answers imports and attributes as Python does is asked.
    Missing: the same as in C65 and C69, and two parameters may have the same name (C29). *)
Theorem C70_read_partial : forall x numpy fuel l c out odd, uni_ok (pe_uni x) -> order_ok (pe_ord x) -> honest (pe_uni x) (pe_world x) -> asked_modules (pe_world x) l ->
  asks x fuel l cg_new = Ok c -> (forall ms m k, final_modules x fuel c = Ok ms -> In m ms -> within k m -> variables_named (pe_uni x) k) ->
  (forall a, odd a = true -> scalar a = true) -> cg_generate x numpy fuel c = Ok out ->
  exists items, read_file (pe_uni x) (text odd out) = Some items.
Proof. intros x numpy fuel l c out odd HU Ho Hw Hl Hc Hv Hs Hg. eexists. exact (output_read x Ho Hw numpy fuel l c out Hl Hc Hg HU Hv odd Hs). Qed.
Print Assumptions C70_read_partial.
(** Every function of the text, wherever it stands, does to Python what it is there for. *)
Theorem C70_runs_partial : forall x numpy fuel l c out odd, uni_ok (pe_uni x) -> order_ok (pe_ord x) -> honest (pe_uni x) (pe_world x) -> asked_modules (pe_world x) l ->
  asks x fuel l cg_new = Ok c -> (forall ms m k, final_modules x fuel c = Ok ms -> In m ms -> within k m -> variables_named (pe_uni x) k) ->
  (forall a, odd a = true -> scalar a = true) -> cg_generate x numpy fuel c = Ok out ->
  forall items ns its w f, read_file (pe_uni x) (text odd out) = Some items -> inside_mod items ns its -> is_fn_of its w f -> distinct_params f ->
  fn_runs x ns w f \/ w = OfModule /\ embeds_source l ns f.
Proof.
  intros x numpy fuel l c out odd HU Ho Hw Hl Hc Hv Hs Hg items ns its w f. destruct (final_modules x fuel c) as [ms| | |] eqn:Hf; [|unfold cg_generate in Hg; rewrite Hf in Hg; discriminate..].
  rewrite <- Hf in Hv. exact (output_runs x Ho Hw numpy fuel l c ms out Hl Hc Hf Hg HU Hv odd items ns its w f Hs).
Qed.
Print Assumptions C70_runs_partial.
(** And every function that was generated is found in the text. *)
Theorem C70_complete_partial : forall x numpy fuel l c out odd, uni_ok (pe_uni x) -> order_ok (pe_ord x) -> honest (pe_uni x) (pe_world x) -> asked_modules (pe_world x) l ->
  asks x fuel l cg_new = Ok c -> (forall ms m k, final_modules x fuel c = Ok ms -> In m ms -> within k m -> variables_named (pe_uni x) k) ->
  (forall a, odd a = true -> scalar a = true) -> cg_generate x numpy fuel c = Ok out ->
  forall items ns k, read_file (pe_uni x) (text odd out) = Some items -> at_path out ns k ->
  exists its, inside_mod items ns its /\ (forall w d, has_fn k w d -> exists f, is_fn_of its w f /\ presents d f) /\
    (embeds k <> [] -> exists f, is_fn_of its OfModule f /\ r_name f = u "pyo3_embed_python_source_code").
Proof. intros x numpy fuel l c out odd HU Ho Hw Hl Hc Hv Hs Hg items ns k. exact (output_complete x Ho Hw numpy fuel l c out Hl Hc Hg HU Hv odd items ns k Hs). Qed.
Print Assumptions C70_complete_partial.
(** What [Codegen::build] leaves in the file *)
Theorem C70_build_partial : forall x numpy fuel h l c path r ev odd, uni_ok (pe_uni x) -> order_ok (pe_ord x) -> honest (pe_uni x) (pe_world x) -> asked_modules (pe_world x) l ->
  asks x fuel l cg_new = Ok c -> (forall ms m k, final_modules x fuel c = Ok ms -> In m ms -> within k m -> variables_named (pe_uni x) k) ->
  (forall a, odd a = true -> scalar a = true) -> (forall l, h_show h l = text odd l) -> cg_build x numpy fuel h c path = (Ok r, ev) ->
  exists written items, ev = [EvWrite path written] /\ read_file (pe_uni x) written = Some items /\
    forall ns its w f, inside_mod items ns its -> is_fn_of its w f -> distinct_params f -> fn_runs x ns w f \/ w = OfModule /\ embeds_source l ns f.
Proof.
  intros x numpy fuel h l c path r ev odd HU Ho Hw Hl Hc Hn Hs Hh H. destruct (build_events _ _ _ _ _ _ _ _ H) as [(_ & _ & K) | (out & Hout & -> & _)]; [now destruct (K r)|].
  destruct (C70_read_partial x numpy fuel l c out odd HU Ho Hw Hl Hc Hn Hs Hout) as [items Hi]. exists (h_show h out), items. split; [reflexivity|]. rewrite Hh. split; [exact Hi|].
  intros ns its w f. exact (C70_runs_partial x numpy fuel l c out odd HU Ho Hw Hl Hc Hn Hs Hout items ns its w f Hi).
Qed.
Print Assumptions C70_build_partial.

(** ** Texts that are read and run *)
Fixpoint fns_in (ns : list ident) (w : owner) (i : item) : list (list ident * owner * rfn) :=
  match i with
  | IFn _ f => [(ns, w, f)]
  | IMod _ n l => flat_map (fns_in (ns ++ [n]) OfModule) l
  | IImpl _ h l => match target_of h with Some o => flat_map (fns_in ns o) l | None => [] end
  | _ => []
  end.
Definition fns_of (s : str) : list (list ident * owner * rfn) := match read_file uni_ascii s with Some l => flat_map (fns_in [] OfModule) l | None => [] end.
(** An interpreter with this world: calls give [None] (object 0) *)
Definition answers (w : world) (log : list (op oid)) (o : op oid) : option oid :=
  match o with OImport n => w_import w n | OGet a s => w_getattr w a s | _ => Some 0%N end.
Lemma answers_faithful : forall w, faithful w (answers w).
Proof. intros w log. now split. Qed.
Definition no_odd (a : char) : bool := false.
Definition try (w : world) (args : list (list (val oid))) : list (list ident * owner * str * option (result oid * list (op oid))) :=
  map (fun e => match e with (ns, o, f, l) => (ns, o, r_name f, run (answers w) f l []) end) (combine (fns_of (text no_odd (fx_output (env_of w) fx_pkg))) args).
Example C70_ex : uni_ok (pe_uni ex_env) /\ order_ok (pe_ord ex_env) /\ honest (pe_uni ex_env) (pe_world ex_env) /\ asked_modules (pe_world ex_env) ex_request /\
  asks ex_env 5 ex_request cg_new = Ok (the_codegen ex_env ex_request) /\
  (forall ms m k, final_modules ex_env 5 (the_codegen ex_env ex_request) = Ok ms -> In m ms -> within k m -> variables_named uni_ascii k) /\
  cg_generate ex_env false 5 (the_codegen ex_env ex_request) = Ok (the_output ex_env ex_request).
Proof. exact C69_ex. Qed.
(** Parameters and members of every kind; the object 20 has no attributes *)
Example C70_ex_kinds : try w_checked
   [[VPy; VGiven (AOne 7%N)]; [VPy; VGiven (AOne 8%N)]; [VObj 20%N; VGiven (ATuple [7%N; 8%N])]; [VObj 20%N]; [VObj 20%N; VGiven (AOne 7%N)];
    [VPy; VGiven (AOne 21%N); VGiven (AOne 22%N); VGiven (ATuple [23%N; 24%N]); VGiven (AOne 25%N); VGiven (AOne 26%N); VGiven (AOptDict (Some [(u "k", 27%N)]))];
    [VPy]; [VPy; VGiven (AOne 7%N)]] =
  [([u "pkg"], OfStruct (u "C"), u "new", Some (Extracted 0%N, [OImport (u "pkg"); OGet 2%N (u "C"); OCall 4%N [7%N] []]));
   ([u "pkg"], OfStruct (u "C"), u "s", Some (Extracted 0%N, [OImport (u "pkg"); OGet 2%N (u "C"); OMethod 4%N (u "s") [8%N] []]));
   ([u "pkg"], OfObject (u "C"), u "m", Some (Extracted 0%N, [OMethod 20%N (u "m") [7%N; 8%N] []]));
   ([u "pkg"], OfObject (u "C"), u "size", Some (Raised, [OGet 20%N (u "size")]));
   ([u "pkg"], OfObject (u "C"), u "set_size", Some (Finished, [OSet 20%N (u "size") 7%N]));
   ([u "pkg"], OfModule, u "f", Some (Extracted 0%N, [OImport (u "pkg");
      OMethod 2%N (u "f") [21%N; 22%N; 23%N; 24%N] [(u "k", 27%N); (u "c", 25%N); (u "d", 26%N)]]));
   ([u "pkg"], OfModule, u "n", Some (Extracted 11%N, [OImport (u "pkg"); OGet 2%N (u "n")]));
   ([u "pkg"], OfModule, u "set_n", Some (Finished, [OImport (u "pkg"); OSet 2%N (u "n") 7%N]))].
Proof. vm_compute. reflexivity. Qed.
(** A submodule, and a module with its source *)
Example C70_ex_modules : map (fun e => (fst (fst e), r_name (snd e), run (answers w_acting) (snd e) [VPy] [])) (filter (fun e => str_eqb (r_name (snd e)) (u "g")) (fns_of (text no_odd (fx_output (env_of w_acting) fx_pkg)))) =
    [([u "pkg"; u "sub"], u "g", Some (Extracted 0%N, [OImport (u "pkg"); OGet 2%N (u "sub"); OMethod 12%N (u "g") [] []]))] /\
  map (fun e => (fst (fst e), r_name (snd e), run (fun _ _ => Some 9%N) (snd e) [VPy] [])) (fns_of (text no_odd (fx_output (env_of w_sources) (fx_src "plain" 6)))) =
    [([u "plain"], u "pyo3_embed_python_source_code", Some (Finished, [OImport (u "sys"); OGet 9%N (u "modules"); OSource (u "a = 1") (u "plain/__init__.py") (u "plain"); OPut 9%N (u "plain") 9%N]))].
Proof. split; vm_compute; reflexivity. Qed.
(** One text of each pair differs from the other in one place, and does something else. *)
Definition does_what (s : String.string) : list (option (result oid * list (op oid))) := map (fun e => run (fun _ _ => Some 9%N) (snd e) [VObj 1%N; VGiven (AOne 7%N); VGiven (AOne 8%N)] []) (fns_of (u s)).
Definition method_of (body : String.string) : String.string := ("fn f< 'py > (& 'py self, a: &str, b: &str) -> ::pyo3::PyResult<i64> {" ++ body ++ "}")%string.
Definition m_with (args : String.string) : String.string :=
  method_of ("let py = self.py(); ::pyo3::types::PyAnyMethods::extract(&::pyo3::types::PyAnyMethods::call_method1(self.as_any(), ::pyo3::intern!(py, ""m""), ::pyo3::types::PyTuple::new_bound(py, [" ++ args ++ "]))?)")%string.
Definition m_set (before : String.string) : String.string := method_of ("let py = self.py(); " ++ before ++ " ::pyo3::types::PyAnyMethods::setattr(self.as_any(), ::pyo3::intern!(py, ""m""), a)")%string.
Definition obj (n : String.string) : String.string := ("::pyo3::ToPyObject::to_object(&" ++ n ++ ", py),")%string.
Example C70_ex_different : map (fun p => (does_what (fst p), does_what (snd p)))
   [(m_with (obj "a" ++ obj "b"), m_with (obj "b" ++ obj "a")); (m_with (obj "a"), m_with (obj "c")); (m_set "", m_set "let a = b;"); (m_set "", m_set "if a { let a = b; }")]%string =
  [([Some (Extracted 9%N, [OMethod 1%N (u "m") [7%N; 8%N] []])], [Some (Extracted 9%N, [OMethod 1%N (u "m") [8%N; 7%N] []])]);
   ([Some (Extracted 9%N, [OMethod 1%N (u "m") [7%N] []])], [None]);
   ([Some (Finished, [OSet 1%N (u "m") 7%N])], [Some (Finished, [OSet 1%N (u "m") 8%N])]);
   ([Some (Finished, [OSet 1%N (u "m") 7%N])], [])].
Proof. vm_compute. reflexivity. Qed.

(** A method without parameters, which Python lets one call as [C.s()]: the function asks for the attribute [s] of [C.s], and no such attribute is there (C27). *)
Definition w_static : world := w_pkg [at_ "C" 3%N] [] [] [class_ob 1 [at_ "s" 4%N] [(u "s", StoredOther)]; fn_ob 1 (sig [] None)].
Definition has_method (w : world) (log : list (op oid)) (o : op oid) : option oid :=
  match o with OMethod a s _ _ => match w_getattr w a s with Some _ => Some 0%N | None => None end | _ => answers w log o end.
Theorem C70_static_refuted : exists x c out k, runs x c out k /\ faithful (pe_world x) (has_method (pe_world x)) /\ has_method (pe_world x) [] (OMethod 3%N (u "s") [] []) = Some 0%N /\
  map (fun e => (fst e, r_name (snd e), run (has_method (pe_world x)) (snd e) [VPy] [])) (fns_of (text no_odd out)) =
    [([u "pkg"], OfStruct (u "C"), u "s", Some (Raised, [OImport (u "pkg"); OGet 2%N (u "C"); OGet 3%N (u "s"); OMethod 4%N (u "s") [] []]))].
Proof. clash w_static. split; [intros log; now split|]. split; vm_compute; reflexivity. Qed.
Print Assumptions C70_static_refuted.
