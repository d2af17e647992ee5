(** * Property theorems: the bodies of the generated functions type-check (C68) *)
From Verif Require Import Base Model_Ident Model_Path Model_Import Model_Text Model_Config Model_Type Model_IntoRs Model_World Model_Out Model_Function Model_Property
  Model_Class Model_Module Model_Parse Model_Codegen Spec_Path Spec_Names Spec_Call Spec_Rust Spec_Items Spec_Tree Spec_Api Spec_Out Spec_Attr Spec_Use Spec_Sig Spec_Check
  Example_World Example_Honest Proof_Base Proof_Check Prop_Items Prop_Forest Prop_Use Prop_Switch Prop_Clash.

(** ** C68
    Wherever a function stands in the output, its body checks exactly if nothing is wrong with the types of its signature: every variable that it uses is declared,
    the preparations apply to the types they are written for, what they give can be passed on, and the result can be extracted.
    Missing: types of which something is wrong are generated (see below), and two parameters may have the same name (C29). *)
Theorem C68_checks_partial : forall x numpy fuel l c ms out, order_ok (pe_ord x) -> honest (pe_uni x) (pe_world x) -> no_brackets (pe_world x) -> asked_modules (pe_world x) l ->
  asks x fuel l cg_new = Ok c -> final_modules x fuel c = Ok ms -> cg_generate x numpy fuel c = Ok out ->
  forall ns k pl d, at_path out ns k -> stands_at k pl d -> NoDup (map fst (k_params (f_contract d))) ->
    (checks pl d = true <-> forall t, In t (sig_types (f_contract d)) -> sound t = true).
Proof. intros x numpy fuel l c ms out Ho Hw Hb Hl Hc Hf Hg. exact (output_checks x Ho Hw Hb numpy fuel l c ms out Hl Hc Hf Hg). Qed.
Print Assumptions C68_checks_partial.
(** The bodies use [Some] and [Vec] without a path; both keep their meaning, unless the Python module itself has something of this name. *)
Theorem C68_names_partial : forall x numpy fuel l c ms out, uni_ok (pe_uni x) -> order_ok (pe_ord x) -> honest (pe_uni x) (pe_world x) -> asked_modules (pe_world x) l ->
  asks x fuel l cg_new = Ok c -> final_modules x fuel c = Ok ms -> cg_generate x numpy fuel c = Ok out ->
  forall ns k pl d, at_path out ns k -> stands_at k pl d -> forall s, (s = u "Some" /\ hides_value k s) \/ (s = u "Vec" /\ hides k s) ->
    exists m m0, In m0 ms /\ within m m0 /\ ns = segs (m_name m) /\ in_use m s.
Proof. intros x numpy fuel l c ms out HU Ho Hw Hl Hc Hf Hg. exact (output_names x Ho Hw numpy fuel l c ms out Hl Hc Hf Hg HU). Qed.
Print Assumptions C68_names_partial.

(** A function with parameters of every kind, and a class with a constructor, a method, a static method and a property that can be set *)
Definition par_of (n : String.string) (k : N) (a : option String.string) : sig_param := mk_sig_param (u n) k (option_map (fun s => AText (u s)) a) false.
Definition w_checked : world :=
  w_pkg [at_ "f" 3%N; at_ "C" 4%N; at_ "n" 11%N] [] []
    [fn_ob 1 (sig [par_of "a" 0 (Some "int"%string); par_of "b" 1 (Some "dict[str, object]"%string); par_of "args" 2 None; par_of "c" 3 (Some "Optional[dict[str, Any]]"%string);
                   par_of "d" 3 (Some "pkg.C"%string); par_of "kwargs" 4 None] (Some "set[str]"%string));                                                         (* 3 *)
     class_ob 1 [at_ "__init__" 5%N; at_ "m" 6%N; at_ "s" 7%N; at_ "size" 8%N] [(u "__init__", StoredOther); (u "m", StoredOther); (u "s", StoredStaticMethod)];  (* 4 *)
     fn_ob 1 (sig [par "self" None; par "a" (Some "list[int]"%string)] None); fn_ob 1 (sig [par "self" None; par_of "args" 2 None] (Some "bytes"%string));          (* 5, 6 *)
     fn_ob 1 (sig [par "b" (Some "tuple[int, str]"%string)] (Some "pkg.C"%string));                                                                                (* 7 *)
     prop_ob [at_ "fget" 9%N; at_ "fset" 10%N];                                                                                                                    (* 8 *)
     fn_ob 1 (sig [par "self" None] (Some "dict[str, Any]"%string)); fn_ob 1 (sig [par "self" None; par "v" (Some "dict[str, Any]"%string)] None); int_ob].        (* 9, 10, 11 *)
(** Functions with their places *)
Definition placed (k : list frag) : list (place * fn_def) :=
  flat_map (fun y => match y with
    | GFn d => [(AtModule, d)]
    | GImpl _ b => flat_map (fun z => match z with GFn d => [(InImpl, d)] | _ => [] end) b
    | GImplFor _ _ b => flat_map (fun z => match z with GFn d => [(InTrait, d)] | _ => [] end) b
    | _ => [] end) k.
Lemma placed_ok : forall k pl d, In (pl, d) (placed k) <-> stands_at k pl d.
Proof.
  intros k pl d. unfold placed. rewrite in_flat_map.
  assert (K : forall p0 b, In (pl, d) (flat_map (fun z => match z with GFn d => [(p0, d)] | _ => [] end) b) <-> p0 = pl /\ In (GFn d) b).
  { intros p0 b. rewrite in_flat_map. split.
    - intros (z & Hz & H). destruct z; try (now destruct H). destruct H as [H|[]]. injection H as -> ->. now split.
    - intros [-> H]. exists (GFn d). split; [exact H|now left]. }
  split.
  - intros (y & Hy & H). destruct y; try (now destruct H).
    + destruct H as [H|[]]. injection H as <- <-. exact Hy.
    + apply K in H as [<- H]. eexists _, _. split; [exact Hy|exact H].
    + apply K in H as [<- H]. eexists _, _, _. split; [exact Hy|exact H].
  - destruct pl; cbn [stands_at].
    + intros H. exists (GFn d). split; [exact H|now left].
    + intros (n & b & H & Hd). exists (GImpl n b). split; [exact H|]. apply K. now split.
    + intros (t & n & b & H & Hd). exists (GImplFor t n b). split; [exact H|]. apply K. now split.
Qed.
Definition bracketless (s : str) : bool := negb (existsb (N.eqb 91) s).
Lemma bracketless_ok : forall s, bracketless s = true -> ~ In 91%N s.
Proof. intros s H K. unfold bracketless in H. rewrite negb_true_iff in H. assert (E : existsb (N.eqb 91) s = true) by (apply existsb_exists; exists 91%N; now split). congruence. Qed.
Definition no_bracketsb (objs : list ob) : bool := forallb (fun o => bracketless (ob_name o) && forallb (fun e => bracketless (fst e)) (ob_attrs o)) objs.
Lemma no_bracketsb_ok : forall imports objs, no_bracketsb objs = true -> no_brackets (world_of imports objs).
Proof.
  intros imports objs H.
  assert (A : forall o, bracketless (ob_name (ob_at objs o)) && forallb (fun e => bracketless (fst e)) (ob_attrs (ob_at objs o)) = true).
  { intros o. unfold ob_at. destruct (nth_in_or_default (N.to_nat o) objs none_ob) as [K| ->]; [|reflexivity]. unfold no_bracketsb in H. rewrite forallb_forall in H. exact (H _ K). }
  split.
  - intros o _. cbn. specialize (A o). apply andb_true_iff in A as [A _]. now apply bracketless_ok.
  - intros o s Hs. cbn in Hs. apply in_map_iff in Hs as (e & <- & He). specialize (A o). apply andb_true_iff in A as [_ A]. rewrite forallb_forall in A. apply bracketless_ok. now apply A.
Qed.
Definition audit (k : list frag) : list (str * bool * bool * bool) :=
  map (fun e => (k_name (f_contract (snd e)), checks (fst e) (snd e), forallb sound (sig_types (f_contract (snd e))), distinct (map fst (k_params (f_contract (snd e)))))) (placed k).
Example C68_ex : let x := env_of w_checked in let out := fx_output x fx_pkg in
  uni_ok (pe_uni x) /\ order_ok (pe_ord x) /\ honest (pe_uni x) (pe_world x) /\ no_brackets (pe_world x) /\ asked_modules (pe_world x) fx_pkg /\
  asks x 5 fx_pkg cg_new = Ok (fx_codegen x fx_pkg) /\ final_modules x 5 (fx_codegen x fx_pkg) = Ok (fx_forest x fx_pkg) /\ cg_generate x false 5 (fx_codegen x fx_pkg) = Ok out /\
  at_path out [u "pkg"] (px_body out) /\ (forall pl d, In (pl, d) (placed (px_body out)) -> stands_at (px_body out) pl d) /\
  map (fun e => (k_name (f_contract (snd e)), fst e)) (placed (px_body out)) =
    [(u "new", InImpl); (u "s", InImpl); (u "m", InTrait); (u "size", InTrait); (u "set_size", InTrait); (u "f", AtModule); (u "n", AtModule); (u "set_n", AtModule)] /\
  (forall e, In e (audit (px_body out)) -> e = (fst (fst (fst e)), true, true, true)).
Proof.
  cbv zeta. split; [exact uni_ascii_ok|]. split; [exact fx_order_ok|]. split; [apply honestb_ok; vm_compute; reflexivity|]. split; [apply no_bracketsb_ok; vm_compute; reflexivity|].
  split; [intros r o [<-|[]] [E|[]]; injection E as <-; reflexivity|].
  do 3 (split; [vm_compute; reflexivity|]). split; [apply bodies_ok; vm_compute; tauto|]. split; [intros pl d; exact (proj1 (placed_ok _ pl d))|]. split; [vm_compute; reflexivity|].
  set (b := audit _). vm_compute in b. subst b. intros e He. repeat (destruct He as [<-|He]; [reflexivity|]). destruct He.
Qed.

(** Three annotations whose types have something wrong, so the functions do not check: a set of sets, an address (its path does not exist), and a tuple that is too long *)
Definition w_unsound : world :=
  w_pkg [at_ "f" 3%N; at_ "g" 4%N; at_ "h" 5%N; at_ "ok" 6%N] [] []
    [fn_ob 1 (sig [par "a" (Some "set[frozenset[int]]"%string)] None); fn_ob 1 (sig [] (Some "ipaddress.IPv4Address"%string));
     fn_ob 1 (sig [par "t" (Some "tuple[int, int, int, int, int, int, int, int, int, int, int, int, int]"%string)] None); fn_ob 1 (sig [par "a" (Some "set[int]"%string)] None)].
Theorem C68_unsound_refuted : exists x c out k, runs x c out k /\ no_brackets (pe_world x) /\
  audit k = [(u "f", false, false, true); (u "g", false, false, true); (u "h", false, false, true); (u "ok", true, true, true)].
Proof. clash w_unsound. split; [apply no_bracketsb_ok; vm_compute; reflexivity|vm_compute; reflexivity]. Qed.
Print Assumptions C68_unsound_refuted.
(** A class of the name [C[0]] (which [setattr] allows): the type of the parameter is looked up without the bracket and is not found, the conversion is looked up with it and is written. *)
Definition w_bracket : world := w_pkg [at_ "C[0]" 3%N; at_ "f" 4%N] [] [] [class_ob 1 [] []; fn_ob 1 (sig [par "c" (Some "pkg.C[0]"%string)] None)].
Theorem C68_bracket_refuted : exists x c out k, runs x c out k /\ audit k = [(u "f", false, true, true)].
Proof. clash w_bracket. vm_compute. reflexivity. Qed.
Print Assumptions C68_bracket_refuted.
(** A function whose first parameter is called [self] and whose second one has the name that this one is given *)
Definition w_two_selves : world := w_pkg [at_ "f" 3%N] [] [] [fn_ob 1 (sig [par "self" None; par "__unknown_self__" None] None)].
Theorem C68_twice_refuted : exists x c out k, runs x c out k /\ no_brackets (pe_world x) /\ audit k = [(u "f", false, true, false)].
Proof. clash w_two_selves. split; [apply no_bracketsb_ok; vm_compute; reflexivity|vm_compute; reflexivity]. Qed.
Print Assumptions C68_twice_refuted.
(** The package has a function [Some]: the body of [f], which passes [Some(&kwargs)], calls it. *)
Definition w_some : world := w_pkg [at_ "Some" 3%N; at_ "f" 4%N] [] [] [fn_ob 1 (sig [] None); fn_ob 1 (sig [par_of "k" 3 None] None)].
Definition names_fn (i : ident) (k : list frag) : bool := existsb (fun y => match y with GFn d => str_eqb (k_name (f_contract d)) i | _ => false end) k.
Lemma hidden_fn : forall k i, names_fn i k = true -> hides_value k i.
Proof. intros k i H. apply existsb_exists in H as (y & Hy & E). left. destruct y; try discriminate. apply str_eqb_eq in E. eauto. Qed.
Theorem C68_capture_refuted : exists x c out k, runs x c out k /\ hides_value k (u "Some") /\
  map (fun e => (k_name (f_contract (snd e)), uses_some (snd e))) (placed k) = [(u "Some", false); (u "f", true)].
Proof.
  clash w_some. split; [apply hidden_fn; vm_compute; reflexivity|vm_compute; reflexivity].
Qed.
Print Assumptions C68_capture_refuted.
