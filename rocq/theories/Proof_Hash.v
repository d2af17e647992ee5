(** * Lemmas: the order in which hash sets are iterated *)
From Coq Require Import Permutation.
From Verif Require Import Base Model_Ident Model_Path Model_Import Model_Text Model_Config Model_Type Model_IntoRs Model_World Model_Out
  Model_Function Model_Property Model_Class Model_Module Model_Parse Model_Codegen Spec_Path Spec_Names Spec_Call Spec_Items Spec_Tree Spec_Api Spec_Attr Spec_Hash
  Proof_Base Proof_Ident Proof_Path Proof_IntoRs Proof_Function Proof_Items Proof_Module Proof_Parse Proof_Forest Proof_Err Proof_Api Proof_Honest Proof_Attr Proof_Deps Proof_Order.

(** ** Reading submodules, one by one *)
Definition f_has (st : found) (it : item) : Prop :=
  match it with
  | AnExport _ => False
  | AnImport i => In i (fd_imports st)
  | AClass c => In c (fd_classes st)
  | ATypeVar p => In p (fd_typevars st)
  | AFunction f => In f (fd_functions st)
  | AProperty p => In p (fd_properties st)
  end.
Definition f_none : found := mk_found [] [] [] [] [] [] [].
Definition retargets (l : list (import * module)) (st : found) : found := fold_left (fun st e => retarget (fst e) (snd e) st) l st.

Lemma retarget_has : forall c m st it, f_has (retarget c m st) it <-> f_has st it \/ f_has (retarget c m f_none) it.
Proof. intros c m st [i|i|k|p|f|p]; cbn [f_has retarget fd_imports fd_classes fd_typevars fd_functions fd_properties f_none app]; rewrite ?in_app_iff; tauto. Qed.
Lemma retargets_has : forall l st it, f_has (retargets l st) it <-> f_has st it \/ exists e, In e l /\ f_has (retarget (fst e) (snd e) f_none) it.
Proof.
  induction l as [|e l IH]; intros st it; cbn [retargets fold_left]; [split; [now left|intros [H|(e & [] & _)]; exact H]|].
  change (fold_left _ l ?s) with (retargets l s). rewrite IH, retarget_has. split.
  - intros [[H|H]|(d & Hd & H)]; [now left|right; exists e; split; [now left|exact H]|right; exists d; split; [now right|exact H]].
  - intros [H|(d & [<-|Hd] & H)]; [now left; left|now left; right|right; now exists d].
Qed.
Lemma retargets_conflicts : forall l st, fd_conflicts (retargets l st) = fd_conflicts st.
Proof. induction l as [|e l IH]; intros st; [reflexivity|]. cbn [retargets fold_left]. change (fold_left _ l ?s) with (retargets l s). now rewrite IH. Qed.
Lemma retargets_app : forall l k st, retargets (l ++ k) st = retargets k (retargets l st).
Proof. intros l k st. apply fold_left_app. Qed.

Section steps.
  Variable x : penv.
  Variable rec : oid -> outcome module.
  Variables (o : oid) (name : path).
  Definition act (cfs : list import) (i : ident) : outcome (list (import * module) * list module) :=
    let full := path_snoc name i in
    match find_path im_target full cfs with
    | Some c =>
        match w_import (pe_world x) (to_py full) with
        | None => Ok ([], [])
        | Some s => match rec s with
                    | Ok m => Ok ([(c, m)], [])
                    | Err _ => Ok ([], [])
                    | Panic k => Panic k
                    | OutOfFuel => OutOfFuel
                    end
        end
    | None => match find_submodule x o full i with None => Ok ([], []) | Some s => let! m := rec s in Ok ([], [m]) end
    end.
  Lemma sub_step_act : forall st subs i, sub_step x rec o name (st, subs) i = let! r := act (fd_conflicts st) i in Ok (retargets (fst r) st, subs ++ snd r).
  Proof.
    intros st subs i. unfold sub_step, act. destruct (find_path _ _ _) as [c|].
    - destruct (w_import _ _) as [s|]; [|cbn; now rewrite app_nil_r]. destruct (rec s); cbn; now rewrite ?app_nil_r.
    - destruct (find_submodule _ _ _ _) as [s|]; [|cbn; now rewrite app_nil_r]. now destruct (rec s).
  Qed.
  Lemma sub_steps_act : forall l st subs, sub_steps x rec o name (st, subs) l =
    let! r := mapM (act (fd_conflicts st)) l in Ok (retargets (concat (map fst r)) st, subs ++ concat (map snd r)).
  Proof.
    induction l as [|i l IH]; intros st subs; cbn [sub_steps mapM]; [cbn; now rewrite app_nil_r|].
    rewrite sub_step_act. destruct (act (fd_conflicts st) i) as [[a b]|e|e|]; cbn [obind fst snd]; try reflexivity.
    rewrite IH, retargets_conflicts. destruct (mapM _ l) as [r|e|e|]; cbn [obind map concat fst snd]; try reflexivity.
    now rewrite retargets_app, app_assoc.
  Qed.
End steps.

(** ** The same module, up to order *)
Definition alike (m k : module) : Prop := forall c q, vis [m] c q <-> vis [k] c q.
Lemma alike_sym : forall m k, alike m k -> alike k m.
Proof. intros m k H c q. symmetry. apply H. Qed.
Lemma alike_name : forall m k, alike m k -> m_name m = m_name k.
Proof.
  intros m k H. assert (V : vis [m] [m_name m] None) by (apply vis_one; exists m; repeat split; now left).
  apply H, vis_one in V as (y & [<-|[]] & E & _). now symmetry.
Qed.
Lemma alike_has : forall m k it, alike m k -> has m it -> has k it.
Proof.
  intros m k it H Hm. assert (V : vis [m] [m_name m] (Some it)) by (apply vis_one; exists m; repeat split; [now left|exact Hm]).
  apply H, vis_one in V as (y & [<-|[]] & _ & Hy). exact Hy.
Qed.
Lemma alike_subs : forall m k c q, alike m k -> vis (m_subs m) c q -> vis (m_subs k) c q.
Proof.
  intros m k c q H V. destruct c as [|d c]; [now apply vis_nil in V|]. assert (W : vis [m] (m_name m :: d :: c) q) by (apply vis_cons; exists m; repeat split; [now left|exact V]).
  apply H, vis_cons in W as (y & [<-|[]] & _ & Hy). exact Hy.
Qed.
Lemma alike_intro : forall m k, m_name m = m_name k -> (forall it, has m it <-> has k it) -> (forall c q, vis (m_subs m) c q <-> vis (m_subs k) c q) -> alike m k.
Proof.
  assert (K : forall m k, m_name m = m_name k -> (forall it, has m it -> has k it) -> (forall c q, vis (m_subs m) c q -> vis (m_subs k) c q) -> forall c q, vis [m] c q -> vis [k] c q).
  { intros m k E H1 H2 c q V. destruct c as [|a [|d c]]; [now apply vis_nil in V| |].
    - apply vis_one in V as (y & [<-|[]] & <- & Hy). apply vis_one. exists k. repeat split; [now left|now symmetry|]. destruct q as [it|]; [now apply H1|exact I].
    - apply vis_cons in V as (y & [<-|[]] & <- & Hy). apply vis_cons. exists k. repeat split; [now left|now symmetry|]. now apply H2. }
  intros m k E H1 H2 c q. split; apply K; try easy; try (now symmetry); intros; try (now apply H1); now apply H2.
Qed.
(** Every module of one list has its like in the other. *)
Definition alike_all (l k : list module) : Prop := (forall m, In m l -> exists m', In m' k /\ alike m m') /\ (forall m, In m k -> exists m', In m' l /\ alike m' m).
Lemma alike_vis : forall l k, alike_all l k -> forall c q, vis l c q <-> vis k c q.
Proof.
  intros l k [H1 H2] c q. rewrite (vis_in l), (vis_in k). split; intros (m & Hm & V).
  - destruct (H1 m Hm) as (m' & Hm' & A). exists m'. split; [exact Hm'|]. now apply A.
  - destruct (H2 m Hm) as (m' & Hm' & A). exists m'. split; [exact Hm'|]. now apply A.
Qed.

Lemma NoDup_parts : forall {A} (a b : list A), NoDup (a ++ b) -> NoDup a /\ NoDup b.
Proof.
  intros A a b H. split; [|induction a as [|y a IH]; [exact H|apply IH; now inversion H]].
  induction a as [|y a IH]; [constructor|]. inversion H as [|? ? H1 H2]; subst. constructor; [|now apply IH]. intros K. apply H1, in_or_app. now left.
Qed.
(** The item that an overwritten submodule has under a name is the same. *)
Lemma find_alike : forall {A} (name : A -> path) l k p, NoDup (map name l) -> (forall y, In y l <-> In y k) -> find_path name p l = find_path name p k.
Proof.
  intros A name l k p N E. unfold find_path. destruct (find _ k) as [y|] eqn:F.
  - apply find_some in F as [F1 F2]. apply path_eqb_eq in F2. apply find_unique_path; [exact N|now apply E|exact F2].
  - destruct (find _ l) as [y|] eqn:G; [|reflexivity]. apply find_some in G as [G1 G2]. apply E in G1. now rewrite (find_none _ _ F y G1) in G2.
Qed.
Lemma retarget_alike : forall c m k, NoDup (item_paths m) -> alike m k -> retarget c m f_none = retarget c k f_none.
Proof.
  intros c m k N A. unfold item_paths in N.
  assert (E : forall it, has m it <-> has k it) by (intros it; split; apply alike_has; [exact A|now apply alike_sym]).
  apply NoDup_parts in N as [N1 N]. apply NoDup_parts in N as [N2 N]. apply NoDup_parts in N as [N3 N]. apply NoDup_parts in N as [N4 N].
  rewrite <- (map_id (m_typevars m)) in N3.
  unfold retarget. cbn [f_none fd_imports fd_classes fd_typevars fd_functions fd_properties].
  rewrite (find_alike im_target _ (m_imports k) _ N1 (fun i => E (AnImport i))), (find_alike cl_name _ (m_classes k) _ N2 (fun i => E (AClass i))),
    (find_alike (fun y => y) _ (m_typevars k) _ N3 (fun i => E (ATypeVar i))), (find_alike fn_name _ (m_functions k) _ N4 (fun i => E (AFunction i))),
    (find_alike pr_name _ (m_properties k) _ N (fun i => E (AProperty i))). reflexivity.
Qed.

(** ** Reading a module *)
(** Two results that do not contradict each other: a panic or running out of fuel may hide an error, and an error may hide them, but what is read is the same. *)
Definition agree (a b : outcome module) : Prop :=
  match a, b with
  | Ok m, Ok k => alike m k
  | Ok _, Err _ | Err _, Ok _ => False
  | _, _ => True
  end.
Lemma act_agree : forall x h rec rec' o name cfs i r r',
  (forall s, agree (rec s) (rec' s)) -> (forall s m, rec s = Ok m -> NoDup (item_paths m)) ->
  act x rec o name cfs i = Ok r -> act (with_order x h) rec' o name cfs i = Ok r' ->
  Forall2 (fun e e' => retarget (fst e) (snd e) f_none = retarget (fst e') (snd e') f_none) (fst r) (fst r') /\ Forall2 alike (snd r) (snd r').
Proof.
  intros x h rec rec' o name cfs i r r' A N H H'. unfold act in *. change (pe_world (with_order x h)) with (pe_world x) in H'.
  change (find_submodule (with_order x h)) with (find_submodule x) in H'. destruct (find_path _ _ cfs) as [c|].
  - destruct (w_import _ _) as [s|]; [|injection H as <-; injection H' as <-; split; constructor]. specialize (A s). specialize (N s).
    destruct (rec s) as [m|e|e|] eqn:E; try discriminate; destruct (rec' s) as [k|e'|e'|]; try discriminate; try easy; injection H as <-; injection H' as <-; cbn [fst snd]; split; repeat constructor.
    cbn [fst snd]. apply retarget_alike; [now apply N|exact A].
  - destruct (find_submodule _ _ _ _) as [s|]; [|injection H as <-; injection H' as <-; split; constructor].
    apply bind_Ok in H as (m & Hm & H). injection H as <-. apply bind_Ok in H' as (k & Hk & H'). injection H' as <-. specialize (A s). rewrite Hm, Hk in A. cbn [fst snd].
    split; [constructor|constructor; [exact A|constructor]].
Qed.
Lemma mapM_err : forall {A B} (f : A -> outcome B) l e, mapM f l = Err e -> exists a, In a l /\ f a = Err e.
Proof.
  induction l as [|a l IH]; intros e H; [discriminate|]. cbn [mapM] in H. destruct (f a) as [b|e0|e0|] eqn:E; cbn [obind] in H; try discriminate.
  - destruct (mapM f l) as [r|e1|e1|] eqn:F; cbn [obind] in H; try discriminate. injection H as ->. destruct (IH e eq_refl) as (y & Hy & Ey). exists y. split; [now right|exact Ey].
  - injection H as ->. exists a. split; [now left|exact E].
Qed.

Lemma agree_sym : forall a b, agree a b -> agree b a.
Proof. intros [m|e|e|] [k|e'|e'|] H; try exact I; try exact H. exact (alike_sym m k H). Qed.
Lemma act_err : forall x rec o name cfs i e, act x rec o name cfs i = Err e -> find_path im_target (path_snoc name i) cfs = None /\ exists s, find_submodule x o (path_snoc name i) i = Some s /\ rec s = Err e.
Proof.
  intros x rec o name cfs i e H. unfold act in H. destruct (find_path _ _ cfs) as [c|].
  - destruct (w_import _ _) as [s|]; [|discriminate]. destruct (rec s); discriminate.
  - split; [reflexivity|]. destruct (find_submodule _ _ _ _) as [s|]; [|discriminate]. exists s. split; [reflexivity|]. destruct (rec s); cbn in H; try discriminate. now injection H as ->.
Qed.
(** The part that does not depend on the order *)
Definition before_subs (x : penv) (o : oid) : outcome (path * list ident * bool * found) :=
  let w := pe_world x in
  let cfg := pe_cfg x in
  let! name := module_path x o in
  let! prelude := if generate_preludes cfg then extract_prelude x o name else Ok [] in
  let is_package := match w_getattr w o (u "__path__") with Some _ => true | None => false end in
  let! sbs := if is_package then extract_submodules x o else Ok [] in
  let! st := each_attr (pe_env x) o (fun a => is_attr_allowed cfg (at_name a) (at_module a)) (module_step x name)
               (unique_names (pe_uni x) [] (w_dir w o)) (mk_found [] [] [] [] [] [] sbs) in Ok (name, prelude, is_package, st).
Definition after_subs (x : penv) (o : oid) (name : path) (prelude : list ident) (is_package : bool) (st : found) (subs : list module) : outcome module :=
  let! doc := read_docstring (pe_world x) o in
  Ok (mk_module name prelude (fd_imports st) subs (fd_classes st) (fd_typevars st) (fd_functions st) (fd_properties st) doc is_package None).
Lemma body_split : forall x rec o, mod_parse_body x rec o =
  let! b := before_subs x o in let '(name, prelude, is_package, st) := b in
  let! r := if traverse_submodules (pe_cfg x) then mapM (act x rec o name (fd_conflicts st)) (ho (pe_ord x) (fd_subs st)) else Ok [] in
  after_subs x o name prelude is_package (retargets (concat (map fst r)) st) (concat (map snd r)).
Proof.
  intros x rec o. unfold mod_parse_body, before_subs. destruct (module_path x o) as [name|e|e|]; cbn [obind]; try reflexivity.
  destruct (if generate_preludes (pe_cfg x) then _ else _) as [pre|e|e|]; cbn [obind]; try reflexivity.
  destruct (if match _ with Some _ => true | None => false end then _ else _) as [sbs|e|e|]; cbn [obind]; try reflexivity.
  destruct (each_attr _ _ _ _ _ _) as [st|e|e|]; cbn [obind]; try reflexivity.
  destruct (traverse_submodules (pe_cfg x)); [|reflexivity]. rewrite sub_steps_act. destruct (mapM _ _) as [r|e|e|]; reflexivity.
Qed.

Section two.
  Variable x : penv.
  Variable h : hash_order.
  Hypothesis Ho : order_ok (pe_ord x).
  Hypothesis Ho' : order_ok h.
  Let x' := with_order x h.

  Lemma acts_alike : forall rec rec' o name cfs l r r', (forall s, agree (rec s) (rec' s)) -> (forall s m, rec s = Ok m -> NoDup (item_paths m)) ->
    mapM (act x rec o name cfs) (ho (pe_ord x) l) = Ok r -> mapM (act x' rec' o name cfs) (ho h l) = Ok r' ->
    (forall st it, f_has (retargets (concat (map fst r)) st) it <-> f_has (retargets (concat (map fst r')) st) it) /\ alike_all (concat (map snd r)) (concat (map snd r')).
  Proof.
    intros rec rec' o name cfs l r r' A N H H'.
    assert (K1 : forall a, In a r -> exists b, In b r' /\ Forall2 (fun e e' => retarget (fst e) (snd e) f_none = retarget (fst e') (snd e') f_none) (fst a) (fst b) /\ Forall2 alike (snd a) (snd b)).
    { intros a Ha. destruct (mapM_In _ _ _ _ H Ha) as (i & Hi & E). assert (Hi' : In i (ho h l)).
      { apply (Permutation_in i (Permutation_sym (Ho' _ l))). exact (Permutation_in i (Ho _ l) Hi). }
      destruct (mapM_In_l _ _ _ _ H' Hi') as (b & Hb & E'). exists b. split; [exact Hb|]. now apply (act_agree x h rec rec' o name cfs i a b). }
    assert (K2 : forall b, In b r' -> exists a, In a r /\ Forall2 (fun e e' => retarget (fst e) (snd e) f_none = retarget (fst e') (snd e') f_none) (fst a) (fst b) /\ Forall2 alike (snd a) (snd b)).
    { intros b Hb. destruct (mapM_In _ _ _ _ H' Hb) as (i & Hi & E). assert (Hi' : In i (ho (pe_ord x) l)).
      { apply (Permutation_in i (Permutation_sym (Ho _ l))). exact (Permutation_in i (Ho' _ l) Hi). }
      destruct (mapM_In_l _ _ _ _ H Hi') as (a & Ha & E'). exists a. split; [exact Ha|]. now apply (act_agree x h rec rec' o name cfs i a b). }
    split.
    - intros st it. rewrite !retargets_has. split; (intros [Hs|(e & He & Hh)]; [now left|right]);
        apply in_concat in He as (y & Hy & He); apply in_map_iff in Hy as (a & <- & Ha).
      + destruct (K1 a Ha) as (b & Hb & F & _). destruct (forall2_in_l _ _ _ _ F He) as (e' & He' & E). exists e'. split; [apply in_concat; exists (fst b); split; [now apply in_map|exact He']|]. now rewrite <- E.
      + destruct (K2 a Ha) as (b & Hb & F & _). destruct (forall2_in_r _ _ _ _ F He) as (e' & He' & E). exists e'. split; [apply in_concat; exists (fst b); split; [now apply in_map|exact He']|]. now rewrite E.
    - split; intros m Hm; apply in_concat in Hm as (y & Hy & Hm); apply in_map_iff in Hy as (a & <- & Ha).
      + destruct (K1 a Ha) as (b & Hb & _ & F). destruct (forall2_in_l _ _ _ _ F Hm) as (m' & Hm' & E). exists m'. split; [apply in_concat; exists (snd b); split; [now apply in_map|exact Hm']|exact E].
      + destruct (K2 a Ha) as (b & Hb & _ & F). destruct (forall2_in_r _ _ _ _ F Hm) as (m' & Hm' & E). exists m'. split; [apply in_concat; exists (snd b); split; [now apply in_map|exact Hm']|exact E].
  Qed.
End two.
Lemma acts_no_err : forall x x' rec rec' o name cfs l l' r e, (forall s, agree (rec s) (rec' s)) -> pe_env x = pe_env x' -> (forall i, In i l' -> In i l) ->
  mapM (act x rec o name cfs) l = Ok r -> mapM (act x' rec' o name cfs) l' = Err e -> False.
Proof.
  intros x x' rec rec' o name cfs l l' r e A Ee I H H'. apply mapM_err in H' as (i & Hi & E). apply act_err in E as (E1 & s & E2 & E3).
  destruct (mapM_In_l _ _ _ _ H (I i Hi)) as (b & _ & F). unfold act in F. rewrite E1 in F. unfold find_submodule, pe_world in E2, F. rewrite Ee in F. rewrite E2 in F.
  specialize (A s). rewrite E3 in A. destruct (rec s); try discriminate. exact A.
Qed.
Lemma body_agree : forall x h rec rec' o, order_ok (pe_ord x) -> order_ok h -> (forall s, agree (rec s) (rec' s)) -> (forall s m, rec s = Ok m -> NoDup (item_paths m)) ->
  agree (mod_parse_body x rec o) (mod_parse_body (with_order x h) rec' o).
Proof.
  intros x h rec rec' o Ho Ho' A N. rewrite !body_split. change (before_subs (with_order x h) o) with (before_subs x o).
  destruct (before_subs x o) as [[[[name pre] pk] st]|e|e|]; cbn [obind agree]; try exact I.
  change (traverse_submodules (pe_cfg (with_order x h))) with (traverse_submodules (pe_cfg x)).
  assert (P1 : forall i, In i (ho h (fd_subs st)) -> In i (ho (pe_ord x) (fd_subs st))).
  { intros i Hi. apply (Permutation_in i (Permutation_sym (Ho _ (fd_subs st)))). exact (Permutation_in i (Ho' _ (fd_subs st)) Hi). }
  assert (P2 : forall i, In i (ho (pe_ord x) (fd_subs st)) -> In i (ho h (fd_subs st))).
  { intros i Hi. apply (Permutation_in i (Permutation_sym (Ho' _ (fd_subs st)))). exact (Permutation_in i (Ho _ (fd_subs st)) Hi). }
  unfold after_subs. change (pe_world (with_order x h)) with (pe_world x). destruct (traverse_submodules (pe_cfg x)).
  - change (pe_ord (with_order x h)) with h.
    destruct (mapM (act x rec o name (fd_conflicts st)) (ho (pe_ord x) (fd_subs st))) as [r|e|e|] eqn:E1;
    destruct (mapM (act (with_order x h) rec' o name (fd_conflicts st)) (ho h (fd_subs st))) as [r'|e'|e'|] eqn:E2; cbn [obind agree]; try exact I;
    destruct (read_docstring (pe_world x) o) as [d|ed|ed|]; cbn [obind agree]; try exact I.
    + destruct (acts_alike x h Ho Ho' rec rec' o name _ _ _ _ A N E1 E2) as [K1 K2]. apply alike_intro; [reflexivity| |exact (alike_vis _ _ K2)].
      intros it. specialize (K1 st it). destruct it as [i|i|i|i|i|i]; cbn [has m_prelude m_imports m_classes m_typevars m_functions m_properties f_has] in *; [reflexivity|exact K1..].
    + exact (acts_no_err x (with_order x h) rec rec' o name _ _ _ _ _ A eq_refl P1 E1 E2).
    + exact (acts_no_err (with_order x h) x rec' rec o name _ _ _ _ _ (fun s => agree_sym _ _ (A s)) eq_refl P2 E2 E1).
  - cbn [obind]. destruct (read_docstring (pe_world x) o) as [d|ed|ed|]; cbn [obind agree]; try exact I. intros c q. reflexivity.
Qed.
Lemma parse_agree : forall x h, order_ok (pe_ord x) -> order_ok h -> forall fuel o, agree (mod_parse x fuel o) (mod_parse (with_order x h) fuel o).
Proof.
  intros x h Ho Ho'. induction fuel as [|fuel IH]; intros o; [exact I|]. cbn [mod_parse]. apply body_agree; auto.
  intros s m H. now apply (parsed_distinct x fuel s m Ho H m), within_here.
Qed.
Lemma parse_alike : forall x h fuel o m k, order_ok (pe_ord x) -> order_ok h -> mod_parse x fuel o = Ok m -> mod_parse (with_order x h) fuel o = Ok k -> alike m k.
Proof. intros x h fuel o m k Ho Ho' H H'. pose proof (parse_agree x h Ho Ho' fuel o) as K. now rewrite H, H' in K. Qed.

(** ** The forest *)
Lemma parsed_all : forall x h fuel ql kl ms ks, order_ok (pe_ord x) -> order_ok h -> Forall2 (parsed_as x fuel) ql ms -> Forall2 (parsed_as (with_order x h) fuel) kl ks -> same_members ql kl -> alike_all ms ks.
Proof.
  intros x h fuel ql kl ms ks Ho Ho' F G S. split; intros m Hm.
  - destruct (forall2_in_r _ _ _ _ F Hm) as (q & Hq & o & E & Hp). apply S in Hq. destruct (forall2_in_l _ _ _ _ G Hq) as (m' & Hm' & o' & E' & Hp').
    exists m'. split; [exact Hm'|]. rewrite E in E'. injection E' as <-. now apply (parse_alike x h fuel o).
  - destruct (forall2_in_r _ _ _ _ G Hm) as (q & Hq & o & E & Hp). apply S in Hq. destruct (forall2_in_l _ _ _ _ F Hq) as (m' & Hm' & o' & E' & Hp').
    exists m'. split; [exact Hm'|]. rewrite E in E'. injection E' as <-. now apply (parse_alike x h fuel o).
Qed.
Lemma alike_within : forall ms ks m k it, alike_all ms ks -> In m ms -> within k m -> has k it -> exists m' k', In m' ks /\ within k' m' /\ has k' it /\ m_name k' = m_name k.
Proof.
  intros ms ks m k it A Hm Hk Hi. destruct (within_reach k m Hk ms Hm) as (c & R).
  assert (V : vis ms c (Some it)) by (now exists k). pose proof (proj1 (alike_vis _ _ A _ _) V) as (k' & R' & Hi'). destruct (Proof_Api.reach_within _ _ _ R') as (m' & Hm' & Hk').
  exists m', k'. repeat split; try assumption.
  assert (L : forall l c0 y z l', reach l c0 y -> reach l' c0 z -> m_name z = m_name y).
  { intros l c0 y z l' Q. revert l' z. induction Q as [l y Hy|l y c0 z0 Hy Q IH]; intros l' z Q'.
    - inversion Q' as [? ? ? E1 E2|? ? ? ? ? Q2 E1 E2]; subst; [congruence|inversion Q2].
    - inversion Q' as [? ? ? E1 E2|? ? ? ? ? Q2 E1 E2]; subst; [inversion Q|]. now apply (IH _ _ Q2). }
  exact (L _ _ _ _ _ R R').
Qed.
Lemma alike_all_sym : forall l k, alike_all l k -> alike_all k l.
Proof. intros l k [A B]. split; intros m Hm; [destruct (B m Hm) as (m' & H & K)|destruct (A m Hm) as (m' & H & K)]; exists m'; (split; [exact H|now apply alike_sym]). Qed.
Lemma origins_alike : forall ms ks, alike_all ms ks -> same_members (origins ms) (origins ks).
Proof.
  assert (K : forall ms ks, alike_all ms ks -> incl (origins ms) (origins ks)).
  { intros ms ks A p Hp. apply external_In in Hp as (m & k & i & Hm & Hk & Hi & Ht & ->). apply external_In.
    destruct (alike_within ms ks m k (AnImport i) A Hm Hk Hi) as (m' & k' & Hm' & Hk' & Hi' & _). now exists m', k', i. }
  intros ms ks A p. split; apply K; [exact A|now apply alike_all_sym].
Qed.
Lemma dependencies_alike : forall x h fuel ms ks r r', order_ok (pe_ord x) -> order_ok h -> honest (pe_uni x) (pe_world x) -> names_differ (pe_world x) -> alike_all ms ks ->
  parse_dependencies x fuel ms = Ok r -> parse_dependencies (with_order x h) fuel ks = Ok r' -> alike_all r r'.
Proof.
  intros x h fuel ms ks r r' Ho Ho' Hw Hd A H H'. unfold parse_dependencies in *. fold (origins ms) in H. fold (origins ks) in H'. pose proof (origins_alike ms ks A) as SO.
  apply (dependencies_exact x fuel Hw Hd) in H as (d & -> & D1 & D2 & D3). apply (dependencies_exact (with_order x h) fuel Hw Hd) in H' as (d' & -> & E1 & E2 & E3).
  split; intros m Hm; apply in_app_or in Hm as [Hm|Hm].
  - destruct (proj1 A m Hm) as (m' & Hm' & K). exists m'. split; [apply in_or_app; now left|exact K].
  - destruct (D1 m Hm) as (p & Hp & o & P1 & P2 & P3). apply SO in Hp. destruct (E2 p o Hp P1) as [[]|[(o' & b & Q1 & Q2 & Q3) Q4]].
    assert (o' = o) by (unfold pe_world in *; cbn in *; congruence). subst o'. assert (b = true) by (unfold dependency_allowed, pe_world, pe_uni, pe_dbg in *; cbn in *; congruence). subst b. destruct (Q3 eq_refl) as (m' & Hm'). exists m'. split; [|now apply (parse_alike x h fuel o)].
    apply in_or_app. right. apply Q4. now exists o.
  - destruct (proj2 A m Hm) as (m' & Hm' & K). exists m'. split; [apply in_or_app; now left|exact K].
  - destruct (E1 m Hm) as (p & Hp & o & P1 & P2 & P3). apply SO in Hp. destruct (D2 p o Hp P1) as [[]|[(o' & b & Q1 & Q2 & Q3) Q4]].
    assert (o' = o) by (unfold pe_world in *; cbn in *; congruence). subst o'. assert (b = true) by (unfold dependency_allowed, pe_world, pe_uni, pe_dbg in *; cbn in *; congruence). subst b. destruct (Q3 eq_refl) as (m' & Hm'). exists m'. split; [|now apply (parse_alike x h fuel o)].
    apply in_or_app. right. apply Q4. now exists o.
Qed.
Lemma final_alike : forall x h fuel l l' c c' ms ms', order_ok (pe_ord x) -> order_ok h ->
  (generate_dependencies (pe_cfg x) = true -> honest (pe_uni x) (pe_world x) /\ names_differ (pe_world x)) ->
  same_members (flat_map (asked (pe_world x)) l) (flat_map (asked (pe_world x)) l') ->
  asks x fuel l cg_new = Ok c -> final_modules x fuel c = Ok ms -> asks (with_order x h) fuel l' cg_new = Ok c' -> final_modules (with_order x h) fuel c' = Ok ms' -> same_forest ms ms'.
Proof.
  intros x h fuel l l' c c' ms ms' Ho Ho' Hdep S Hc Hf Hc' Hf'. pose proof (asks_state x fuel l c Hc) as F. pose proof (asks_state (with_order x h) fuel l' c' Hc') as F'.
  pose proof (parsed_all x h fuel _ _ _ _ Ho Ho' F F' S) as A.
  destruct (final_inv x fuel c ms Hf) as (inp & k & [Hne Hin] & Hk & E). destruct (final_inv (with_order x h) fuel c' ms' Hf') as (inp' & k' & [Hne' Hin'] & Hk' & E').
  change (generate_dependencies (pe_cfg (with_order x h))) with (generate_dependencies (pe_cfg x)) in Hin'.
  assert (AI : alike_all inp inp').
  { destruct (generate_dependencies (pe_cfg x)); [|injection Hin as <-; injection Hin' as <-; exact A].
    destruct (Hdep eq_refl) as [H1 H2]. now apply (dependencies_alike x h fuel (cg_modules c) (cg_modules c')). }
  rewrite E, E'. apply same_forest_vis. intros ch q. rewrite !vis_source, (canonicalize_vis x inp k Ho Hk), (canonicalize_vis (with_order x h) inp' k' Ho' Hk').
  destruct AI as [A1 A2]. split; intros (m & Hm & R).
  - destruct (A1 m Hm) as (m' & Hm' & K). exists m'. split; [exact Hm'|]. rewrite <- (alike_name _ _ K). destruct R as [(ch' & E1 & V)|R]; [left; exists ch'; split; [exact E1|now apply K]|now right].
  - destruct (A2 m Hm) as (m' & Hm' & K). exists m'. split; [exact Hm'|]. rewrite (alike_name _ _ K). destruct R as [(ch' & E1 & V)|R]; [left; exists ch'; split; [exact E1|now apply K]|now right].
Qed.
