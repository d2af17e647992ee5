(** * Lemmas: parsing fails only with a Python error *)
From Verif Require Import Base Model_Ident Model_Path Model_Import Model_Text Model_Config Model_Type Model_IntoRs Model_World Model_Out
  Model_Function Model_Property Model_Class Model_Module Model_Parse Model_Codegen Proof_Type.

Definition only_py {A} (m : outcome A) : Prop := forall e, m = Err e -> e = EPy.
Lemma py_ok : forall {A} (a : A), only_py (Ok a).
Proof. intros A a e H. discriminate. Qed.
Lemma py_panic : forall {A} k, only_py (@Panic A k).
Proof. intros A a e H. discriminate. Qed.
Lemma py_fuel : forall {A}, only_py (@OutOfFuel A).
Proof. intros A e H. discriminate. Qed.
Lemma py_err : forall {A}, only_py (@Err A EPy).
Proof. intros A e H. now injection H as <-. Qed.
Lemma py_bind : forall {A B} (m : outcome A) (f : A -> outcome B), only_py m -> (forall a, only_py (f a)) -> only_py (obind m f).
Proof. intros A B m f Hm Hf e H. destruct m as [a|k|k|]; cbn in H; [now apply (Hf a)|injection H as <-; now apply Hm|discriminate|discriminate]. Qed.
Lemma py_omap : forall {A B} (f : A -> B) (m : outcome A), only_py m -> only_py (omap f m).
Proof. intros A B f m H. apply py_bind; [exact H|]. intros. apply py_ok. Qed.
Lemma py_mapM : forall {A B} (f : A -> outcome B) l, (forall a, only_py (f a)) -> only_py (mapM f l).
Proof. intros A B f l H. induction l as [|a l IH]; [apply py_ok|]. cbn. apply py_bind; [apply H|]. intros. apply py_bind; [exact IH|]. intros. apply py_ok. Qed.
Lemma py_filterM : forall {A} (f : A -> outcome bool) l, (forall a, only_py (f a)) -> only_py (filterM f l).
Proof. intros A f l H. induction l as [|a l IH]; [apply py_ok|]. cbn. apply py_bind; [apply H|]. intros. apply py_bind; [exact IH|]. intros. apply py_ok. Qed.
Lemma py_unwrap : forall {A} k (o : option A), only_py (unwrap k o).
Proof. intros A k [a|]; [apply py_ok|apply py_panic]. Qed.

Create HintDb py.
#[local] Hint Resolve py_ok py_panic py_fuel py_err py_unwrap : py.
Ltac py_step :=
  match goal with
  | |- only_py (Ok _) => apply py_ok
  | |- only_py (Panic _) => apply py_panic
  | |- only_py OutOfFuel => apply py_fuel
  | |- only_py (Err EPy) => apply py_err
  | |- only_py (obind _ _) => apply py_bind; [|intros]
  | |- only_py (omap _ _) => apply py_omap
  | |- only_py (mapM _ _) => apply py_mapM; intros
  | |- only_py (filterM _ _) => apply py_filterM; intros
  | |- only_py (unwrap _ _) => apply py_unwrap
  | |- only_py (let '(_, _) := ?p in _) => destruct p
  | |- only_py (match ?d with _ => _ end) => destruct d
  | |- only_py (if ?d then _ else _) => destruct d
  end.
Ltac py := repeat (py_step || solve [eauto with py]).

Lemma py_ident : forall dbg U s, only_py (ident_from_py_chk dbg U s).
Proof. intros. unfold ident_from_py_chk. py. Qed.
#[local] Hint Resolve py_ident : py.
Lemma py_path : forall dbg U s, only_py (path_from_py_chk dbg U s).
Proof. intros. unfold path_from_py_chk. py. Qed.
#[local] Hint Resolve py_path : py.

(** ** Annotations: no error at all *)
Lemma nobad_py : forall {A} (m : outcome A), nobad m -> only_py m.
Proof. intros A m [_ H] e E. now destruct (H e). Qed.
Lemma from_class_nobad : forall dbg sub t, nobad (from_class dbg sub t).
Proof. intros. unfold from_class. destruct (find _ _); [apply nobad_ok|apply from_str_nobad]. Qed.
Lemma combine_nobad : forall w l, nobad (combine_typing w l).
Proof.
  intros w l. destruct w; cbn [combine_typing];
    repeat first [apply nobad_ok|apply nobad_omap|apply nobad_unwrap|apply nobad_mk_function|apply nobad_bind; [|intros ? _]
                 |match goal with |- nobad (if ?b then _ else _) => destruct b end].
Qed.
Lemma from_ann_nobad : forall dbg a, nobad (from_ann dbg a).
Proof.
  intros dbg. fix IH 1. intros [|sub t|o args t|s|t]; cbn [from_ann].
  - apply nobad_ok.
  - apply from_class_nobad.
  - destruct o as [o|]; [|apply from_str_nobad]. apply nobad_bind; [apply IH|]. intros w _.
    destruct args as [l|]; [|apply nobad_ok]. apply nobad_bind; [|intros; apply combine_nobad].
    induction l as [|a l IHl]; [apply nobad_ok|]. cbn [mapM]. apply nobad_bind; [apply IH|]. intros b _.
    apply nobad_bind; [exact IHl|]. intros; apply nobad_ok.
  - apply from_str_nobad.
  - apply from_str_nobad.
Qed.
Lemma py_read_ann : forall dbg a, only_py (read_ann dbg a).
Proof. intros dbg [a|]; [|apply py_ok]. apply nobad_py, from_ann_nobad. Qed.
#[local] Hint Resolve py_read_ann : py.

(** ** Parsing *)
Lemma py_doc : forall w o, only_py (read_docstring w o).
Proof. intros. unfold read_docstring. py. Qed.
#[local] Hint Resolve py_doc : py.
Lemma py_kind : forall k, only_py (pkind_of_u8 k).
Proof. intros. unfold pkind_of_u8. py. Qed.
#[local] Hint Resolve py_kind : py.
Lemma py_param : forall e s, only_py (read_param e s).
Proof. intros. unfold read_param. py. Qed.
#[local] Hint Resolve py_param : py.
Lemma py_path_name : forall p, only_py (path_name p).
Proof. intros. unfold path_name. py. Qed.
#[local] Hint Resolve py_path_name : py.
Lemma py_storage : forall w n t, only_py (infer_storage w n t).
Proof. intros. unfold infer_storage. py. Qed.
#[local] Hint Resolve py_storage : py.
Lemma py_receiver : forall t l, only_py (drop_receiver t l).
Proof. intros. unfold drop_receiver. py. Qed.
#[local] Hint Resolve py_receiver : py.
Lemma py_fn_parse : forall e o n t, only_py (fn_parse e o n t).
Proof. intros. unfold fn_parse. py. Qed.
#[local] Hint Resolve py_fn_parse : py.
Lemma py_type_of : forall e o, only_py (type_of e o).
Proof. intros. apply nobad_py, from_class_nobad. Qed.
#[local] Hint Resolve py_type_of : py.
Lemma py_prop_parse : forall e o n w, only_py (prop_parse e o n w).
Proof. intros. unfold prop_parse, read_getter, read_setter. py. Qed.
#[local] Hint Resolve py_prop_parse : py.
Lemma py_determine : forall e o a b c, only_py (determine e o a b c).
Proof. intros. unfold determine. py. Qed.
#[local] Hint Resolve py_determine : py.
Lemma py_module_of : forall e o, only_py (module_of e o).
Proof. intros. unfold module_of. py. Qed.
#[local] Hint Resolve py_module_of : py.
Lemma py_read_attr : forall e o s, only_py (read_attr e o s).
Proof. intros. unfold read_attr. py. Qed.
#[local] Hint Resolve py_read_attr : py.
Lemma py_each : forall S e o al (step : S -> attr -> outcome S) l st, (forall s a, only_py (step s a)) -> only_py (each_attr e o al step l st).
Proof.
  intros S e o al step l. induction l as [|n l IH]; intros st H; [apply py_ok|]. cbn [each_attr]. py.
Qed.
Lemma py_class_step : forall e n st a, only_py (class_step e n st a).
Proof. intros. unfold class_step. py. Qed.
Lemma py_class_parse : forall e c o n, only_py (class_parse e c o n).
Proof. intros. unfold class_parse. apply py_bind; [apply py_each; intros; apply py_class_step|intros [ms ps]; py]. Qed.
#[local] Hint Resolve py_class_parse : py.
Lemma py_module_path : forall x o, only_py (module_path x o).
Proof. intros. unfold module_path. py. Qed.
#[local] Hint Resolve py_module_path : py.
Lemma py_join : forall a b, only_py (path_join a b).
Proof. intros. unfold path_join. py. Qed.
#[local] Hint Resolve py_join : py.
Lemma py_read_import : forall x a p, only_py (read_import x a p).
Proof. intros. unfold read_import, import_origin, import_new, import_type_from_paths. py. Qed.
#[local] Hint Resolve py_read_import : py.
Lemma py_module_step : forall x n st a, only_py (module_step x n st a).
Proof. intros x n [a1 a2 a3 a4 a5 a6 a7] a. unfold module_step. py. Qed.
Lemma py_prelude : forall x o n, only_py (extract_prelude x o n).
Proof. intros. unfold extract_prelude, is_reexported. py. Qed.
#[local] Hint Resolve py_prelude : py.
Lemma py_submodules : forall x o, only_py (extract_submodules x o).
Proof. intros. unfold extract_submodules. py. Qed.
#[local] Hint Resolve py_submodules : py.
Lemma py_sub_steps : forall x rec o n l acc, (forall s, only_py (rec s)) -> only_py (sub_steps x rec o n acc l).
Proof.
  intros x rec o n l. induction l as [|i l IH]; intros acc H; [apply py_ok|]. cbn [sub_steps]. apply py_bind; [|intros; now apply IH].
  destruct acc as [st subs]. unfold sub_step. py.
Qed.
Lemma py_body : forall x rec o, (forall s, only_py (rec s)) -> only_py (mod_parse_body x rec o).
Proof.
  intros x rec o H. unfold mod_parse_body.
  apply py_bind; [py|]. intros name. apply py_bind; [py|]. intros pre. apply py_bind; [py|]. intros sbs.
  apply py_bind; [apply py_each; intros; apply py_module_step|]. intros st. apply py_bind; [|intros [st1 subs]; py].
  destruct (traverse_submodules _); [now apply py_sub_steps|apply py_ok].
Qed.
Lemma py_mod_parse : forall x n o, only_py (mod_parse x n o).
Proof. intros x. induction n as [|n IH]; intros o; [apply py_fuel|]. cbn [mod_parse]. now apply py_body. Qed.
#[local] Hint Resolve py_mod_parse : py.

(** ** The final modules *)
Lemma py_dependencies : forall x n l seen ms, only_py (add_dependencies x n seen l ms).
Proof.
  intros x n. induction l as [|p l IH]; intros seen ms; [apply py_ok|]. cbn [add_dependencies].
  unfold dependency_module, dependency_allowed. py.
Qed.
Lemma py_embed : forall x l n m, only_py (embed_in x l n m).
Proof.
  intros x l n. induction n as [|n IH]; intros m; [apply py_ok|]. cbn [embed_in]. apply py_bind; [|intros; apply IH].
  unfold or_unreachable. destruct (mod_empty _ _); [apply py_ok|apply py_panic|apply py_panic|apply py_fuel].
Qed.
Lemma py_siblings : forall f l, (forall s, only_py (f s)) -> only_py (merge_siblings f l).
Proof. intros f l H. unfold merge_siblings. apply py_mapM. intros a. unfold merge_run. destruct a as [|m [|m' a]]; auto with py. Qed.
Lemma py_merge : forall x n l, only_py (merge_modules x n l).
Proof.
  intros x. induction n as [|n IH]; intros l; [apply py_fuel|]. cbn [merge_modules]. destruct l as [|m l]; [apply py_panic|].
  apply py_bind; [now apply py_siblings|]. intros. apply py_ok.
Qed.
Lemma py_canonicalize : forall x l, only_py (canonicalize x l).
Proof.
  intros x l. unfold canonicalize. apply py_bind; [apply py_mapM; intros; apply py_embed|]. intros k.
  apply py_siblings. intros. apply py_merge.
Qed.
Lemma final_py : forall x n c, cg_modules c <> [] -> only_py (final_modules x n c).
Proof.
  intros x n c H. unfold final_modules. destruct (cg_modules c) as [|m l]; [easy|].
  apply py_bind; [destruct (generate_dependencies _); [apply py_dependencies|apply py_ok]|]. intros k.
  apply py_bind; [apply py_canonicalize|]. intros. apply py_ok.
Qed.
