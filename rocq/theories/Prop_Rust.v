(** * Property theorems: Rust types of parameters and results (C19-C22, C61) *)
From Verif Require Import Base Model_Ident Model_Path Model_Type Model_IntoRs Spec_Path Spec_Type Spec_Rust
  Proof_Base Proof_Ann Proof_IntoRs Prop_Type.

(** Contexts for the examples: [pkg.Shape] is a generated class, seen from [pkg]. *)
Definition ex_key : path := path_from_py uni_ascii (u "pkg.Shape").
Definition ex_rel : path := mk_path false [u "Shape"].
Definition ex_ctx : ctx := mk_ctx false false uni_ascii [(ex_key, ex_rel)].
Lemma ex_table_ok : table_ok (cx_local ex_ctx).
Proof.
  intros k v [H|[]] i Hi. injection H as <- <-. vm_compute in Hi.
  destruct Hi as [<-|[<-|[]]]; intros H; cbn in H; repeat (destruct H as [H|H]; [discriminate|]); easy.
Qed.
Definition ex_type : ptype :=
  TOptional (TDict TString (TList (TTuple [TLong; TOther (u "pkg.Shape"); TSet TString]))).

(** ** C19 *)
(** Full claim: without the hypothesis [good_keys]; refuted below. *)
Theorem C19_keys_hashable_partial : forall c t o b, good_keys t = true -> into_rs c t = Ok (o, b) ->
  keys_hashable o = true /\ keys_hashable b = true.
Proof. exact keys_good. Qed.
Print Assumptions C19_keys_hashable_partial.
(** The hypothesis cannot be weakened at the top: a set of any excluded key type is wrong. *)
Theorem C19_bad_key_refuted : forall c k o b, bad_key k = true -> into_rs c (TSet k) = Ok (o, b) ->
  keys_hashable o = false /\ keys_hashable b = false.
Proof. exact bad_set. Qed.
Print Assumptions C19_bad_key_refuted.
Theorem C19_set_of_frozensets_refuted : forall c dbg, exists t o b,
  from_str dbg (u "set[frozenset[int]]") = Ok t /\ into_rs c t = Ok (o, b) /\ keys_hashable o = false.
Proof. intros c []; eexists _, _, _; (split; [vm_compute; reflexivity|]); split; reflexivity. Qed.
Print Assumptions C19_set_of_frozensets_refuted.

(** Sets and dictionaries with plain keys do become hashed collections. *)
Theorem C19_plain_keys_hashed : forall c k, In k [TBool; TLong; TString; TPath] -> exists k' b, into_rs c k = Ok (k', b) /\ has_hash k' = true /\
  into_rs c (TSet k) = Ok (r_hashset k', RRef (r_hashset k')) /\ into_rs c (TFrozenSet k) = Ok (r_hashset k', RRef (r_hashset k')) /\
  forall v, In v [TBool; TLong; TFloat; TString; TPath; TBytes; TList TLong; TOptional TString] -> exists v' b', into_rs c v = Ok (v', b') /\
    into_rs c (TDict k v) = Ok (r_hashmap k' v', RRef (r_hashmap k' v')).
Proof. exact plain_keys. Qed.
Print Assumptions C19_plain_keys_hashed.

Example C19_ex : good_keys ex_type = true /\ exists o b, into_rs ex_ctx ex_type = Ok (o, b) /\
  o = r_option (r_hashmap (r_std ["string"; "String"]%string)
       (RVec (RTup [RName (u "i64"); RBound (RLocal ex_rel); r_hashset (r_std ["string"; "String"]%string)]))).
Proof. split; [reflexivity|]. eexists _, _. split; vm_compute; reflexivity. Qed.

(** ** C20 *)
(** Full claim: for every annotation type. Refuted below for each excluded case. *)
Theorem C20_conversion_applies_partial : forall c t o b p, table_ok (cx_local c) ->
  good_keys t = true -> no_ip t = true -> small_tuples t = true ->
  into_rs c t = Ok (o, b) -> preprocess_borrowed c t = Ok p ->
  exists r, after p b = Some r /\ has_topy r = true.
Proof. exact prep_applicable. Qed.
Print Assumptions C20_conversion_applies_partial.
(** Both steps succeed in release builds. *)
Theorem C20_conversion_total : forall c t, cx_dbg c = false ->
  (forall k v, In (k, v) (cx_local c) -> syn_path_ok (cx_uni c) v = true) ->
  (exists r, into_rs c t = Ok r) /\ exists p, preprocess_borrowed c t = Ok p.
Proof. intros c t Hd Hv. split; [now apply into_rs_total|now apply prep_total]. Qed.
Print Assumptions C20_conversion_total.
(** An annotation with a double colon aborts debug builds. *)
Theorem C20_double_colon_refuted : forall c, cx_dbg c = true -> cx_numpy c = false ->
  into_rs c (TOther (u "a::b")) = Panic PDebugAssert.
Proof. intros c H1 H2. cbn [into_rs]. unfold map_type, map_external. rewrite H2. cbn [andb]. unfold path_from_py_chk. rewrite H1. reflexivity. Qed.
Print Assumptions C20_double_colon_refuted.
Definition passable (c : ctx) (t : ptype) : Prop :=
  exists o b p r, into_rs c t = Ok (o, b) /\ preprocess_borrowed c t = Ok p /\ after p b = Some r /\ has_topy r = true.
Theorem C20_ip_address_refuted : forall c, ~ passable c TIpV4 /\ ~ passable c TIpV6.
Proof.
  intros c. split; intros (o & b & p & r & H & Hp & Ha & Hr); cbn in H, Hp; injection H as <- <-; injection Hp as <-;
    injection Ha as <-; discriminate.
Qed.
Print Assumptions C20_ip_address_refuted.
Theorem C20_long_tuple_refuted : forall c, ~ passable c (TTuple (repeat TLong 13)).
Proof.
  intros c (o & b & p & r & H & Hp & Ha & Hr). cbn in H, Hp; injection H as <- <-; injection Hp as <-;
    injection Ha as <-; discriminate.
Qed.
Print Assumptions C20_long_tuple_refuted.
Theorem C20_set_of_frozensets_refuted : forall c, ~ passable c (TSet (TFrozenSet TLong)).
Proof.
  intros c (o & b & p & r & H & Hp & Ha & Hr). cbn in H, Hp; injection H as <- <-; injection Hp as <-;
    injection Ha as <-; discriminate.
Qed.
Print Assumptions C20_set_of_frozensets_refuted.

Example C20_ex : table_ok (cx_local ex_ctx) /\ good_keys ex_type = true /\ no_ip ex_type = true /\
  small_tuples ex_type = true /\ passable ex_ctx ex_type /\
  passable ex_ctx (TOptional (TDict TString TAny)) /\ passable ex_ctx (TTuple [TLong]) /\
  passable ex_ctx (TOther (u "unknown.Thing")).
Proof.
  split; [exact ex_table_ok|]. do 3 (split; [reflexivity|]).
  repeat split; eexists _, _, _, _; (split; [vm_compute; reflexivity|]); (split; [vm_compute; reflexivity|]);
    (split; [vm_compute; reflexivity|]); vm_compute; reflexivity.
Qed.

(** ** C21 *)
(** Full claim: without [no_ip]. *)
Theorem C21_paths_exist_partial : forall c t o b, no_ip t = true -> into_rs c t = Ok (o, b) ->
  paths_exist o = true /\ paths_exist b = true.
Proof. exact paths_good. Qed.
Print Assumptions C21_paths_exist_partial.
Theorem C21_ip_address_refuted : forall c dbg, exists t o b,
  from_str dbg (u "ipaddress.IPv4Address") = Ok t /\ into_rs c t = Ok (o, b) /\ paths_exist o = false.
Proof. intros c []; eexists _, _, _; (split; [vm_compute; reflexivity|]); split; reflexivity. Qed.
Print Assumptions C21_ip_address_refuted.
Example C21_ex : no_ip ex_type = true /\ exists o b, into_rs ex_ctx ex_type = Ok (o, b).
Proof. split; [reflexivity|]. eexists _, _. vm_compute. reflexivity. Qed.

(** ** C22 *)
Theorem C22_known_class : forall c s q rel, (cx_dbg c = false \/ contains_str (u "::") s = false) ->
  ~ In 91%N s -> maybe_args q -> (cx_numpy c = false \/ ~ names_ndarray s) -> keys_unique (cx_local c) ->
  In (path_from_py (cx_uni c) s, rel) (cx_local c) -> syn_path_ok (cx_uni c) rel = true ->
  into_rs c (TOther (s ++ q)) = Ok (RBound (RLocal rel), RRef (RBound (RLocal rel))).
Proof. exact class_named. Qed.
Print Assumptions C22_known_class.
Theorem C22_unknown_class : forall c s q, (cx_dbg c = false \/ contains_str (u "::") s = false) ->
  ~ In 91%N s -> maybe_args q -> (cx_numpy c = false \/ ~ names_ndarray s) ->
  (forall rel, ~ In (path_from_py (cx_uni c) s, rel) (cx_local c)) ->
  into_rs c (TOther (s ++ q)) = Ok (bound_of "PyAny", into_py_of "PyAny").
Proof. exact class_unnamed. Qed.
Print Assumptions C22_unknown_class.
(** From the annotation text itself, for names without a meaning of their own. *)
Theorem C22_annotation_text : forall c dbg n rel, plain_name n -> table_get n name_table = None ->
  (cx_dbg c = false \/ contains_str (u "::") n = false) -> (cx_numpy c = false \/ ~ names_ndarray n) ->
  keys_unique (cx_local c) -> In (path_from_py (cx_uni c) n, rel) (cx_local c) -> syn_path_ok (cx_uni c) rel = true ->
  exists t, from_str dbg n = Ok t /\ into_rs c t = Ok (RBound (RLocal rel), RRef (RBound (RLocal rel))).
Proof. exact class_text. Qed.
Print Assumptions C22_annotation_text.
(** Different dotted names never share a table entry. *)
Theorem C22_names_distinct : forall U l l', (forall s, In s (l ++ l') -> component s /\ s <> u "super") ->
  path_from_py U (dotted 0 l) = path_from_py U (dotted 0 l') -> dotted 0 l = dotted 0 l'.
Proof. exact keys_distinct. Qed.
Print Assumptions C22_names_distinct.
(** A generated class whose name has a meaning of its own is not found: a class called [str]. *)
Theorem C22_shadowed_name_refuted : forall dbg, exists c rel t,
  In (path_from_py (cx_uni c) (u "str"), rel) (cx_local c) /\ syn_path_ok (cx_uni c) rel = true /\
  from_str dbg (u "str") = Ok t /\ into_rs c t = Ok (r_std ["string"; "String"]%string, RRef (RName (u "str"))).
Proof.
  intros dbg. exists (mk_ctx false false uni_ascii [(path_from_py uni_ascii (u "str"), mk_path false [u "str"])]), (mk_path false [u "str"]), TString.
  split; [now left|]. split; [reflexivity|]. split; [destruct dbg; vm_compute; reflexivity|reflexivity].
Qed.
Print Assumptions C22_shadowed_name_refuted.
(** With the numpy feature any class called ndarray is taken for numpy's. *)
Theorem C22_numpy_refuted : exists c rel, In (path_from_py (cx_uni c) (u "my.NdArray"), rel) (cx_local c) /\
  into_rs c (TOther (u "my.NdArray")) = Ok (r_ndarray, RRef r_ndarray).
Proof.
  exists (mk_ctx false true uni_ascii [(path_from_py uni_ascii (u "my.NdArray"), mk_path false [u "NdArray"])]), (mk_path false [u "NdArray"]).
  split; [now left|]. vm_compute. reflexivity.
Qed.
Print Assumptions C22_numpy_refuted.
Example C22_ex : plain_name (u "pkg.Shape") /\ table_get (u "pkg.Shape") name_table = None /\
  In (path_from_py (cx_uni ex_ctx) (u "pkg.Shape"), ex_rel) (cx_local ex_ctx) /\ keys_unique (cx_local ex_ctx) /\
  syn_path_ok (cx_uni ex_ctx) ex_rel = true /\
  into_rs ex_ctx (TOther (u "pkg.Shape[int]")) = Ok (RBound (RLocal ex_rel), RRef (RBound (RLocal ex_rel))) /\
  into_rs ex_ctx (TOther (u "pkg.Other")) = Ok (bound_of "PyAny", into_py_of "PyAny").
Proof.
  split; [apply plain_by; [discriminate|reflexivity|reflexivity|reflexivity]|]. split; [reflexivity|]. split; [now left|].
  split; [intros k v v' [H|[]] [H'|[]]; congruence|]. repeat split; vm_compute; reflexivity.
Qed.

(** ** C61 *)
(** Full claim: for every annotation type. *)
Theorem C61_argument_arrives_partial : forall c t o b p, table_ok (cx_local c) -> faithful t = true ->
  into_rs c t = Ok (o, b) -> preprocess_borrowed c t = Ok p -> exists r, after p b = Some r /\ arrives r t.
Proof. exact passed_arrives. Qed.
Print Assumptions C61_argument_arrives_partial.
Theorem C61_none_kept_partial : forall c t p, preprocess_borrowed c (TOptional t) = Ok p ->
  (forall k v, t <> TDict k v) -> none_after p = NoneStays.
Proof.
  intros c t p Hp Ht. destruct (none_after p) eqn:E; [easy|]. exfalso.
  destruct (none_kept c t p Hp E) as (k & v & -> & _). now apply (Ht k v).
Qed.
Print Assumptions C61_none_kept_partial.
(** [Optional[dict]]: passing [None] calls Python with an empty dict. *)
Theorem C61_none_dict_refuted : forall c, exists p,
  preprocess_borrowed c (TOptional (TDict TString TAny)) = Ok p /\ none_after p = NoneEmptyDict.
Proof. intros c. eexists. split; reflexivity. Qed.
Print Assumptions C61_none_dict_refuted.
(** The excluded annotations do not arrive as annotated. *)
Definition arrives_wrong (t : ptype) : Prop := forall c o b p r,
  into_rs c t = Ok (o, b) -> preprocess_borrowed c t = Ok p -> after p b = Some r -> ~ arrives r t.
Lemma wrong_by : forall t, (forall c, exists o b, into_rs c t = Ok (o, b) /\ preprocess_borrowed c t = Ok PrepNone /\
  ~ arrives b t) -> arrives_wrong t.
Proof.
  intros t H c o b p r Ht Hp Ha. destruct (H c) as (o' & b' & Ht' & Hp' & Hn). rewrite Ht' in Ht. injection Ht as <- <-.
  rewrite Hp' in Hp. injection Hp as <-. injection Ha as <-. exact Hn.
Qed.
Ltac no_arrival := apply wrong_by; intros c; eexists _, _; split; [reflexivity|]; split; [reflexivity|];
  intros H; inversion H; subst; match goal with
  | A : arrives _ _ |- _ => inversion A; subst; try discriminate
  | _ => idtac end.
Theorem C61_bytes_refuted : arrives_wrong TBytes /\ arrives_wrong TByteArray.
Proof. split; no_arrival. Qed.
Print Assumptions C61_bytes_refuted.
Theorem C61_frozenset_refuted : arrives_wrong (TFrozenSet TString).
Proof. no_arrival. Qed.
Print Assumptions C61_frozenset_refuted.
Theorem C61_variadic_tuple_refuted : arrives_wrong (TTuple [TLong; TEllipsis]).
Proof. no_arrival. Qed.
Print Assumptions C61_variadic_tuple_refuted.
Theorem C61_path_refuted : arrives_wrong TPath.
Proof. no_arrival. Qed.
Print Assumptions C61_path_refuted.
Example C61_ex : faithful ex_type = true /\ (exists o b p, into_rs ex_ctx ex_type = Ok (o, b) /\
  preprocess_borrowed ex_ctx ex_type = Ok p) /\ faithful (TFrozenSet TFloat) = true.
Proof. split; [reflexivity|]. split; [|reflexivity]. eexists _, _, _. split; vm_compute; reflexivity. Qed.
