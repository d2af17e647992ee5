(** * Property theorems: results arrive as annotated (C75)

    If Python returns an instance of the annotation, the generated function returns it, as a Rust value that stands for
    it. [round] is what Python's [float] makes of an integer; the theorems hold for every such function. *)
From Coq Require Import ZArith Lia.
From Verif Require Import Base Model_Ident Model_Path Model_Type Model_IntoRs Model_Text Model_Config Model_World Model_Out Model_Function Model_Property
  Spec_Path Spec_Call Spec_Prop Spec_Rust Spec_Items Spec_Value Proof_Base Proof_IntoRs Proof_Function Proof_Kind Proof_Getter Proof_Value Prop_Rust Prop_Function Example_World.

(** Full claim: without the conditions on [t], and for integers of any size; refuted below, one by one. The conditions
    [good_keys], [no_ip] and [small_tuples] are those of C19-C21: without them the text is not accepted by Rust. *)
Theorem C75_arrives_partial : forall round c t v o b, no_arrays (cx_numpy c) t -> good_keys t = true -> no_ip t = true -> no_callable t = true ->
  small_tuples t = true -> conforms t v -> small round v -> into_rs c t = Ok (o, b) -> exists r, extract round o v = Some r /\ stands round r v.
Proof. exact arrives_as. Qed.
Print Assumptions C75_arrives_partial.

(** For the functions and methods that are written *)
Theorem C75_function_partial : forall round e o name typ f a g scope impl d ty, fn_parse e o name typ = Ok f -> result_annotation (e_world e) o a ->
  fn_generate g scope f = Ok impl -> In (GFn d) (frags_of impl) -> k_ret (f_contract d) = RetType ty ->
  exists t, read_ann (e_dbg e) a = Ok t /\
    forall v, settled (g_cx g) t -> conforms t v -> small round v -> exists r, extract round ty v = Some r /\ stands round r v.
Proof.
  intros round e o name typ f a g scope impl d ty Hp (sg & Hs & <-) Hg Hd Hr.
  destruct (fn_parse_inv _ _ _ _ _ _ Hp Hs) as (_ & _ & _ & _ & _ & _ & _ & _ & _ & Ha & _). exists (fn_ret f). split; [exact Ha|].
  destruct (result_type _ _ _ _ _ Hg Hd) as (rt & Et & Er). rewrite Hr in Er. assert (rt = ty) as ->.
  { destruct (match fn_typ f with FMethod _ MConstructor => true | _ => false end); [discriminate Er|now injection Er]. }
  intros v (H1 & H2 & H3 & H4 & H5) Hv Hm. apply owned_of in Et as (b & Et). exact (arrives_as round _ _ _ _ _ H1 H2 H3 H4 H5 Hv Hm Et).
Qed.
Print Assumptions C75_function_partial.
(** For getters; [t] is the annotation of the getter, or else the type of the property object. *)
Theorem C75_getter_partial : forall round e o name p gx scope tr impls n d,
  prop_parse e o name OwnerClass = Ok p -> prop_generate gx scope p = Ok (IMethod tr impls) -> In (GFn d) impls -> f_body d = BGet n ->
  exists t ty, k_ret (f_contract d) = RetType ty /\
    ((exists g a, getter_of (e_world e) o g /\ result_annotation (e_world e) g a /\ read_ann (e_dbg e) a = Ok t) \/
     ((forall g, getter_of (e_world e) o g -> w_signature (e_world e) g = None) /\ type_of e o = Ok t)) /\
    forall v, settled (g_cx gx) t -> conforms t v -> small round v -> exists r, extract round ty v = Some r /\ stands round r v.
Proof.
  intros round e o name p gx scope tr impls n d Hp Hg Hd Hb.
  destruct (getter_gives _ _ _ _ _ _ _ _ _ _ Hp Hg Hd Hb) as (t & ty & Hr & Et & Ht). exists t, ty. split; [exact Hr|]. split; [exact Ht|].
  intros v (H1 & H2 & H3 & H4 & H5) Hv Hm. apply owned_of in Et as (b & Et). exact (arrives_as round _ _ _ _ _ H1 H2 H3 H4 H5 Hv Hm Et).
Qed.
Print Assumptions C75_getter_partial.

(** ** Where it does not *)
(** An integer that needs more than 64 bits *)
Theorem C75_big_int_refuted : forall round c, conforms TLong (VInt (2 ^ 63)) /\
  exists o b, into_rs c TLong = Ok (o, b) /\ forall z, in_i64 z = false -> extract round o (VInt z) = None.
Proof.
  intros round c. split; [now apply (co_int _ (2 ^ 63)%Z)|]. eexists _, _. split; [reflexivity|]. intros z H.
  change ((if in_i64 z then Some (ValI64 z) else None) = None). now rewrite H.
Qed.
Print Assumptions C75_big_int_refuted.
(** A callable is returned only if it is a function written in Python: not a built-in function, a class or an object
    with [__call__]. *)
Theorem C75_callable_refuted : forall round c ps r, exists o b, into_rs c (TFunction ps r) = Ok (o, b) /\
  (forall v, extract round o v <> None <-> v = VOf KFunction) /\
  forall v, In v [VOf KCFunction; VOf KType; VObject (u "functools.partial")] -> conforms (TFunction ps r) v /\ extract round o v = None.
Proof.
  intros round c ps r. eexists _, _. split; [reflexivity|]. split.
  - intros v. split; [|intros ->; discriminate]. intros H. destruct v as [| | | | | | | | | | | | |k| |]; try (destruct (H eq_refl)). destruct k; try (destruct (H eq_refl)). reflexivity.
  - intros v [<-|[<-|[<-|[]]]]; (split; [|reflexivity]); constructor; auto.
Qed.
Print Assumptions C75_callable_refuted.
Example C75_ex_callable : from_str false (u "Callable[[int], str]") = Ok (TFunction [TOther (u "[int]")] TString) /\
  from_str false (u "callable") = Ok (TFunction [TEllipsis] TUnknown).
Proof. split; vm_compute; reflexivity. Qed.
(** Iterators and iterables are read as lists. No iterator is returned: it is not a sequence. *)
Theorem C75_iterator_refuted : forall round c dbg s,
  In s ["typing.Iterator[int]"; "collections.abc.Iterator"; "typing.Iterable[int]"; "collections.abc.Iterable"]%string ->
  exists t o b, from_str dbg (u s) = Ok t /\ into_rs c t = Ok (o, b) /\ forall class, extract round o (VObject class) = None.
Proof.
  intros round c dbg s H. cbn in H. destruct H as [<-|[<-|[<-|[<-|[]]]]]; destruct dbg; eexists _, _, _; (split; [vm_compute; reflexivity|]); (split; reflexivity).
Qed.
Print Assumptions C75_iterator_refuted.
(** A mapping that is not a dictionary *)
Theorem C75_mapping_refuted : forall round c dbg, exists t o b, from_str dbg (u "collections.abc.Mapping") = Ok t /\ into_rs c t = Ok (o, b) /\
  forall class, extract round o (VObject class) = None.
Proof. intros round c []; eexists _, _, _; (split; [vm_compute; reflexivity|]); (split; reflexivity). Qed.
Print Assumptions C75_mapping_refuted.
(** [type[int]] is read as [int]: the class itself is not returned. *)
Theorem C75_class_object_refuted : forall round c dbg, exists o b, from_str dbg (u "type[int]") = Ok TLong /\ into_rs c TLong = Ok (o, b) /\
  extract round o (VOf KType) = None.
Proof. intros round c []; eexists _, _; (split; [vm_compute; reflexivity|]); (split; reflexivity). Qed.
Print Assumptions C75_class_object_refuted.
(** With the feature [numpy], an array of numbers is not returned; only arrays of objects are. *)
Theorem C75_array_refuted : forall round c, cx_numpy c = true -> exists o b, into_rs c (TOther (u "numpy.ndarray")) = Ok (o, b) /\
  forall v, extract round o v <> None <-> v = VArray true.
Proof.
  intros round c H. exists r_ndarray, (RRef r_ndarray). split.
  - cbn [into_rs]. unfold map_type, map_external. rewrite H. reflexivity.
  - intros v. split; [|intros ->; discriminate]. intros X. destruct v as [| | | | | | | | | | | | | |[]|]; try (destruct (X eq_refl)). reflexivity.
Qed.
Print Assumptions C75_array_refuted.
(** Classes of the generated code are not checked: whatever Python returns, [None] too, is returned as an instance. *)
Theorem C75_class_unchecked_refuted : forall round c s rel, cx_dbg c = false -> cx_numpy c = false -> ~ In 91%N s -> keys_unique (cx_local c) ->
  In (path_from_py (cx_uni c) s, rel) (cx_local c) -> syn_path_ok (cx_uni c) rel = true ->
  exists o b, into_rs c (TOther s) = Ok (o, b) /\ forall v, extract round o v = Some (ValPy v).
Proof.
  intros round c s rel Hd Hn Hs Hu Hin Hok. exists (RBound (RLocal rel)), (RRef (RBound (RLocal rel))). split; [|reflexivity].
  rewrite <- (app_nil_r s). apply (C22_known_class c s [] rel); auto. now left.
Qed.
Print Assumptions C75_class_unchecked_refuted.

(** ** Examples *)
Definition ex_round (z : Z) : option N := if (Z.abs z <? 2 ^ 53)%Z then Some (Z.to_N (Z.abs z)) else None.
(** [{"a": [(True, 7, {"x", "y"})]}] for [Optional[Dict[str, List[Tuple[int, pkg.Shape, Set[str]]]]]] *)
Definition ex_value : pyv := VDict [(VStr (u "a"), VList [VTuple [VBool true; VObject (u "Shape"); VSet [VStr (u "x"); VStr (u "y")]]])].
Lemma ex_conforms : conforms ex_type ex_value.
Proof.
  apply co_optional. apply co_dict; cbn [map fst snd].
  - repeat constructor.
  - constructor; [|constructor]. apply co_list. constructor; [|constructor]. apply co_tuple; [exact I|].
    constructor; [now apply (co_int _ 1%Z)|]. constructor; [constructor|]. constructor; [|constructor]. apply co_set; [repeat constructor|].
    constructor; [|repeat constructor]. constructor; [|constructor]. intros [H|(z & H & _)]; discriminate.
  - repeat constructor.
Qed.
Lemma ex_small : small ex_round ex_value.
Proof.
  assert (H : ex_round 1 <> None) by discriminate. unfold ex_value.
  cbn [small fold_right fst snd]. exact (conj I (conj (conj (conj H (conj I (conj (conj I (conj I I)) I))) I) I)).
Qed.
Example C75_ex : settled ex_ctx ex_type /\ conforms ex_type ex_value /\ small ex_round ex_value /\
  match into_rs ex_ctx ex_type with Ok (o, _) => extract ex_round o ex_value | _ => None end = Some (ValOption (Some (ValMap [(ValString (u "a"),
    ValVec [ValTuple [ValI64 1; ValPy (VObject (u "Shape")); ValSet [ValString (u "x"); ValString (u "y")]]])]))).
Proof.
  split; [exact (conj (or_introl eq_refl) (conj eq_refl (conj eq_refl (conj eq_refl eq_refl))))|].
  split; [exact ex_conforms|]. split; [exact ex_small|]. vm_compute. reflexivity.
Qed.
Example C75_ex_big : in_i64 (2 ^ 63) = false /\ in_i64 (2 ^ 63 - 1) = true /\ in_i64 (- 2 ^ 63) = true /\ in_i64 (- 2 ^ 63 - 1) = false.
Proof. repeat split. Qed.
Example C75_ex_class : keys_unique (cx_local ex_ctx) /\ In (path_from_py (cx_uni ex_ctx) (u "pkg.Shape"), ex_rel) (cx_local ex_ctx) /\
  syn_path_ok (cx_uni ex_ctx) ex_rel = true.
Proof. split; [|split; [now left|reflexivity]]. intros k v v' [H|[]] [H'|[]]. congruence. Qed.
(** With the numpy feature: a dictionary of objects of a class [C] *)
Example C75_ex_numpy : no_arrays true (TDict TString (TOther (u "C"))) /\ ~ no_arrays true (TOther (u "numpy.ndarray[Any]")).
Proof.
  split.
  - right. intros s [<-|[]] (n & q & E & _ & _ & pre & m & En & Em & _). apply (f_equal (@length _)) in E, Em. rewrite En, !app_length in E. rewrite map_length in Em. cbn in E, Em. rewrite Em in E. lia.
  - intros [H|H]; [discriminate|]. apply (H (u "numpy.ndarray[Any]") (or_introl eq_refl)). exists (u "numpy.ndarray"), (u "[Any]"). split; [reflexivity|].
    split; [cbn; intuition discriminate|]. split; [right; now exists (u "Any]")|]. exists (u "numpy."), (u "ndarray"). split; [reflexivity|]. split; [reflexivity|]. right. now exists (u "numpy").
Qed.
