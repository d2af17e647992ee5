(** * Property theorems: type annotations (C10-C18) *)
From Verif Require Import Base Model_Config Model_Type Spec_Type Proof_Base Proof_Repair Proof_Type Proof_Ann
  Proof_Union Proof_Total Proof_Obj Spec_Loose Proof_Loose.

(** Tactic for the examples: plain names and well-formed annotation trees by computation. *)
Lemma plain_by : forall n, n <> [] ->
  forallb (fun c => negb (is_ws c) && negb (contains_char c (u "[]|,'<>"))) n = true ->
  starts_with (u "typing.") n = false -> starts_with (u "collections.") n = false -> plain_name n.
Proof.
  intros n Hn H H1 H2. split; [easy|]. split; [|easy]. intros c Hc. rewrite forallb_forall in H. apply H in Hc.
  apply andb_prop in Hc as [Ha Hb]. split; [now apply negb_true_iff in Ha|]. apply negb_true_iff in Hb.
  now apply contains_false.
Qed.
Ltac name_ok := apply ok_name, plain_by; [discriminate|reflexivity|reflexivity|reflexivity].

Ltac loose_name := apply lo_name, plain_by; [discriminate|reflexivity|reflexivity|reflexivity].

(** ** C10 *)
Theorem C10_annotation_parsing_terminates : forall dbg s, from_str dbg s <> OutOfFuel.
Proof. intros dbg s. exact (proj1 (from_str_nobad dbg s)). Qed.
Print Assumptions C10_annotation_parsing_terminates.

(** The bound on the recursion depth is not what gives the answer: any larger one gives the same. *)
Theorem C10_depth_bound_irrelevant : forall dbg n s, str_measure s < n -> from_str_fuel dbg n s = from_str dbg s.
Proof. exact fuel_enough. Qed.
Print Assumptions C10_depth_bound_irrelevant.

(** The recursive equation of the source, without any bound. *)
Theorem C10_recursive_equation : forall dbg s, from_str dbg s = from_str_body dbg (from_str dbg) s.
Proof. exact from_str_eq. Qed.
Print Assumptions C10_recursive_equation.

Example C10_ex : from_str true (u "dict[str, list[tuple[int, int]]]") =
  Ok (TDict TString (TList (TTuple [TLong; TLong]))).
Proof. vm_compute. reflexivity. Qed.

(** ** C11 *)
(** Full claim: forall dbg s, exists t, from_str dbg s = Ok t. It is false (below). What holds:
    texts without [dict[], [<class '>] and [<enum '>] are converted in a release build, and also
    in a debug build if they contain no closing bracket. *)
Theorem C11_no_panic_partial : forall dbg s,
  (forall k, In k (map u ["dict["; "<class '>"; "<enum '>"]%string) -> contains_str k s = false) ->
  (dbg = false \/ ~ In 93%N s) -> exists t, from_str dbg s = Ok t.
Proof. intros dbg s H1 H2. exact (from_str_fine dbg s (conj H1 H2)). Qed.
Print Assumptions C11_no_panic_partial.

Theorem C11_one_argument_dict_refuted : forall dbg, from_str dbg (u "dict[str]") = Panic PIndex.
Proof. intros []; vm_compute; reflexivity. Qed.
Print Assumptions C11_one_argument_dict_refuted.
Theorem C11_quote_refuted : forall dbg, from_str dbg (u "<class '>") = Panic PUnreachable /\
  from_str dbg (u "<enum '>") = Panic PUnreachable.
Proof. intros []; split; vm_compute; reflexivity. Qed.
Print Assumptions C11_quote_refuted.
(** A valid annotation aborts debug builds only. *)
Theorem C11_debug_underflow_refuted : exists s, from_str true s = Panic POverflow /\
  (exists t, from_str false s = Ok t) /\ s = u "list[int|str|float] | dict[bool | tuple[int], e]".
Proof. eexists. split; [|split]; [| |reflexivity]; [vm_compute; reflexivity|]. eexists. vm_compute. reflexivity. Qed.
Print Assumptions C11_debug_underflow_refuted.

(** Printed annotation trees, in both builds and with arguments of any size: every tree whose
    dictionary keys have no closing bracket before their first comma is converted to some type. *)
Theorem C11_trees_partial : forall dbg w a, all_blank w -> ann_loose a ->
  exists t, from_str dbg (print_ann w a) = Ok t.
Proof. exact loose_fine. Qed.
Print Assumptions C11_trees_partial.
(** The same for two or more such trees separated by bars. *)
Theorem C11_unions_partial : forall dbg w l ps, all_blank w -> length l >= 2 ->
  (forall a, In a l -> ann_loose a) -> Forall2 padded (map (print_ann w) l) ps ->
  exists t, from_str dbg (join (u "|") ps) = Ok t.
Proof. exact loose_union. Qed.
Print Assumptions C11_unions_partial.
(** Without the condition on the keys a valid annotation aborts release builds as well. *)
Definition C11_bad_tree : ann :=
  XTuple [XTuple [XName (u "int"); XName (u "int"); XName (u "int")];
          XDict (XTuple [XName (u "int")]) (XName (u "str"))].
Theorem C11_tree_refuted : forall dbg,
  print_ann (u " ") C11_bad_tree = u "tuple[tuple[int, int, int], dict[tuple[int], str]]" /\
  from_str dbg (print_ann (u " ") C11_bad_tree) = Panic PIndex.
Proof. intros []; split; vm_compute; reflexivity. Qed.
Print Assumptions C11_tree_refuted.
(** A tree that no size condition admits (it is not read back correctly) is still converted. *)
Definition C11_tree : ann :=
  XTuple [XTuple [XName (u "int"); XName (u "int"); XName (u "int"); XName (u "int")];
          XDict (XName (u "str")) (XTuple [XName (u "int"); XWrap WClass (XName (u "a.B"))])].
Example C11_tree_ex : ann_loose C11_tree /\ all_blank (u " ") /\
  print_ann (u " ") C11_tree = u "tuple[tuple[int, int, int, int], dict[str, tuple[int, <class 'a.B'>]]]" /\
  from_str true (print_ann (u " ") C11_tree) =
    Ok (TTuple [TTuple [TLong; TLong; TLong; TLong]; TOther (u "dict[str"); TOther (u "tuple[int"); TOther (u "<class 'a.B'>]]")]).
Proof.
  split; [|split; [intros c [<-|[]]; reflexivity|split; [reflexivity|vm_compute; reflexivity]]].
  unfold C11_tree. apply lo_tuple; [discriminate|]. intros a [<-|[<-|[]]].
  - apply lo_tuple; [discriminate|]. intros a [<-|[<-|[<-|[<-|[]]]]]; loose_name.
  - apply lo_dict; [loose_name| |apply contains_false; reflexivity].
    apply lo_tuple; [discriminate|]. intros a [<-|[<-|[]]]; [loose_name|].
    apply lo_class; [now left|]. apply plain_by; [discriminate|reflexivity|reflexivity|reflexivity].
Qed.

Example C11_ex : (forall k, In k (map u ["dict["; "<class '>"; "<enum '>"]%string) ->
    contains_str k (u "tuple[int | None, ]]") = false) /\
  from_str false (u "tuple[int | None, ]]") = Ok (TOptional (TOther (u "tuple[int"))).
Proof.
  split; [|vm_compute; reflexivity]. intros k Hk. cbn [map In] in Hk.
  destruct Hk as [<-|[<-|[<-|[]]]]; reflexivity.
Qed.

(** ** C12 *)
(** Any stack of wrappers, outermost first. *)
Fixpoint wrap_all (ws : list wrapper) (s : str) : str :=
  match ws with
  | [] => s
  | w :: r => wrap_pre w ++ wrap_all r s ++ wrap_suf w
  end.
Lemma wrap_all_bar : forall ws s, ~ In c_bar s -> ~ In c_bar (wrap_all ws s).
Proof.
  induction ws as [|w ws IH]; intros s H; [easy|]. cbn [wrap_all]. repeat apply no_bar_app; [|now apply IH|]; destruct w; nobar_const.
Qed.
Lemma wrap_all_abc : forall ws s, starts_with (u "abc.") s = false -> starts_with (u "abc.") (wrap_all ws s) = false.
Proof. intros [|w ws] s H; [easy|]. destruct w; reflexivity. Qed.
Lemma wrap_all_read : forall dbg ws s, ~ In c_bar s -> starts_with (u "abc.") s = false ->
  from_str dbg (wrap_all ws s) = from_str dbg s.
Proof.
  induction ws as [|w ws IH]; intros s H Ha; [easy|]. cbn [wrap_all].
  change (wrap_pre w ++ wrap_all ws s ++ wrap_suf w) with (wrap_text w (wrap_all ws s)).
  rewrite from_str_wrap; [now apply IH|now apply wrap_all_bar|]. intros _. now apply wrap_all_abc.
Qed.

(** [collections.abc.X] is by its spelling also [collections.] around [abc.X]; hence the second
    hypothesis. *)
Theorem C12_wrappers_transparent : forall dbg ws s, ~ In 124%N s -> starts_with (u "abc.") s = false ->
  from_str dbg (wrap_all ws s) = from_str dbg s.
Proof. exact wrap_all_read. Qed.
Print Assumptions C12_wrappers_transparent.

Example C12_ex : wrap_all [WClass; WTyping; WCollectionsAbc] (u "list[int]") = u "<class 'typing.collections.abc.list[int]'>" /\
  from_str false (u "<class 'typing.collections.abc.list[int]'>") = Ok (TList TLong) /\
  ~ In 124%N (u "list[int]").
Proof. split; [reflexivity|]. split; [vm_compute; reflexivity|]. apply contains_false. reflexivity. Qed.

(** ** C13 *)
(** The full claim has no [fits] conditions in [ann_ok] and also covers [Callable[[..], ..]]; both
    are refuted below. *)
Theorem C13_structure_partial : forall dbg w a, all_blank w -> ann_ok a ->
  from_str dbg (print_ann w a) = Ok (meaning a).
Proof. exact annotation_read. Qed.
Print Assumptions C13_structure_partial.

(** For a tuple of well-formed members the size condition is exactly what decides. *)
Theorem C13_tuple_exact : forall dbg w l, all_blank w -> l <> [] -> (forall a, In a l -> ann_ok a) ->
  (from_str dbg (print_ann w (XTuple l)) = Ok (meaning (XTuple l)) <-> fits (map pieces_of l)).
Proof. exact tuple_read_iff. Qed.
Print Assumptions C13_tuple_exact.

Theorem C13_two_tuples_refuted : forall dbg,
  from_str dbg (u "tuple[tuple[int, int, int], tuple[int, int]]") =
    Ok (TTuple [TTuple [TLong; TLong; TLong]; TOther (u "tuple[int"); TOther (u "int]")]).
Proof. intros []; vm_compute; reflexivity. Qed.
Print Assumptions C13_two_tuples_refuted.
Theorem C13_callable_parameters_refuted : forall dbg,
  from_str dbg (u "Callable[[int], str]") = Ok (TFunction [TOther (u "[int]")] TString).
Proof. intros []; vm_compute; reflexivity. Qed.
Print Assumptions C13_callable_parameters_refuted.
(** The capitalised typing names are not recognised in texts. *)
Theorem C13_typing_generics_refuted : forall dbg,
  from_str dbg (u "typing.List[int]") = Ok (TOther (u "List[int]")) /\
  from_str dbg (u "typing.Optional[int]") = Ok (TOther (u "Optional[int]")) /\
  from_str dbg (u "set") = Ok (TOther (u "set")).
Proof. intros []; repeat split; vm_compute; reflexivity. Qed.
Print Assumptions C13_typing_generics_refuted.

Definition C13_tree : ann :=
  XDict (XName (u "str"))
        (XCallable [XName (u "..."); XGen GList (XWrap WTyping (XName (u "Any")))]
                   (XTuple [XName (u "int"); XWrap WClass (XName (u "foo.Bar"))])).
Example C13_ex : ann_ok C13_tree /\
  print_ann (u " ") C13_tree = u "dict[str, Callable[..., list[typing.Any], tuple[int, <class 'foo.Bar'>]]]" /\
  meaning C13_tree = TDict TString (TFunction [TEllipsis; TList TAny] (TTuple [TLong; TOther (u "foo.Bar")])).
Proof.
  split; [|split; reflexivity]. unfold C13_tree. apply ok_dict; [name_ok| |cbn; intuition lia].
  apply ok_callable.
  - intros a [<-|[<-|[]]]; [name_ok|]. apply ok_gen, ok_wrap; [name_ok|discriminate].
  - apply ok_tuple; [discriminate| |cbn; intuition lia]. intros a [<-|[<-|[]]]; [name_ok|].
    apply ok_wrap; [name_ok|discriminate].
  - cbn. repeat split; try tauto; try lia.
Qed.

(** ** C14 *)
(** Full claim: unions anywhere in the tree. Proved: unions at the top level of members without
    bars; nested bars are refuted, and so is a member whose name merely contains "None". *)
Theorem C14_union_partial : forall dbg w l ps, all_blank w -> length l >= 2 -> (forall a, In a l -> ann_ok a) ->
  Forall2 padded (map (print_ann w) l) ps ->
  (length l >= 3 \/ forall a, In a l -> contains_str (u "None") (print_ann w a) = false) ->
  from_str dbg (join (u "|") ps) = Ok (TUnion (map meaning l)).
Proof. exact union_read. Qed.
Print Assumptions C14_union_partial.
Theorem C14_optional_partial : forall dbg w a s1 s2, all_blank w -> ann_ok a ->
  contains_str (u "None") (print_ann w a) = false ->
  padded (print_ann w a) s1 -> padded (u "None") s2 ->
  from_str dbg (s1 ++ u "|" ++ s2) = Ok (TOptional (meaning a)) /\
  from_str dbg (s2 ++ u "|" ++ s1) = Ok (TOptional (meaning a)).
Proof. exact optional_read. Qed.
Print Assumptions C14_optional_partial.

Theorem C14_nested_bar_refuted : forall dbg,
  from_str dbg (u "list[int | None]") = Ok (TOptional (TOther (u "list[int"))) /\
  from_str dbg (u "dict[str, int | None]") = Ok (TOptional (TOther (u "dict[str, int"))) /\
  from_str dbg (u "list[int | str | float]") = Ok (TUnion [TList (TOther (u "int,str,float"))]).
Proof. intros []; repeat split; vm_compute; reflexivity. Qed.
Print Assumptions C14_nested_bar_refuted.
Theorem C14_none_in_name_refuted : forall dbg,
  from_str dbg (u "NoneFoo | int") = Ok (TOptional (TOther (u "NoneFoo"))).
Proof. intros []; vm_compute; reflexivity. Qed.
Print Assumptions C14_none_in_name_refuted.

(** In general: a text with a bar anywhere, if converted at all, becomes an optional or a union. So
    a list, set, dictionary, tuple or function type with a bar inside is never read as one. *)
Theorem C14_bar_outermost_refuted : forall dbg s t, In 124%N s -> from_str dbg s = Ok t ->
  (exists x, t = TOptional x) \/ (exists l, t = TUnion l).
Proof. exact bar_outermost. Qed.
Print Assumptions C14_bar_outermost_refuted.

Example C14_ex : from_str true (u "int | list[str]| None") = Ok (TUnion [TLong; TList TString; TNone]) /\
  Forall2 padded (map (print_ann []) [XName (u "int"); XGen GList (XName (u "str")); XName (u "None")])
                 [u "int "; u " list[str]"; u " None"] /\
  padded (u "list[str]") (u " list[str]") /\ contains_str (u "None") (u "list[str]") = false.
Proof.
  assert (B0 : all_blank []) by (intros ? []).
  assert (B1 : all_blank (u " ")) by (intros c [<-|[]]; reflexivity).
  split; [vm_compute; reflexivity|]. split; [|split; [exists (u " "), []; easy|reflexivity]].
  repeat constructor; [exists [], (u " ")|exists (u " "), []|exists (u " "), []]; easy.
Qed.

(** ** C15 *)
Theorem C15_regroup_exact : forall dbg args, args <> [] -> (forall a, In a args -> argument a) ->
  (repair dbg 44%N (split_char 44%N (join [44%N] args)) = Ok args <-> fits (map n_pieces args)).
Proof. exact regroup_iff. Qed.
Print Assumptions C15_regroup_exact.
Theorem C15_text_kept : forall dbg sep seq seq', repair dbg sep seq = Ok seq' ->
  join [sep] seq' = join [sep] seq.
Proof. exact repair_text_kept. Qed.
Print Assumptions C15_text_kept.
Theorem C15_release_total : forall sep seq, seq <> [] -> exists seq', repair false sep seq = Ok seq'.
Proof. exact repair_total_release. Qed.
Print Assumptions C15_release_total.

Example C15_ex : let args := map u ["list[int]"; "tuple[a,b]"; "c"; "dict[k,v]"]%string in
  fits (map n_pieces args) /\ (forall a, In a args -> argument a) /\
  repair true 44%N (split_char 44%N (join [44%N] args)) = Ok args.
Proof.
  cbv zeta. split; [cbn; repeat split; try tauto; lia|]. split; [|vm_compute; reflexivity].
  intros a Ha. apply argument_closes. cbn [map In] in Ha.
  destruct Ha as [<-|[<-|[<-|[<-|[]]]]]; vm_compute; repeat split; discriminate.
Qed.

(** ** C16 *)
(** Full claim without the hypothesis on datetime classes: refuted below. *)
Theorem C16_closest_base_partial : forall dbg sub text, consistent sub -> sub BDateTime = false ->
  (exists b, sub b = true) -> exists b, closest sub b /\ from_class dbg sub text = Ok (builtin_type b).
Proof. exact class_closest. Qed.
Print Assumptions C16_closest_base_partial.
Theorem C16_unique_base_partial : forall dbg sub text b, consistent sub -> sub BDateTime = false ->
  closest sub b -> (forall b', closest sub b' -> b' = b) -> from_class dbg sub text = Ok (builtin_type b).
Proof. exact class_closest_unique. Qed.
Print Assumptions C16_unique_base_partial.
Theorem C16_no_known_base : forall dbg sub text, (forall b, sub b = false) -> from_class dbg sub text = from_str dbg text.
Proof. exact class_unknown. Qed.
Print Assumptions C16_no_known_base.
Theorem C16_datetime_refuted : exists sub text, consistent sub /\ closest sub BDateTime /\
  (forall b, closest sub b -> b = BDateTime) /\ forall dbg, from_class dbg sub text = Ok TDate.
Proof. exact class_datetime. Qed.
Print Assumptions C16_datetime_refuted.

Example C16_ex : let sub := fun b => match b with BBool | BLong => true | _ => false end in
  consistent sub /\ closest sub BBool /\ from_class true sub (u "<class 'bool'>") = Ok TBool.
Proof.
  cbv zeta. split; [|split; [|reflexivity]].
  - intros a b [[-> ->]|[-> ->]] H; [reflexivity|exact H].
  - split; [reflexivity|]. intros a [[_ H]|[_ H]]; discriminate.
Qed.

(** ** C17 *)
Theorem C17_typing_objects_partial : forall dbg o, obj_ok o -> from_ann dbg (render o) = Ok (obj_meaning o).
Proof. exact object_read. Qed.
Print Assumptions C17_typing_objects_partial.
(** [typing.Counter[str]] has a dict as origin and one argument: the conversion panics. *)
Theorem C17_counter_refuted : forall dbg, from_ann dbg typing_counter = Panic PIndex.
Proof. exact counter_panics. Qed.
Print Assumptions C17_counter_refuted.

Definition C17_obj : tobj :=
  ODict (OBuiltin BString (u "<class 'str'>"))
        (OOptional (OCallable [OUnion [OUser (u "a.B"); OBuiltin BLong []; ONoneType]] (OTuple [OUser (u "X"); OEllipsis]))).
Example C17_ex : obj_ok C17_obj /\ obj_meaning C17_obj =
  TDict TString (TOptional (TFunction [TUnion [TOther (u "a.B"); TLong; TNone]] (TTuple [TOther (u "X"); TEllipsis]))).
Proof.
  split; [|reflexivity]. unfold C17_obj.
  assert (P : forall n, In n [u "a.B"; u "X"] -> plain_name n)
    by (intros n [<-|[<-|[]]]; apply plain_by; try reflexivity; discriminate).
  repeat constructor; try discriminate; try (apply P; cbn; tauto).
  - intros x [<-|[]]. constructor; [|left; cbn; lia].
    intros y [<-|[<-|[<-|[]]]]; constructor; try discriminate. apply P. now left.
  - intros x [<-|[<-|[]]]; constructor. apply P. right. now left.
Qed.

(** ** C18 *)
(** The claim is false for every annotation: both spellings are identified with [X]. *)
Theorem C18_class_annotation_refuted : forall dbg s, ~ In 124%N s ->
  from_str dbg (u "type[" ++ s ++ u "]") = from_str dbg s.
Proof. exact from_str_type. Qed.
Print Assumptions C18_class_annotation_refuted.
Theorem C18_typing_type_refuted : forall dbg a t, from_ann dbg a = Ok t -> from_ann dbg (typing_type a) = Ok t.
Proof. exact typing_type_same. Qed.
Print Assumptions C18_typing_type_refuted.
(** What does hold: the bare class-object annotation is the type of types. *)
Theorem C18_bare_type_partial : forall dbg text, from_ann dbg (builtin_class BType text) = Ok TType.
Proof. reflexivity. Qed.
Print Assumptions C18_bare_type_partial.
Example C18_ex : from_str true (u "type[int]") = Ok TLong /\ ~ In 124%N (u "int").
Proof. split; [vm_compute; reflexivity|]. apply contains_false. reflexivity. Qed.
