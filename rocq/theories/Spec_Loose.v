(** * Annotation trees without a condition on the sizes of their arguments *)
From Verif Require Import Base.
From Verif Require Import Spec_Type.

(** The part of a text before its first comma. *)
Fixpoint before_comma (s : str) : str :=
  match s with
  | [] => []
  | c :: t => if (c =? 44)%N then [] else c :: before_comma t
  end.

(** Trees over plain names whose arguments may have any number of pieces. The one condition: in
    [dict[K, V]] the text of [K] has no closing bracket before its first comma. *)
Inductive ann_loose : ann -> Prop :=
| lo_name n : plain_name n -> ann_loose (XName n)
| lo_gen g a : ann_loose a -> ann_loose (XGen g a)
| lo_dict k v : ann_loose k -> ann_loose v -> ~ In 93%N (before_comma (print_ann [] k)) -> ann_loose (XDict k v)
| lo_tuple l : l <> [] -> (forall a, In a l -> ann_loose a) -> ann_loose (XTuple l)
| lo_callable ps r : (forall a, In a ps -> ann_loose a) -> ann_loose r -> ann_loose (XCallable ps r)
| lo_class w n : (w = WClass \/ w = WEnum) -> plain_name n -> ann_loose (XWrap w (XName n))
| lo_wrap w a : (w = WTyping \/ w = WCollections \/ w = WCollectionsAbc) -> ann_loose a ->
    (w = WCollections -> starts_with (u "abc.") (print_ann [] a) = false) -> ann_loose (XWrap w a).
