(** * What annotation texts mean *)
From Verif Require Import Base.
From Verif Require Import Model_Type.   (* for the datatype [ptype] only *)

(** ** Brackets *)
Fixpoint depth_change (s : str) : Z :=
  match s with
  | [] => 0
  | c :: t => (if (c =? 91)%N then 1 else if (c =? 93)%N then -1 else 0) + depth_change t
  end%Z.

(** A text is one bracketed argument: its brackets cancel out and every comma in it is inside
    brackets. *)
Definition argument (a : str) : Prop :=
  depth_change a = 0%Z /\
  (forall x y, a = x ++ [44%N] ++ y -> (depth_change x >= 1)%Z).

(** Number of comma-separated pieces of a text. *)
Fixpoint n_pieces (s : str) : nat :=
  match s with
  | [] => 1
  | c :: t => (if (c =? 44)%N then 1 else 0) + n_pieces t
  end.

Fixpoint total (l : list nat) : nat := match l with [] => 0 | x :: t => x + total t end.

(** "Every argument that contains commas is followed by at least as many pieces as it has itself,
    or only by arguments without commas." *)
Fixpoint fits (l : list nat) : Prop :=
  match l with
  | [] => True
  | p :: t => (p <= 1 \/ p <= total t \/ (forall q, In q t -> q = 1)) /\ fits t
  end.

(** ** Annotation trees *)
Inductive wrapper := WTyping | WCollections | WCollectionsAbc | WClass | WEnum.
Inductive generic := GList | GSequence | GIterable | GIterator | GSet | GFrozenSet.
Inductive ann :=
| XName (n : str)
| XGen (g : generic) (a : ann)
| XDict (k v : ann)
| XTuple (l : list ann)
| XCallable (ps : list ann) (r : ann)     (* as in Callable[..., R]: parameters not in brackets *)
| XWrap (w : wrapper) (a : ann).

Definition wrap_pre (w : wrapper) : str :=
  match w with
  | WTyping => u "typing." | WCollections => u "collections." | WCollectionsAbc => u "collections.abc."
  | WClass => u "<class '" | WEnum => u "<enum '"
  end.
Definition wrap_suf (w : wrapper) : str :=
  match w with WClass | WEnum => u "'>" | _ => [] end.
Definition gen_name (g : generic) : str :=
  match g with
  | GList => u "list" | GSequence => u "Sequence" | GIterable => u "Iterable"
  | GIterator => u "Iterator" | GSet => u "set" | GFrozenSet => u "frozenset"
  end.

(** The text of an annotation; [w] is the white space after each comma. *)
Fixpoint print_ann (w : str) (a : ann) : str :=
  match a with
  | XName n => n
  | XGen g x => gen_name g ++ u "[" ++ print_ann w x ++ u "]"
  | XDict k v => u "dict[" ++ print_ann w k ++ u "," ++ w ++ print_ann w v ++ u "]"
  | XTuple l => u "tuple[" ++ join (u "," ++ w) (map (print_ann w) l) ++ u "]"
  | XCallable ps r => u "Callable[" ++ join (u "," ++ w) (map (print_ann w) ps ++ [print_ann w r]) ++ u "]"
  | XWrap k x => wrap_pre k ++ print_ann w x ++ wrap_suf k
  end.

(** Meaning of plain names. *)
Definition name_table : list (str * ptype) :=
  [(u "Any", TAny); (u "bool", TBool); (u "bytearray", TByteArray); (u "bytes", TBytes);
   (u "float", TFloat); (u "int", TLong); (u "str", TString);
   (u "Union", TUnion [TUnknown]); (u "None", TNone); (u "NoneType", TNone);
   (u "dict", TDict TUnknown TUnknown); (u "Dict", TDict TUnknown TUnknown);
   (u "Mapping", TDict TUnknown TUnknown);
   (u "list", TList TUnknown);
   (u "Sequence", TList TUnknown); (u "Iterable", TList TUnknown); (u "Iterator", TList TUnknown);
   (u "tuple", TTuple [TUnknown]);
   (u "ipaddress.IPv4Address", TIpV4); (u "ipaddress.IPv6Address", TIpV6);
   (u "os.PathLike", TPath); (u "pathlib.Path", TPath); (u "slice", TSlice);
   (u "complex", TComplex);
   (u "datetime.date", TDate); (u "datetime.datetime", TDateTime); (u "timedelta", TDelta);
   (u "datetime.time", TTime); (u "datetime.tzinfo", TTzInfo);
   (u "capsule", TCapsule); (u "cfunction", TCFunction); (u "code", TCode);
   (u "Ellipsis", TEllipsis); (u "...", TEllipsis); (u "frame", TFrame);
   (u "function", TFunction [TEllipsis] TUnknown);
   (u "Callable", TFunction [TEllipsis] TUnknown); (u "callable", TFunction [TEllipsis] TUnknown);
   (u "module", TModule); (u "super", TSuper); (u "traceback", TTraceback);
   (u "_collections._tuplegetter", TAny); (u "AsyncState", TAny); (u "getset_descriptor", TAny);
   (u "member_descriptor", TAny); (u "method_descriptor", TAny); (u "property", TAny); (u "py", TAny)].

Fixpoint table_get (n : str) (l : list (str * ptype)) : option ptype :=
  match l with
  | [] => None
  | (k, t) :: r => if str_eqb n k then Some t else table_get n r
  end.
Definition name_meaning (n : str) : ptype :=
  match table_get n name_table with Some t => t | None => TOther n end.

Definition gen_type (g : generic) (t : ptype) : ptype :=
  match g with
  | GSet => TSet t | GFrozenSet => TFrozenSet t | _ => TList t
  end.

Fixpoint meaning (a : ann) : ptype :=
  match a with
  | XName n => name_meaning n
  | XGen g x => gen_type g (meaning x)
  | XDict k v => TDict (meaning k) (meaning v)
  | XTuple l => TTuple (map meaning l)
  | XCallable ps r => TFunction (map meaning ps) (meaning r)
  | XWrap _ x => meaning x
  end.

(** Characters that cannot occur in a (dotted) name. *)
Definition name_char (c : char) : Prop :=
  is_ws c = false /\ ~ In c (u "[]|,'<>").
Definition plain_name (n : str) : Prop :=
  n <> [] /\ (forall c, In c n -> name_char c) /\
  starts_with (u "typing.") n = false /\ starts_with (u "collections.") n = false.

(** Well-formed annotation trees whose arguments satisfy the [fits] condition. *)
Fixpoint pieces_of (a : ann) : nat :=
  match a with
  | XName _ => 1
  | XGen _ x => pieces_of x
  | XDict k v => pieces_of k + pieces_of v
  | XTuple l => total (map pieces_of l)
  | XCallable ps r => total (map pieces_of ps) + pieces_of r
  | XWrap _ x => pieces_of x
  end.

Inductive ann_ok : ann -> Prop :=
| ok_name n : plain_name n -> ann_ok (XName n)
| ok_gen g a : ann_ok a -> ann_ok (XGen g a)
| ok_dict k v : ann_ok k -> ann_ok v -> fits [pieces_of k; pieces_of v] -> ann_ok (XDict k v)
| ok_tuple l : l <> [] -> (forall a, In a l -> ann_ok a) -> fits (map pieces_of l) -> ann_ok (XTuple l)
| ok_callable ps r : (forall a, In a ps -> ann_ok a) -> ann_ok r ->
    fits (map pieces_of ps ++ [pieces_of r]) -> ann_ok (XCallable ps r)
| ok_wrap w a : ann_ok a ->
    (w = WCollections -> starts_with (u "abc.") (print_ann [] a) = false) -> ann_ok (XWrap w a).

(** All members of a union, each padded by white space on both sides. *)
Definition all_blank (s : str) : Prop := forall c, In c s -> is_ws c = true.
Definition padded (m s : str) : Prop :=
  exists w w', all_blank w /\ all_blank w' /\ s = w ++ m ++ w'.

(** ** Class objects: the known builtin types and their inheritance *)
(** [below a b]: builtin [a] is a strict subclass of builtin [b] in CPython. *)
Definition below (a b : builtin) : Prop :=
  (a = BBool /\ b = BLong) \/ (a = BDateTime /\ b = BDate).
(** The answers of [issubclass] for some class are consistent with the inheritance. *)
Definition consistent (sub : builtin -> bool) : Prop :=
  forall a b, below a b -> sub a = true -> sub b = true.
Definition builtin_type (b : builtin) : ptype :=
  match b with
  | BBool => TBool | BByteArray => TByteArray | BBytes => TBytes | BFloat => TFloat | BLong => TLong
  | BString => TString | BDict => TDict TUnknown TUnknown | BFrozenSet => TFrozenSet TUnknown
  | BList => TList TUnknown | BSet => TSet TUnknown | BTuple => TTuple [TUnknown]
  | BSlice => TSlice | BComplex => TComplex
  | BDate => TDate | BDateTime => TDateTime | BDelta => TDelta | BTime => TTime | BTzInfo => TTzInfo
  | BCapsule => TCapsule | BCFunction => TCFunction | BCode => TCode | BFrame => TFrame
  | BFunction => TFunction [TEllipsis] TUnknown | BModule => TModule | BSuper => TSuper
  | BTraceback => TTraceback | BType => TType
  end.
(** The closest known base of a class. *)
Definition closest (sub : builtin -> bool) (b : builtin) : Prop :=
  sub b = true /\ forall a, below a b -> sub a = false.

(** ** Typing objects as Python builds them *)
Definition builtin_dec : forall a b : builtin, {a = b} + {a <> b}.
Proof. decide equality. Defined.

Inductive tobj :=
| OBuiltin (b : builtin) (text : str)   (* a class whose closest known base is [b] *)
| OUser (name : str)                    (* a class without known base *)
| ONoneType
| OEllipsis
| OOptional (x : tobj)                  (* typing.Optional[x], i.e. Union[x, None] *)
| OUnion (l : list tobj)
| ODict (k v : tobj)
| OList (x : tobj)
| OSet (x : tobj)
| OFrozenSet (x : tobj)
| OTuple (l : list tobj)
| OCallable (ps : list tobj) (r : tobj)
| OIter (g : generic) (x : tobj)        (* typing.Sequence/Iterable/Iterator[x] *)
| OBare (b : builtin) (text : str).     (* typing.List etc. without arguments; [text] is its str() *)

Definition user_class (name : str) : pyann :=
  AClass (fun _ => false) (u "<class '" ++ name ++ u "'>").
Definition builtin_class (b : builtin) (text : str) : pyann :=
  AClass (fun x => if builtin_dec x b then true
                   else match b, x with BBool, BLong | BDateTime, BDate => true | _, _ => false end) text.
Definition none_type : pyann := user_class (u "NoneType").
Definition typing_union : pyann := ATyping None None (u "typing.Union").

(** The object, as seen by introspection. The [str()] of generic objects is never looked at. *)
Fixpoint render (o : tobj) : pyann :=
  match o with
  | OBuiltin b t => builtin_class b t
  | OUser n => user_class n
  | ONoneType => none_type
  | OEllipsis => AObj (u "Ellipsis")
  | OOptional x => ATyping (Some typing_union) (Some [render x; none_type]) []
  | OUnion l => ATyping (Some typing_union) (Some (map render l)) []
  | ODict k v => ATyping (Some (builtin_class BDict (u "<class 'dict'>"))) (Some [render k; render v]) []
  | OList x => ATyping (Some (builtin_class BList (u "<class 'list'>"))) (Some [render x]) []
  | OSet x => ATyping (Some (builtin_class BSet (u "<class 'set'>"))) (Some [render x]) []
  | OFrozenSet x => ATyping (Some (builtin_class BFrozenSet (u "<class 'frozenset'>"))) (Some [render x]) []
  | OTuple l => ATyping (Some (builtin_class BTuple (u "<class 'tuple'>"))) (Some (map render l)) []
  | OCallable ps r => ATyping (Some (user_class (u "collections.abc.Callable"))) (Some (map render ps ++ [render r])) []
  | OIter g x => ATyping (Some (user_class (u "collections.abc." ++ gen_name g))) (Some [render x]) []
  | OBare b t => ATyping (Some (builtin_class b t)) None t
  end.

Fixpoint obj_meaning (o : tobj) : ptype :=
  match o with
  | OBuiltin b _ => builtin_type b
  | OUser n => name_meaning n
  | ONoneType => TNone
  | OEllipsis => TEllipsis
  | OOptional x => TOptional (obj_meaning x)
  | OUnion l => TUnion (map obj_meaning l)
  | ODict k v => TDict (obj_meaning k) (obj_meaning v)
  | OList x => TList (obj_meaning x)
  | OSet x => TSet (obj_meaning x)
  | OFrozenSet x => TFrozenSet (obj_meaning x)
  | OTuple l => TTuple (map obj_meaning l)
  | OCallable ps r => TFunction (map obj_meaning ps) (obj_meaning r)
  | OIter _ x => TList (obj_meaning x)
  | OBare b _ => builtin_type b
  end.

(** What Python guarantees: a union has at least two members, a union of two members one of which
    is None is an Optional, and Optional[None] is None itself. Datetime classes are left out
    (see C16). *)
Inductive obj_ok : tobj -> Prop :=
| oo_builtin b t : b <> BDateTime -> obj_ok (OBuiltin b t)
| oo_user n : plain_name n -> obj_ok (OUser n)
| oo_none : obj_ok ONoneType
| oo_ellipsis : obj_ok OEllipsis
| oo_optional x : obj_ok x -> obj_meaning x <> TNone -> obj_ok (OOptional x)
| oo_union l : (forall x, In x l -> obj_ok x) ->
    (length l >= 3 \/ (length l = 2 /\ forall x, In x l -> obj_meaning x <> TNone)) -> obj_ok (OUnion l)
| oo_dict k v : obj_ok k -> obj_ok v -> obj_ok (ODict k v)
| oo_list x : obj_ok x -> obj_ok (OList x)
| oo_set x : obj_ok x -> obj_ok (OSet x)
| oo_frozenset x : obj_ok x -> obj_ok (OFrozenSet x)
| oo_tuple l : (forall x, In x l -> obj_ok x) -> obj_ok (OTuple l)
| oo_callable ps r : (forall x, In x ps -> obj_ok x) -> obj_ok r -> obj_ok (OCallable ps r)
| oo_iter g x : g = GSequence \/ g = GIterable \/ g = GIterator -> obj_ok x -> obj_ok (OIter g x)
| oo_bare b t : b <> BDateTime -> obj_ok (OBare b t).
