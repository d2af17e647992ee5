(** * Values: what Python returns and what Rust makes of it (C75)

    Python's side is written after the documentation of typing and PEP 484 (an int where a float is expected), Rust's
    side after the documentation of pyo3 0.21 ([FromPyObject] and the types that implement it) and, for arrays, of the
    crate numpy. *)
From Coq Require Import ZArith.
From Verif Require Import Base Model_Path Model_Type Model_IntoRs Spec_Rust.

(** ** Python *)
Inductive pykind := KSlice | KComplex | KDate | KDateTime | KTime | KTzInfo | KDelta | KCapsule | KCFunction | KCode | KEllipsis | KFrame
| KFunction | KModule | KSuper | KTraceback | KType.
(** Floating-point numbers are not looked into. [VOf]: an object of a built-in class; [VArray]: an array of numpy, with
    objects or numbers in it; [VObject]: an instance of any other class, such as a generator, that is neither a number
    nor a sequence nor a path. *)
Inductive pyv :=
| VNone | VBool (b : bool) | VInt (z : Z) | VFloat (f : N) | VStr (s : str) | VBytes (l : list N) | VByteArray (l : list N)
| VList (l : list pyv) | VTuple (l : list pyv) | VSet (l : list pyv) | VFrozenSet (l : list pyv) | VDict (l : list (pyv * pyv))
| VPath (s : str) | VOf (k : pykind) | VArray (objects : bool) | VObject (class : str).

Definition number (v : pyv) : option Z := match v with VInt z => Some z | VBool b => Some (if b then 1 else 0)%Z | _ => None end.
(** Equality of keys: [True == 1] *)
Definition key_eq (a b : pyv) : Prop := a = b \/ exists z, number a = Some z /\ number b = Some z.
Definition distinct (l : list pyv) : Prop := ForallOrdPairs (fun a b => ~ key_eq a b) l.
Definition bytes (l : list N) : Prop := Forall (fun n => (n < 256)%N) l.

(** [v] is an instance of the annotation. *)
Inductive conforms : ptype -> pyv -> Prop :=
| co_any v : conforms TAny v
| co_unknown v : conforms TUnknown v
| co_other s v : conforms (TOther s) v                     (* whatever the instances of this class are *)
| co_bool b : conforms TBool (VBool b)
| co_int v z : number v = Some z -> conforms TLong v
| co_float f : conforms TFloat (VFloat f)
| co_float_int v z : number v = Some z -> conforms TFloat v
| co_str s : conforms TString (VStr s)
| co_bytes l : bytes l -> conforms TBytes (VBytes l)
| co_bytearray l : bytes l -> conforms TByteArray (VByteArray l)
| co_none : conforms TNone VNone
| co_optional_none t : conforms (TOptional t) VNone
| co_optional t v : conforms t v -> conforms (TOptional t) v
| co_union l t v : In t l -> conforms t v -> conforms (TUnion l) v
| co_dict k w l : Forall (conforms k) (map fst l) -> Forall (conforms w) (map snd l) -> distinct (map fst l) -> conforms (TDict k w) (VDict l)
| co_set t l : Forall (conforms t) l -> distinct l -> conforms (TSet t) (VSet l)
| co_frozenset t l : Forall (conforms t) l -> distinct l -> conforms (TFrozenSet t) (VFrozenSet l)
| co_list t l : Forall (conforms t) l -> conforms (TList t) (VList l)
| co_tuple ts l : match ts with [_; TEllipsis] => False | _ => True end -> Forall2 conforms ts l -> conforms (TTuple ts) (VTuple l)
| co_tuple_any t l : conforms (TTuple [t]) (VTuple l)      (* [tuple] alone is read like this *)
| co_tuple_all t l : Forall (conforms t) l -> conforms (TTuple [t; TEllipsis]) (VTuple l)
| co_path s : conforms TPath (VPath s)
| co_slice : conforms TSlice (VOf KSlice)
| co_complex : conforms TComplex (VOf KComplex)
| co_date k : k = KDate \/ k = KDateTime -> conforms TDate (VOf k)
| co_datetime : conforms TDateTime (VOf KDateTime)
| co_delta : conforms TDelta (VOf KDelta)
| co_time : conforms TTime (VOf KTime)
| co_tzinfo : conforms TTzInfo (VOf KTzInfo)
| co_capsule : conforms TCapsule (VOf KCapsule)
| co_cfunction : conforms TCFunction (VOf KCFunction)
| co_code : conforms TCode (VOf KCode)
| co_ellipsis : conforms TEllipsis (VOf KEllipsis)
| co_frame : conforms TFrame (VOf KFrame)
| co_function ps r k : k = KFunction \/ k = KCFunction \/ k = KType -> conforms (TFunction ps r) (VOf k)   (* callables *)
| co_callable ps r c : conforms (TFunction ps r) (VObject c)
| co_module : conforms TModule (VOf KModule)
| co_super : conforms TSuper (VOf KSuper)
| co_traceback : conforms TTraceback (VOf KTraceback)
| co_type : conforms TType (VOf KType).

(** ** Rust *)
(** A hash set or map is the list of its elements; the order has no meaning. [ValPy]: a [Bound]. *)
Inductive rv :=
| ValBool (b : bool) | ValI64 (z : Z) | ValU8 (n : N) | ValF64 (f : N) | ValString (s : str) | ValPath (s : str) | ValOption (o : option rv)
| ValVec (l : list rv) | ValTuple (l : list rv) | ValSet (l : list rv) | ValMap (l : list (rv * rv)) | ValPy (v : pyv).

Definition in_i64 (z : Z) : bool := ((- 2 ^ 63 <=? z) && (z <? 2 ^ 63))%Z.
Definition all_some {A} : list (option A) -> option (list A) :=
  fix go l := match l with [] => Some [] | Some a :: r => option_map (cons a) (go r) | None :: _ => None end.
(** A sequence, but not a text *)
Definition sequence (v : pyv) : option (list pyv) :=
  match v with VList l | VTuple l => Some l | VBytes l | VByteArray l => Some (map (fun n => VInt (Z.of_N n)) l) | _ => None end.
Definition instance_of (n : str) (v : pyv) : bool :=
  let is (s : String.string) := str_eqb n (u s) in
  is "PyAny"%string ||
  match v with
  | VDict _ => is "PyDict" | VFrozenSet _ => is "PyFrozenSet" | VSet _ => is "PySet" | VTuple _ => is "PyTuple"
  | VOf KSlice => is "PySlice" | VOf KComplex => is "PyComplex" | VOf KDate => is "PyDate" | VOf KDateTime => is "PyDateTime" || is "PyDate"
  | VOf KTime => is "PyTime" | VOf KTzInfo => is "PyTzInfo" | VOf KCapsule => is "PyCapsule" | VOf KCFunction => is "PyCFunction"
  | VOf KCode => is "PyCode" | VOf KFrame => is "PyFrame" | VOf KFunction => is "PyFunction" | VOf KModule => is "PyModule"
  | VOf KSuper => is "PySuper" | VOf KTraceback => is "PyTraceback" | VOf KType => is "PyType"
  | _ => false
  end%string.

Section extract.
  (** The number that [float] makes of an integer, if it is not too large *)
  Variable round : Z -> option N.
  Definition extract_name (s : str) (v : pyv) : option rv :=
    if str_eqb s (u "bool") then match v with VBool b => Some (ValBool b) | _ => None end
    else if str_eqb s (u "i64") then match number v with Some z => if in_i64 z then Some (ValI64 z) else None | None => None end
    else if str_eqb s (u "u8") then match number v with Some z => if ((0 <=? z) && (z <? 256))%Z then Some (ValU8 (Z.to_N z)) else None | None => None end
    else if str_eqb s (u "f64") then
      match v with VFloat f => Some (ValF64 f) | _ => match number v with Some z => option_map ValF64 (round z) | None => None end end
    else None.
  (** [FromPyObject::extract] of the type. A struct of the generated code has the type object of Python's [object],
      so that every object is an instance of it. *)
  Fixpoint extract (t : rty) (v : pyv) {struct t} : option rv :=
    match t with
    | RName s => extract_name s v
    | RVec t => match sequence v with Some l => option_map ValVec (all_some (map (extract t) l)) | None => None end
    | RTup ts =>
        match v with
        | VTuple l =>                                        (* implemented for up to twelve components *)
            if negb (length ts <=? 12) then None else option_map ValTuple
              ((fix go (ts : list rty) (l : list pyv) {struct ts} : option (list rv) :=
                  match ts, l with
                  | [], [] => Some []
                  | t :: ts, v :: l => match extract t v, go ts l with Some a, Some r => Some (a :: r) | _, _ => None end
                  | _, _ => None
                  end) ts l)
        | _ => None
        end
    | RAbs p [] =>
        if is_path p ["std"; "string"; "String"]%string then match v with VStr s => Some (ValString s) | _ => None end
        else if is_path p ["std"; "path"; "PathBuf"]%string then match v with VStr s | VPath s => Some (ValPath s) | _ => None end
        else None
    | RAbs p [t] =>
        if is_path p ["std"; "option"; "Option"]%string then match v with VNone => Some (ValOption None) | _ => option_map (fun r => ValOption (Some r)) (extract t v) end
        else if is_path p ["std"; "collections"; "HashSet"]%string then
          match v with VSet l | VFrozenSet l => option_map ValSet (all_some (map (extract t) l)) | _ => None end
        else None
    | RAbs p [k; w] =>
        if is_path p ["std"; "collections"; "HashMap"]%string then
          match v with
          | VDict l =>
              match all_some (map (fun e => extract k (fst e)) l), all_some (map (fun e => extract w (snd e)) l) with
              | Some ks, Some ws => Some (ValMap (combine ks ws))
              | _, _ => None
              end
          | _ => None
          end
        else None
    | RBound (RLocal _) => Some (ValPy v)
    | RBound (RAbs [a; b; n] []) => if instance_of n v then Some (ValPy v) else None
    | RBound (RAbs [a; n] [_; _]) => match v with VArray true => Some (ValPy v) | _ => None end     (* numpy::PyArray<Py<PyAny>, IxDyn> *)
    | _ => None
    end.

  (** ** The Rust value stands for the Python value. *)
  Inductive stands : rv -> pyv -> Prop :=
  | st_py v : stands (ValPy v) v
  | st_bool b : stands (ValBool b) (VBool b)
  | st_int z v : number v = Some z -> stands (ValI64 z) v
  | st_float f : stands (ValF64 f) (VFloat f)
  | st_float_int f z v : number v = Some z -> round z = Some f -> stands (ValF64 f) v
  | st_str s : stands (ValString s) (VStr s)
  | st_path s : stands (ValPath s) (VPath s)
  | st_none : stands (ValOption None) VNone
  | st_some r v : v <> VNone -> stands r v -> stands (ValOption (Some r)) v
  | st_list rs l : Forall2 stands rs l -> stands (ValVec rs) (VList l)
  | st_items rs l : Forall2 stands rs l -> stands (ValVec rs) (VTuple l)
  | st_bytes l : stands (ValVec (map ValU8 l)) (VBytes l)
  | st_bytearray l : stands (ValVec (map ValU8 l)) (VByteArray l)
  | st_tuple rs l : Forall2 stands rs l -> stands (ValTuple rs) (VTuple l)
  | st_set rs l : Forall2 stands rs l -> NoDup rs -> stands (ValSet rs) (VSet l)
  | st_frozenset rs l : Forall2 stands rs l -> NoDup rs -> stands (ValSet rs) (VFrozenSet l)
  | st_dict rs l : Forall2 stands (map fst rs) (map fst l) -> Forall2 stands (map snd rs) (map snd l) -> NoDup (map fst rs) -> stands (ValMap rs) (VDict l).
End extract.

(** ** Conditions *)
(** Integers fit into 64 bits, and [float] accepts them. *)
Fixpoint small (round : Z -> option N) (v : pyv) : Prop :=
  match v with
  | VInt z => in_i64 z = true /\ round z <> None
  | VBool b => round (if b then 1 else 0)%Z <> None
  | VList l | VTuple l | VSet l | VFrozenSet l => fold_right (fun v P => small round v /\ P) True l
  | VDict l => fold_right (fun e P => small round (fst e) /\ small round (snd e) /\ P) True l
  | _ => True
  end.
(** No function type in the annotation *)
Fixpoint no_callable (t : ptype) : bool :=
  match t with
  | TFunction _ _ => false
  | TOptional x | TList x | TSet x | TFrozenSet x => no_callable x
  | TUnion l | TTuple l => forallb no_callable l
  | TDict k v => no_callable k && no_callable v
  | _ => true
  end.
(** Without the numpy feature, or without a name that it claims (outside unions and function types) *)
Fixpoint class_names (t : ptype) : list str :=
  match t with
  | TOther s => [s]
  | TOptional x | TList x | TSet x | TFrozenSet x => class_names x
  | TTuple l => flat_map class_names l
  | TDict k v => class_names k ++ class_names v
  | _ => []
  end.
Definition array_name (s : str) : Prop := exists n q, s = n ++ q /\ ~ In 91%N n /\ maybe_args q /\ names_ndarray n.
Definition no_arrays (numpy : bool) (t : ptype) : Prop := numpy = false \/ forall s, In s (class_names t) -> ~ array_name s.
(** The annotations for which C75 holds *)
Definition settled (c : ctx) (t : ptype) : Prop :=
  no_arrays (cx_numpy c) t /\ good_keys t = true /\ no_ip t = true /\ no_callable t = true /\ small_tuples t = true.

(** ** Values that are passed (C76) *)
(** The values of a Rust type. [impl IntoPy<Py<PyAny>>] and the like: a value that becomes this object *)
Fixpoint typed (t : rty) (r : rv) {struct t} : Prop :=
  match t with
  | RName s =>
      if str_eqb s (u "bool") then exists b, r = ValBool b
      else if str_eqb s (u "i64") then exists z, r = ValI64 z /\ in_i64 z = true
      else if str_eqb s (u "u8") then exists n, r = ValU8 n /\ (n < 256)%N
      else if str_eqb s (u "f64") then exists f, r = ValF64 f
      else if str_eqb s (u "str") then exists s, r = ValString s
      else False
  | RRef t => typed t r
  | RVec t | RSlice t => exists l, r = ValVec l /\ Forall (typed t) l
  | RTup ts =>
      exists l, r = ValTuple l /\
        (fix go (ts : list rty) (l : list rv) {struct ts} : Prop :=
           match ts, l with [], [] => True | t :: ts, v :: l => typed t v /\ go ts l | _, _ => False end) ts l
  | RAbs p [] =>
      if is_path p ["std"; "string"; "String"]%string then exists s, r = ValString s
      else if is_path p ["std"; "path"; "PathBuf"]%string || is_path p ["std"; "path"; "Path"]%string then exists s, r = ValPath s
      else False
  | RAbs p [t] =>
      if is_path p ["std"; "option"; "Option"]%string then r = ValOption None \/ exists x, r = ValOption (Some x) /\ typed t x
      else if is_path p ["std"; "collections"; "HashSet"]%string then exists l, r = ValSet l /\ Forall (typed t) l /\ NoDup l
      else False
  | RAbs p [k; w] =>
      if is_path p ["std"; "collections"; "HashMap"]%string
      then exists l, r = ValMap l /\ Forall (fun e => typed k (fst e)) l /\ Forall (fun e => typed w (snd e)) l /\ NoDup (map fst l)
      else False
  | RBound (RLocal _) => exists v, r = ValPy v
  | RBound (RAbs [a; b; n] []) => exists v, r = ValPy v /\ instance_of n v = true
  | RBound (RAbs [a; n] [_; _]) => r = ValPy (VArray true)
  | RImpl p [RAbs _ [RAbs [a; b; n] []]] => exists v, r = ValPy v /\ instance_of n v = true
  | RImpl p [] => exists l, r = ValPy (VDict l)             (* impl IntoPyDict *)
  | _ => False
  end.
(** The object that [ToPyObject] makes of a value; a path becomes a text, a slice a list *)
Fixpoint give (r : rv) : pyv :=
  match r with
  | ValBool b => VBool b | ValI64 z => VInt z | ValU8 n => VInt (Z.of_N n) | ValF64 f => VFloat f | ValString s => VStr s | ValPath s => VStr s
  | ValOption None => VNone | ValOption (Some r) => give r
  | ValVec l => VList (map give l) | ValTuple l => VTuple (map give l) | ValSet l => VSet (map give l)
  | ValMap l => VDict (map (fun e => (give (fst e), give (snd e))) l)
  | ValPy v => v
  end.
(** What reaches Python from a parameter. [PrepOptDict] replaces a missing dictionary by an empty one. *)
Definition passed (p : prep) (r : rv) : pyv := match p, r with PrepOptDict, ValOption None => VDict [] | _, _ => give r end.
(** [None] is not wrapped in [Some]. *)
Fixpoint solid (r : rv) : Prop :=
  match r with
  | ValOption (Some r) => give r <> VNone /\ solid r
  | ValVec l | ValTuple l | ValSet l => fold_right (fun v P => solid v /\ P) True l
  | ValMap l => fold_right (fun e P => solid (fst e) /\ solid (snd e) /\ P) True l
  | _ => True
  end.
(** ** Values that arrive (C61) *)
(** Where Rust does not look into an object that it is given, the object is an instance of the annotation. *)
Fixpoint vouched (t : ptype) (r : rv) {struct t} : Prop :=
  match t, r with
  | TUnion _, ValPy v | TNone, ValPy v | TDelta, ValPy v | TEllipsis, ValPy v => conforms t v
  | TDict _ _, ValPy v | TSet _, ValPy v | TFrozenSet _, ValPy v | TTuple _, ValPy v => conforms t v
  | TOptional t, ValOption (Some r) => vouched t r
  | TDict k w, ValMap l => Forall (fun e => vouched k (fst e) /\ vouched w (snd e)) l
  | TList t, ValVec l => Forall (vouched t) l
  | TTuple ts, ValTuple l =>
      (fix go (ts : list ptype) (l : list rv) {struct ts} : Prop :=
         match ts, l with t :: ts, r :: l => vouched t r /\ go ts l | _, _ => True end) ts l
  | _, _ => True
  end.
