(** * Facts about Rust types, std and pyo3 used to state C19-C22 and C61

    Written from the documentation of std and of pyo3 0.21 (the version in Cargo.lock); neither is
    available as source here. Only what the generated types can mention is listed. *)
From Verif Require Import Base Model_Path Model_Type Model_IntoRs.

Definition is_path (p : list str) (l : list String.string) : bool := list_eqb str_eqb p (map u l).

(** ** Traits *)
(** [Hash + Eq]: not f64, not the hash collections themselves, not [Bound]. *)
Fixpoint has_hash (t : rty) : bool :=
  match t with
  | RName s => mem_str s (map u ["bool"; "i64"; "u8"; "str"]%string)
  | RVec t | RSlice t | RRef t => has_hash t
  | RTup l => forallb has_hash l
  | RAbs p args =>
      is_path p ["std"; "string"; "String"]%string || is_path p ["std"; "path"; "PathBuf"]%string
      || is_path p ["std"; "path"; "Path"]%string || is_path p ["std"; "net"; "Ipv4Addr"]%string
      || is_path p ["std"; "net"; "Ipv6Addr"]%string
      || (is_path p ["std"; "option"; "Option"]%string && forallb has_hash args)
  | RBound _ | RLocal _ | RImpl _ _ => false
  end.

(** Every [HashMap<K, _>] and [HashSet<K>] inside the type has a [Hash + Eq] key. *)
Fixpoint keys_hashable (t : rty) : bool :=
  match t with
  | RName _ | RLocal _ => true
  | RVec t | RSlice t | RRef t | RBound t => keys_hashable t
  | RTup l | RImpl _ l => forallb keys_hashable l
  | RAbs p args =>
      forallb keys_hashable args &&
      (if is_path p ["std"; "collections"; "HashMap"]%string || is_path p ["std"; "collections"; "HashSet"]%string
       then match args with k :: _ => has_hash k | [] => false end else true)
  end.

(** [pyo3::ToPyObject] *)
Fixpoint has_topy (t : rty) : bool :=
  match t with
  | RName s => mem_str s (map u ["bool"; "i64"; "f64"; "u8"; "str"]%string)
  | RVec t | RSlice t | RRef t => has_topy t
  | RTup l => (1 <=? length l) && (length l <=? 12) && forallb has_topy l
  | RAbs p args =>
      match args with
      | [] => is_path p ["std"; "string"; "String"]%string || is_path p ["std"; "path"; "PathBuf"]%string
              || is_path p ["std"; "path"; "Path"]%string || is_path p ["std"; "net"; "Ipv4Addr"]%string
              || is_path p ["std"; "net"; "Ipv6Addr"]%string
      | [a] => (is_path p ["std"; "option"; "Option"]%string && has_topy a)
               || (is_path p ["std"; "collections"; "HashSet"]%string && has_topy a && has_hash a)
               || is_path p ["pyo3"; "Py"]%string
      | [a; b] => is_path p ["std"; "collections"; "HashMap"]%string && has_topy a && has_hash a && has_topy b
      | _ => false
      end
  | RBound _ => true
  | RLocal _ | RImpl _ _ => false
  end.

(** [T: IntoPyDict], [T: IntoPy<Py<PyTuple>>], [T: IntoPy<Py<PyAny>>], as far as needed. *)
Definition is_bound_dict (t : rty) : bool :=
  match t with RBound (RAbs p []) => is_path p ["pyo3"; "types"; "PyDict"]%string | _ => false end.
Definition into_dict (t : rty) : bool :=
  is_bound_dict t ||
  match t with RImpl p [] => is_path p ["pyo3"; "types"; "IntoPyDict"]%string | _ => false end.
Definition impl_into_py (n : String.string) (t : rty) : bool :=
  match t with
  | RImpl p [RAbs q [RAbs r []]] =>
      is_path p ["pyo3"; "IntoPy"]%string && is_path q ["pyo3"; "Py"]%string && is_path r ["pyo3"; "types"; n]%string
  | _ => false
  end.
Definition into_any (t : rty) : bool :=
  impl_into_py "PyAny" t || match t with RBound _ | RRef (RBound _) => true | _ => false end.

(** The type of the parameter after the statements of a [prep], if they type-check. *)
Definition after (p : prep) (t : rty) : option rty :=
  match p with
  | PrepNone => Some t
  | PrepIntoDict => if into_dict t then Some (bound_of "PyDict") else None
  | PrepIntoTuple => if impl_into_py "PyTuple" t then Some (RRef (bound_of "PyTuple")) else None
  | PrepIntoAny => if into_any t then Some (RRef (bound_of "PyAny")) else None
  | PrepOptDict =>
      match t with
      | RAbs q [a] => if is_path q ["std"; "option"; "Option"]%string && into_dict a
                      then Some (bound_of "PyDict") else None
      | _ => None
      end
  end.

(** ** Existing items *)
Definition existing_items : list (list str) :=
  map (map u)
  [["std"; "string"; "String"]; ["std"; "option"; "Option"]; ["std"; "collections"; "HashMap"];
   ["std"; "collections"; "HashSet"]; ["std"; "net"; "Ipv4Addr"]; ["std"; "net"; "Ipv6Addr"];
   ["std"; "path"; "PathBuf"]; ["std"; "path"; "Path"];
   ["pyo3"; "Py"]; ["pyo3"; "IntoPy"]; ["pyo3"; "types"; "IntoPyDict"];
   ["pyo3"; "types"; "PyAny"]; ["pyo3"; "types"; "PyDict"]; ["pyo3"; "types"; "PyFrozenSet"];
   ["pyo3"; "types"; "PySet"]; ["pyo3"; "types"; "PyTuple"]; ["pyo3"; "types"; "PySlice"];
   ["pyo3"; "types"; "PyComplex"]; ["pyo3"; "types"; "PyDate"]; ["pyo3"; "types"; "PyDateTime"];
   ["pyo3"; "types"; "PyTime"]; ["pyo3"; "types"; "PyTzInfo"]; ["pyo3"; "types"; "PyCapsule"];
   ["pyo3"; "types"; "PyCFunction"]; ["pyo3"; "types"; "PyCode"]; ["pyo3"; "types"; "PyFrame"];
   ["pyo3"; "types"; "PyFunction"]; ["pyo3"; "types"; "PyModule"]; ["pyo3"; "types"; "PySuper"];
   ["pyo3"; "types"; "PyTraceback"]; ["pyo3"; "types"; "PyType"];
   ["numpy"; "PyArray"]; ["numpy"; "IxDyn"]]%string.
Definition exists_item (p : list str) : bool := existsb (list_eqb str_eqb p) existing_items.
Fixpoint paths_exist (t : rty) : bool :=
  match t with
  | RName s => mem_str s (map u ["bool"; "i64"; "f64"; "u8"; "str"]%string)
  | RLocal _ => true
  | RVec t | RSlice t | RRef t | RBound t => paths_exist t
  | RTup l => forallb paths_exist l
  | RAbs p args | RImpl p args => exists_item p && forallb paths_exist args
  end.

(** ** Annotation types for which the claims hold *)
Definition bad_key (t : ptype) : bool :=
  match t with
  | TDict _ _ | TSet _ | TFrozenSet _ | TDelta | TIpV4 | TIpV6 => true
  | _ => false
  end.
(** No collection, timedelta or ip address in a key position. *)
Fixpoint good_keys (t : ptype) : bool :=
  match t with
  | TOptional x | TList x => good_keys x
  | TUnion l | TTuple l => forallb good_keys l
  | TDict k v => negb (bad_key k) && good_keys k && good_keys v
  | TSet x | TFrozenSet x => negb (bad_key x) && good_keys x
  | _ => true
  end.
Fixpoint no_ip (t : ptype) : bool :=
  match t with
  | TIpV4 | TIpV6 => false
  | TOptional x | TList x | TSet x | TFrozenSet x => no_ip x
  | TUnion l | TTuple l => forallb no_ip l
  | TDict k v => no_ip k && no_ip v
  | _ => true
  end.
Fixpoint small_tuples (t : ptype) : bool :=
  match t with
  | TOptional x | TList x | TSet x | TFrozenSet x => small_tuples x
  | TUnion l => forallb small_tuples l
  | TTuple l => (length l <=? 12) && forallb small_tuples l
  | TDict k v => small_tuples k && small_tuples v
  | _ => true
  end.

(** Class names contain no bracket. *)
Definition table_ok (lt : table) : Prop :=
  forall k v, In (k, v) lt -> forall i, In i (segs k) -> ~ In 91%N i.

(** ** Annotations naming a class (C22) *)
(** The last component is [ndarray] in any capitalisation: claimed by the numpy feature. *)
Definition lower (c : char) : char := if ((65 <=? c) && (c <=? 90))%N then (c + 32)%N else c.
Definition names_ndarray (s : str) : Prop :=
  exists pre n, s = pre ++ n /\ map lower n = u "ndarray" /\ (pre = [] \/ exists p, pre = p ++ [46%N]).
(** A name, or a name followed by arguments. *)
Definition maybe_args (q : str) : Prop := q = [] \/ exists r, q = 91%N :: r.

(** ** What arrives in Python (C61)

    [arrives r t]: the Python object that [ToPyObject] makes from any value of the Rust type [r] is
    an instance of the annotated type [t]; objects the caller already holds as untyped Python
    objects are the caller's responsibility. *)
Definition bound_name (t : ptype) : option String.string :=
  match t with
  | TDict _ _ => Some "PyDict" | TFrozenSet _ => Some "PyFrozenSet" | TSet _ => Some "PySet"
  | TTuple _ => Some "PyTuple" | TSlice => Some "PySlice" | TComplex => Some "PyComplex"
  | TDate => Some "PyDate" | TDateTime => Some "PyDateTime" | TTime => Some "PyTime"
  | TTzInfo => Some "PyTzInfo" | TCapsule => Some "PyCapsule" | TCFunction => Some "PyCFunction"
  | TCode => Some "PyCode" | TFrame => Some "PyFrame" | TFunction _ _ => Some "PyFunction"
  | TModule => Some "PyModule" | TSuper => Some "PySuper" | TTraceback => Some "PyTraceback"
  | TType => Some "PyType"
  | _ => None
  end%string.

Inductive arrives : rty -> ptype -> Prop :=
| ar_untyped t : arrives (bound_of "PyAny") t
| ar_ref r t : arrives r t -> arrives (RRef r) t
| ar_bound n t : bound_name t = Some n -> arrives (bound_of n) t
| ar_local p s : arrives (RBound (RLocal p)) (TOther s)
| ar_numpy s : arrives r_ndarray (TOther s)
| ar_bool : arrives (RName (u "bool")) TBool
| ar_float : arrives (RName (u "f64")) TFloat
| ar_int : arrives (RName (u "i64")) TLong
| ar_byte : arrives (RName (u "u8")) TLong
| ar_str : arrives (RName (u "str")) TString
| ar_string : arrives (r_std ["string"; "String"]%string) TString
| ar_vec r t : arrives r t -> arrives (RVec r) (TList t)
| ar_slice r t : arrives r t -> arrives (RSlice r) (TList t)
| ar_option r t : arrives r t -> arrives (r_option r) (TOptional t)
| ar_some r t : arrives r t -> arrives r (TOptional t)      (* an instance of X is one of Optional[X] *)
| ar_set r t : arrives r t -> arrives (r_hashset r) (TSet t)
| ar_dict r r' k v : arrives r k -> arrives r' v -> arrives (r_hashmap r r') (TDict k v)
| ar_tuple rs ts : Forall2 arrives rs ts -> arrives (RTup rs) (TTuple ts).

(** The annotations without the constructors refuted in C61. *)
Fixpoint faithful (t : ptype) : bool :=
  match t with
  | TBytes | TByteArray | TPath | TIpV4 | TIpV6 => false
  | TOptional x | TList x | TSet x => faithful x
  | TFrozenSet x => negb (is_hashable x)
  | TUnion l => true
  | TTuple l => forallb faithful l && match l with [_; TEllipsis] => false | _ => true end
  | TDict k v => faithful k && faithful v
  | _ => true
  end.

(** What [None] passed for an [Option] parameter becomes. *)
Inductive none_value := NoneStays | NoneEmptyDict.
Definition none_after (p : prep) : none_value := match p with PrepOptDict => NoneEmptyDict | _ => NoneStays end.
