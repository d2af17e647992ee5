(** * Model of typing/into_rs.rs and Type::is_hashable: engine types to Rust types *)
From Verif Require Import Base Model_Ident Model_Path Model_Type.

(** The Rust types the templates can produce. [RAbs p args] is the absolute path [::p1::p2<args>],
    [RName] an unqualified built-in name, [RLocal] a path relative to the current module,
    [RBound t] is [::pyo3::Bound<'py, t>], [RImpl p args] is [impl ::p1::p2<args>]. *)
Inductive rty :=
| RName (s : str)                    (* bool, f64, i64, u8, str *)
| RVec (t : rty)                     (* Vec<t> *)
| RSlice (t : rty)                   (* [t] *)
| RRef (t : rty)                     (* &t *)
| RTup (l : list rty)
| RAbs (p : list str) (args : list rty)
| RBound (t : rty)
| RLocal (p : path)
| RImpl (p : list str) (args : list rty).

Definition segs_of (l : list String.string) : list str := map u l.
Definition pyo3_type (n : String.string) : rty := RAbs (segs_of ["pyo3"; "types"; n]%string) [].
Definition py_of (t : rty) : rty := RAbs (segs_of ["pyo3"; "Py"]%string) [t].
Definition bound_of (n : String.string) : rty := RBound (pyo3_type n).
Definition into_py_of (n : String.string) : rty := RImpl (segs_of ["pyo3"; "IntoPy"]%string) [py_of (pyo3_type n)].
Definition r_hashmap (k v : rty) : rty := RAbs (segs_of ["std"; "collections"; "HashMap"]%string) [k; v].
Definition r_hashset (t : rty) : rty := RAbs (segs_of ["std"; "collections"; "HashSet"]%string) [t].
Definition r_option (t : rty) : rty := RAbs (segs_of ["std"; "option"; "Option"]%string) [t].
Definition r_std (l : list String.string) : rty := RAbs (segs_of ("std"%string :: l)) [].

(** [owned.to_string().contains("PyAny")]: the printed stream separates tokens (so the text can only
    lie inside one identifier). *)
Definition py_any_text : str := u "PyAny".
Fixpoint mentions_pyany (t : rty) : bool :=
  match t with
  | RName s => contains_str py_any_text s
  | RVec t | RSlice t | RRef t | RBound t => mentions_pyany t
  | RTup l => existsb mentions_pyany l
  | RAbs p args | RImpl p args => existsb (contains_str py_any_text) p || existsb mentions_pyany args
  | RLocal p => existsb (contains_str py_any_text) (segs p)
  end.

(** typing/mod.rs:75-89 *)
Definition is_hashable (t : ptype) : bool :=
  match t with
  | TBool | TIpV4 | TIpV6 | TPath | TDelta | TDict _ _ | TFrozenSet _ | TLong | TSet _ | TString => true
  | _ => false
  end.

(** [HashMap<Path, Path>]: keys are distinct, so the first match is the only one. *)
Definition table := list (path * path).
Definition lt_get (lt : table) (p : path) : option path :=
  match find (fun e => path_eqb (fst e) p) lt with Some e => Some (snd e) | None => None end.
Definition lt_mem (lt : table) (p : path) : bool := match lt_get lt p with Some _ => true | None => false end.

(** Everything the conversion depends on besides the type: build profile, cargo feature [numpy],
    Unicode tables, the table of local types. *)
Record ctx := mk_ctx { cx_dbg : bool; cx_numpy : bool; cx_uni : uni; cx_local : table }.

(** [s.split_once('[').map(|s| s.0).unwrap_or(s)] *)
Fixpoint before_bracket (s : str) : str :=
  match s with
  | [] => []
  | c :: t => if (c =? c_lbr)%N then [] else c :: before_bracket t
  end.
(** [to_lowercase] followed by a comparison with an ASCII text: only ASCII letters lower to the
    letters n, d, a, r, y. *)
Definition ascii_lower (c : char) : char := if ((65 <=? c) && (c <=? 90))%N then (c + 32)%N else c.

(** into_rs.rs:336-368 *)
Definition r_ndarray : rty :=
  RBound (RAbs (segs_of ["numpy"; "PyArray"]%string)
               [py_of (pyo3_type "PyAny"); RAbs (segs_of ["numpy"; "IxDyn"]%string) []]).
Definition is_ndarray (s : str) : bool :=
  match last_opt (split_char c_dot (before_bracket s)) with
  | Some l => str_eqb (map ascii_lower l) (u "ndarray")
  | None => false
  end.
Definition map_external (c : ctx) (s : str) : option (rty * rty) :=
  if cx_numpy c && is_ndarray s then Some (r_ndarray, RRef r_ndarray) else None.

Definition r_any : rty * rty := (bound_of "PyAny", into_py_of "PyAny").
Definition r_bound (n : String.string) : rty * rty := (bound_of n, RRef (bound_of n)).
Definition r_same (t : rty) : rty * rty := (t, t).

(** into_rs.rs:307-334 *)
Definition map_type (c : ctx) (s : str) : outcome (rty * rty) :=
  match map_external c s with
  | Some r => Ok r
  | None =>
      let! key := path_from_py_chk (cx_dbg c) (cx_uni c) (before_bracket s) in
      match lt_get (cx_local c) key with
      | Some rel =>
          if syn_path_ok (cx_uni c) rel
          then Ok (RBound (RLocal rel), RRef (RBound (RLocal rel)))
          else Panic PUnwrap
      | None => Ok r_any
      end
  end.

(** into_rs.rs:99-305: the pair (owned, borrowed) *)
Fixpoint into_rs (c : ctx) (t : ptype) : outcome (rty * rty) :=
  let owned t := omap fst (into_rs c t) in
  match t with
  | TAny | TUnknown => Ok r_any
  | TOther s => map_type c s
  | TBool => Ok (r_same (RName (u "bool")))
  | TByteArray | TBytes => Ok (RVec (RName (u "u8")), RRef (RSlice (RName (u "u8"))))
  | TFloat => Ok (r_same (RName (u "f64")))
  | TLong => Ok (r_same (RName (u "i64")))
  | TString => Ok (r_std ["string"; "String"]%string, RRef (RName (u "str")))
  | TOptional x => let! i := owned x in Ok (r_same (r_option i))
  | TUnion _ | TNone => Ok r_any
  | TDict k v =>
      let! v' := owned v in
      if is_hashable k && negb (mentions_pyany v')
      then let! k' := owned k in Ok (r_hashmap k' v', RRef (r_hashmap k' v'))
      else Ok (bound_of "PyDict", RImpl (segs_of ["pyo3"; "types"; "IntoPyDict"]%string) [])
  | TFrozenSet x =>
      if is_hashable x then let! i := owned x in Ok (r_hashset i, RRef (r_hashset i))
      else Ok (r_bound "PyFrozenSet")
  | TList x => let! i := owned x in Ok (RVec i, RRef (RSlice i))
  | TSet x =>
      if is_hashable x then let! i := owned x in Ok (r_hashset i, RRef (r_hashset i))
      else Ok (r_bound "PySet")
  | TTuple l =>
      match l with
      | [] | [_] => Ok (bound_of "PyTuple", into_py_of "PyTuple")
      | [x; TEllipsis] => let! i := owned x in Ok (RVec i, RRef (RSlice i))
      | _ => let! is := mapM owned l in Ok (r_same (RTup is))
      end
  | TIpV4 => Ok (r_same (r_std ["net"; "IpV4Addr"]%string))
  | TIpV6 => Ok (r_same (r_std ["net"; "IpV6Addr"]%string))
  | TPath => Ok (r_std ["path"; "PathBuf"]%string, RRef (r_std ["path"; "Path"]%string))
  | TSlice => Ok (r_bound "PySlice")
  | TComplex => Ok (r_bound "PyComplex")
  | TDate => Ok (r_bound "PyDate")
  | TDateTime => Ok (r_bound "PyDateTime")
  | TDelta => Ok r_any
  | TTime => Ok (r_bound "PyTime")
  | TTzInfo => Ok (r_bound "PyTzInfo")
  | TCapsule => Ok (r_bound "PyCapsule")
  | TCFunction => Ok (r_bound "PyCFunction")
  | TCode => Ok (r_bound "PyCode")
  | TEllipsis => Ok r_any
  | TFrame => Ok (r_bound "PyFrame")
  | TFunction _ _ => Ok (r_bound "PyFunction")
  | TModule => Ok (r_bound "PyModule")
  | TSuper => Ok (r_bound "PySuper")
  | TTraceback => Ok (r_bound "PyTraceback")
  | TType => Ok (r_bound "PyType")
  end.

(** into_rs.rs:9-17: the two fields; the other field is dropped first, so [Rc::into_inner] succeeds. *)
Definition into_rs_owned (c : ctx) (t : ptype) : outcome rty := omap fst (into_rs c t).
Definition into_rs_borrowed (c : ctx) (t : ptype) : outcome rty := omap snd (into_rs c t).

(** into_rs.rs:19-97: the statements rebinding the parameter. *)
Inductive prep :=
| PrepNone
| PrepIntoDict      (* 37: let x = IntoPyDict::into_py_dict_bound(x, py); *)
| PrepIntoTuple     (* 42-43: let x = IntoPy::<Py<PyTuple>>::into_py(x, py); let x = x.bind(py); *)
| PrepIntoAny       (* 53-54, 69-70: let x = IntoPy::<Py<PyAny>>::into_py(x, py); let x = x.bind(py); *)
| PrepOptDict.      (* 86-90: let x = if let Some(x) = x { into_py_dict_bound(x, py) } else { PyDict::new_bound(py) }; *)

(** The guard of 28-34 and 77-83; [||] does not evaluate the right side if the left holds. *)
Definition dict_needs_prep (c : ctx) (k v : ptype) : outcome bool :=
  if negb (is_hashable k) then Ok true
  else let! v' := into_rs_owned c v in Ok (mentions_pyany v').

Definition preprocess_borrowed (c : ctx) (t : ptype) : outcome prep :=
  match t with
  | TDict k v => let! b := dict_needs_prep c k v in Ok (if b then PrepIntoDict else PrepNone)
  | TTuple [] | TTuple [_] => Ok PrepIntoTuple
  | TAny | TUnknown | TUnion _ | TNone | TDelta | TEllipsis => Ok PrepIntoAny
  | TOther s =>
      match map_external c s with
      | Some _ => Ok PrepNone
      | None =>
          let! key := path_from_py_chk (cx_dbg c) (cx_uni c) s in
          Ok (if lt_mem (cx_local c) key then PrepNone else PrepIntoAny)
      end
  | TOptional (TDict k v) => let! b := dict_needs_prep c k v in Ok (if b then PrepOptDict else PrepNone)
  | _ => Ok PrepNone
  end.
