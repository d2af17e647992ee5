(** * Model of typing/mod.rs and typing/from_py.rs: annotations to engine types

    The target is CPython without the limited API, so every [#[cfg]]-guarded arm is present. *)
From Verif Require Import Base Model_Config.

(** typing/mod.rs:6-72 *)
Inductive ptype :=
| TAny
| TOther (s : str)
| TUnknown
| TBool | TByteArray | TBytes | TFloat | TLong | TString
| TOptional (t : ptype)
| TUnion (l : list ptype)
| TNone
| TDict (k v : ptype)
| TFrozenSet (t : ptype)
| TList (t : ptype)
| TSet (t : ptype)
| TTuple (l : list ptype)
| TIpV4 | TIpV6 | TPath | TSlice
| TComplex
| TDate | TDateTime | TDelta | TTime | TTzInfo
| TCapsule | TCFunction | TCode | TEllipsis | TFrame
| TFunction (ps : list ptype) (r : ptype)
| TModule | TSuper | TTraceback | TType.

(** [x == Type::PyNone] (derived equality) *)
Definition is_pynone (t : ptype) : bool := match t with TNone => true | _ => false end.

(** ** repair_complex_sequence, from_py.rs:481-518

    [n_scopes] is a [usize]: with overflow checks (debug) it panics as soon as it would become
    negative; without them it wraps. Here it is an integer: since the number of brackets in a
    string is below 2^63, a wrapped value is zero exactly when the integer is. *)
Definition n_open (s : str) : Z := Z.of_N (count_char c_lbr s).
Definition n_close (s : str) : Z := Z.of_N (count_char c_rbr s).
Definition usize_sub (dbg : bool) (a b : Z) : outcome Z :=
  if dbg && (a <? b)%Z then Panic POverflow else Ok (a - b)%Z.

(** from_py.rs:497-515, the search for the closing piece: [acc] is the element being rebuilt
    (lines 501-504), [p] the number of pieces in it. On success: the rebuilt element, the number
    of its pieces and the pieces after it. *)
Fixpoint find_close (dbg : bool) (sep : char) (n : Z) (acc : str) (p : nat) (rest : list str)
  : outcome (option (str * nat * list str)) :=
  match rest with
  | [] => Ok None
  | x :: r =>
      let! n' := usize_sub dbg (n + n_open x) (n_close x) in
      let acc' := acc ++ sep :: x in
      if (n' =? 0)%Z then Ok (Some (acc', S p, r)) else find_close dbg sep n' acc' (S p) r
  end.

(** from_py.rs:490-517. The argument is the part of the vector from the current index on; the
    elements before it are final. [j < sequence.len() - 1] (line 507) compares the old index of
    the last merged piece with the new length, i.e. holds iff the merged element had at most as
    many pieces as follow it. The loop over [i] excludes the last element (line 492). Each step
    either advances or merges, so the fuel (twice the number of pieces) is never used up. *)
Fixpoint repair_loop (dbg : bool) (sep : char) (fuel : nat) (seq : list str) : outcome (list str) :=
  match fuel with
  | O => OutOfFuel
  | S f =>
      match seq with
      | [] => Ok []
      | x :: rest =>
          match rest with
          | [] => Ok [x]
          | _ =>
              let! n := usize_sub dbg (n_open x) (n_close x) in
              if (n =? 0)%Z then omap (cons x) (repair_loop dbg sep f rest)
              else
                let! c := find_close dbg sep n x 1 rest in
                match c with
                | None => omap (cons x) (repair_loop dbg sep f rest)
                | Some (merged, p, r) =>
                    if p <=? length r then repair_loop dbg sep f (merged :: r)
                    else Ok (merged :: r)
                end
          end
      end
  end.
(** An empty vector would underflow [sequence.len() - 1] (debug) or be indexed (release). *)
Definition repair (dbg : bool) (sep : char) (seq : list str) : outcome (list str) :=
  match seq with
  | [] => Panic (if dbg then POverflow else PIndex)
  | _ => repair_loop dbg sep (2 * length seq) seq
  end.

(** ** Type::from_str, from_py.rs:214-476 *)

Definition lookup_lit (s : str) (l : list (str * ptype)) : option ptype :=
  match find (fun e => str_eqb s (fst e)) l with Some e => Some (snd e) | None => None end.

(** A guarded arm [x if x.starts_with(pre) && x.ends_with(suf)] with its
    [strip_prefix(..).unwrap_or_else(unreachable).strip_suffix(..).unwrap_or_else(unreachable)]. *)
Definition delimited (pre suf s : str) : option (outcome str) :=
  if starts_with pre s && ends_with suf s
  then Some (let! t := unwrap PUnreachable (strip_prefix pre s) in
             unwrap PUnreachable (strip_suffix suf t))
  else None.

(** An arm guarded by [starts_with(pre)] only. *)
Definition prefixed (pre s : str) : option str := strip_prefix pre s.

(** [.split(sep).map(|x| x.trim().to_owned()).collect_vec()] *)
Definition split_trim (sep : char) (s : str) : list str := map trim (split_char sep s).

Definition index {A} (l : list A) (n : nat) : outcome A := unwrap PIndex (nth_error l n).

(** from_py.rs:404-415 and 178-189 *)
Definition mk_function (inner : list ptype) : outcome ptype :=
  match rev inner with
  | [] => Panic PIndex            (* inner_types[..len - 1] with len = 0 (overflow in debug) *)
  | r :: ps => Ok (TFunction (rev ps) r)
  end.

(** from_py.rs:216-224 *)
Definition lits_prim : list (str * ptype) :=
  [(u "Any", TAny); (u "bool", TBool); (u "bytearray", TByteArray); (u "bytes", TBytes);
   (u "float", TFloat); (u "int", TLong); (u "str", TString)].
(** from_py.rs:251-252 *)
Definition lits_none : list (str * ptype) :=
  [(u "Union", TUnion [TUnknown]); ([], TNone); (u "None", TNone); (u "NoneType", TNone)].
(** from_py.rs:275-278 *)
Definition lits_dict : list (str * ptype) :=
  [(u "dict", TDict TUnknown TUnknown); (u "Dict", TDict TUnknown TUnknown); (u "Mapping", TDict TUnknown TUnknown)].
(** from_py.rs:309 *)
Definition lits_seq : list (str * ptype) :=
  [(u "Sequence", TList TUnknown); (u "Iterable", TList TUnknown); (u "Iterator", TList TUnknown)].
(** from_py.rs:355-388 *)
Definition lits_mid : list (str * ptype) :=
  [(u "tuple", TTuple [TUnknown]);
   (u "ipaddress.IPv4Address", TIpV4); (u "ipaddress.IPv6Address", TIpV6);
   (u "os.PathLike", TPath); (u "pathlib.Path", TPath); (u "slice", TSlice);
   (u "complex", TComplex);
   (u "datetime.date", TDate); (u "datetime.datetime", TDateTime); (u "timedelta", TDelta);
   (u "datetime.time", TTime); (u "datetime.tzinfo", TTzInfo);
   (u "capsule", TCapsule); (u "cfunction", TCFunction); (u "code", TCode);
   (u "Ellipsis", TEllipsis); (u "...", TEllipsis); (u "frame", TFrame);
   (u "function", TFunction [TEllipsis] TUnknown)].
(** from_py.rs:417-424 *)
Definition lits_late : list (str * ptype) :=
  [(u "Callable", TFunction [TEllipsis] TUnknown); (u "callable", TFunction [TEllipsis] TUnknown);
   (u "module", TModule); (u "super", TSuper); (u "traceback", TTraceback)].

Section from_str.
  Variable dbg : bool.
  Variable rec : str -> outcome ptype.    (* the recursive call Self::from_str *)

  (** Comma-separated arguments: split, trim, repair, parse each (e.g. 261-269). *)
  Definition parse_args (inner : str) : outcome (list ptype) :=
    let! pieces := repair dbg c_comma (split_trim c_comma inner) in mapM rec pieces.

  (** from_py.rs:227-238 *)
  Definition from_optional (s : str) : outcome ptype :=
    let! x := unwrap PUnreachable
                (find (fun x => negb (str_eqb x (u "None"))) (split_trim c_bar s)) in
    omap TOptional (rec x).

  (** from_py.rs:239-250; note the separator handed to the repair is a comma. *)
  Definition from_union (s : str) : outcome ptype :=
    let! pieces := repair dbg c_comma (split_trim c_bar s) in omap TUnion (mapM rec pieces).

  (** from_py.rs:425-474 *)
  Definition from_wrapped (s : str) : outcome ptype :=
    match delimited (u "type[") [c_rbr] s with
    | Some m => let! x := m in rec x
    | None =>
    match delimited (u "<class '") (u "'>") s with
    | Some m => let! x := m in rec x
    | None =>
    match delimited (u "<enum '") (u "'>") s with
    | Some m => let! x := m in rec x
    | None =>
    match prefixed (u "typing.") s with
    | Some x => rec x
    | None =>
    match prefixed (u "collections.abc.") s with
    | Some x => rec x
    | None =>
    match prefixed (u "collections.") s with
    | Some x => rec x
    | None => if mem_str s forbidden_type_names then Ok TAny else Ok (TOther s)
    end end end end end end.

  (** from_py.rs:355-424 *)
  Definition from_mid (s : str) : outcome ptype :=
    match lookup_lit s lits_mid with
    | Some t => Ok t
    | None =>
    match delimited (u "Callable[") [c_rbr] s with
    | Some m => let! x := m in let! l := parse_args x in mk_function l
    | None =>
    match lookup_lit s lits_late with
    | Some t => Ok t
    | None => from_wrapped s
    end end end.

  (** from_py.rs:310-354 *)
  Definition from_colls2 (s : str) : outcome ptype :=
    match delimited (u "Iterable[") [c_rbr] s with
    | Some m => let! x := m in omap TList (rec x)
    | None =>
    match delimited (u "Iterator[") [c_rbr] s with
    | Some m => let! x := m in omap TList (rec x)
    | None =>
    match delimited (u "set[") [c_rbr] s with
    | Some m => let! x := m in omap TSet (rec x)
    | None =>
    match delimited (u "tuple[") [c_rbr] s with
    | Some m => let! x := m in omap TTuple (parse_args x)
    | None => from_mid s
    end end end end.

  (** from_py.rs:251-309 *)
  Definition from_colls (s : str) : outcome ptype :=
    match lookup_lit s lits_none with
    | Some t => Ok t
    | None =>
    match delimited (u "dict[") [c_rbr] s with
    | Some m => let! x := m in
                let! l := parse_args x in
                let! k := index l 0 in
                let! v := index l 1 in
                Ok (TDict k v)
    | None =>
    match lookup_lit s lits_dict with
    | Some t => Ok t
    | None =>
    match delimited (u "frozenset[") [c_rbr] s with
    | Some m => let! x := m in omap TFrozenSet (rec x)
    | None =>
    match delimited (u "list[") [c_rbr] s with
    | Some m => let! x := m in omap TList (rec x)
    | None =>
    if str_eqb s (u "list") then Ok (TList TUnknown) else
    match delimited (u "Sequence[") [c_rbr] s with
    | Some m => let! x := m in omap TList (rec x)
    | None =>
    match lookup_lit s lits_seq with
    | Some t => Ok t
    | None => from_colls2 s
    end end end end end end end.

  (** from_py.rs:215-250 *)
  Definition from_str_body (s : str) : outcome ptype :=
    match lookup_lit s lits_prim with
    | Some t => Ok t
    | None =>
        if ((count_char c_bar s =? 1) && (count_str (u "None") s =? 1))%N then from_optional s
        else if contains_char c_bar s then from_union s
        else from_colls s
    end.
End from_str.

Fixpoint from_str_fuel (dbg : bool) (fuel : nat) (s : str) : outcome ptype :=
  match fuel with
  | O => OutOfFuel
  | S f => from_str_body dbg (from_str_fuel dbg f) s
  end.
(** The recursion depth is bounded by the length plus the number of bars (proved: C10). *)
Definition str_measure (s : str) : nat := length s + N.to_nat (count_char c_bar s).
Definition from_str (dbg : bool) (s : str) : outcome ptype :=
  from_str_fuel dbg (S (str_measure s)) s.

(** ** Annotation objects *)

(** The builtin types tested by [TryFrom<Bound<PyType>>], in the order of from_py.rs:50-105. *)
Inductive builtin :=
| BBool | BByteArray | BBytes | BFloat | BLong | BString
| BDict | BFrozenSet | BList | BSet | BTuple
| BSlice | BComplex
| BDate | BDateTime | BDelta | BTime | BTzInfo
| BCapsule | BCFunction | BCode | BFrame | BFunction | BModule | BSuper | BTraceback | BType.

Definition builtin_order : list (builtin * ptype) :=
  [(BBool, TBool); (BByteArray, TByteArray); (BBytes, TBytes); (BFloat, TFloat); (BLong, TLong);
   (BString, TString);
   (BDict, TDict TUnknown TUnknown); (BFrozenSet, TFrozenSet TUnknown); (BList, TList TUnknown);
   (BSet, TSet TUnknown); (BTuple, TTuple [TUnknown]);
   (BSlice, TSlice); (BComplex, TComplex);
   (BDate, TDate); (BDateTime, TDateTime); (BDelta, TDelta); (BTime, TTime); (BTzInfo, TTzInfo);
   (BCapsule, TCapsule); (BCFunction, TCFunction); (BCode, TCode); (BFrame, TFrame);
   (BFunction, TFunction [TEllipsis] TUnknown); (BModule, TModule); (BSuper, TSuper);
   (BTraceback, TTraceback); (BType, TType)].

(** What the conversion can see of an annotation object: [None]; a class, with the answers of
    [issubclass] and its [str()]; an object whose type lives in module [typing], with
    [__origin__] and a tuple [__args__] if it has them; a string (assumed valid Unicode);
    anything else by its [str()]. *)
Inductive pyann :=
| ANone
| AClass (sub : builtin -> bool) (text : str)
| ATyping (origin : option pyann) (args : option (list pyann)) (text : str)
| AText (s : str)
| AObj (text : str).

(** from_py.rs:45-111 *)
Definition from_class (dbg : bool) (sub : builtin -> bool) (text : str) : outcome ptype :=
  match find (fun e => sub (fst e)) builtin_order with
  | Some e => Ok (snd e)
  | None => from_str dbg text
  end.

(** from_py.rs:138-199: combining the origin's type with the arguments' types *)
Definition combine_typing (wrapping : ptype) (inner : list ptype) : outcome ptype :=
  match wrapping with
  | TUnion _ =>
      if (length inner =? 2) && existsb is_pynone inner
      then let! t := unwrap PUnreachable (find (fun x => negb (is_pynone x)) inner) in
           Ok (TOptional t)
      else Ok (TUnion inner)
  | TOptional _ => omap TOptional (index inner 0)
  | TDict _ _ => let! k := index inner 0 in let! v := index inner 1 in Ok (TDict k v)
  | TFrozenSet _ => omap TFrozenSet (index inner 0)
  | TList _ => omap TList (index inner 0)
  | TSet _ => omap TSet (index inner 0)
  | TTuple _ => Ok (TTuple inner)
  | TFunction _ _ => mk_function inner
  | TType => index inner 0
  | _ => Ok wrapping
  end.

(** from_py.rs:7-43 and 114-209 *)
Fixpoint from_ann (dbg : bool) (a : pyann) : outcome ptype :=
  match a with
  | ANone => Ok TUnknown
  | AClass sub text => from_class dbg sub text
  | ATyping origin args text =>
      match origin with
      | Some o =>
          let! wrapping := from_ann dbg o in
          match args with
          | Some l => let! inner := mapM (from_ann dbg) l in combine_typing wrapping inner
          | None => Ok wrapping
          end
      | None => from_str dbg text
      end
  | AText s => from_str dbg s
  | AObj text => from_str dbg text
  end.
