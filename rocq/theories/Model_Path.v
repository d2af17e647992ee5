(** * Model of syntax/common/path.rs *)
From Verif Require Import Base Model_Ident.

(** path.rs:4-8 *)
Record path := mk_path { leading_colon : bool; segs : list ident }.
Definition path_eqb (a b : path) : bool :=
  Bool.eqb (leading_colon a) (leading_colon b) && list_eqb ident_eqb (segs a) (segs b).
(** [#[derive(Default)]] *)
Definition path_default : path := mk_path false [].

Definition id_super : ident := u "super".
Definition id_self : ident := u "self".
Definition dcolon : str := [c_colon; c_colon].
Definition nonempty (s : str) : bool := match s with [] => false | _ => true end.

(** path.rs:11-24 [from_rs] *)
Definition path_from_rs (s : str) : path :=
  match s with
  | [] => path_default
  | _ => mk_path (starts_with dcolon s) (map ident_from_rs (filter nonempty (split_colons s)))
  end.
(** path.rs:15 with the debug assertion *)
Definition path_from_rs_chk (dbg : bool) (s : str) : outcome path :=
  if dbg && nonempty s && contains_char c_dot s then Panic PDebugAssert else Ok (path_from_rs s).

(** [chars().take_while(|c| c == '.').count()], path.rs:34 *)
Fixpoint leading_dots (s : str) : nat :=
  match s with [] => 0 | c :: t => if (c =? c_dot)%N then S (leading_dots t) else 0 end.

(** path.rs:26-43 [from_py] *)
Definition path_from_py (U : uni) (s : str) : path :=
  match s with
  | [] => path_default
  | _ => mk_path false
           (repeat (ident_from_rs id_super) (leading_dots s) ++
            map (ident_from_py U) (filter nonempty (split_char c_dot s)))
  end.
(** path.rs:30 with the debug assertion *)
Definition path_from_py_chk (dbg : bool) (U : uni) (s : str) : outcome path :=
  if dbg && contains_str dcolon s then Panic PDebugAssert else Ok (path_from_py U s).

(** path.rs:45-51 [into_rs], 53-59 [to_rs] *)
Definition to_rs (p : path) : str :=
  join dcolon ((if leading_colon p then [[]] else []) ++ map as_rs (segs p)).

(** path.rs:61-68 [to_py] *)
Definition to_py (p : path) : str :=
  join [c_dot] (map (fun s => if str_eqb s id_super then [] else s) (map as_py (segs p))).

(** path.rs:70-84 [join], 86-100 [concat] (the same function twice) *)
Definition path_join (a b : path) : outcome path :=
  if leading_colon b then Panic PAssert
  else Ok (mk_path (leading_colon a) (segs a ++ segs b)).

(** path.rs:230-237 [From<Ident>], 239-246 [From<&[Ident]>] *)
Definition path_of_ident (i : ident) : path := mk_path false [i].
Definition path_of_segs (l : list ident) : path := mk_path false l.

(** [name.join(&ident.into())]: joining a single identifier cannot panic. *)
Definition path_snoc (a : path) (i : ident) : path :=
  mk_path (leading_colon a) (segs a ++ [i]).

(** path.rs:102-104 [name]: [last().unwrap()] *)
Fixpoint last_opt {A} (l : list A) : option A :=
  match l with [] => None | [x] => Some x | _ :: t => last_opt t end.
Definition path_name (p : path) : outcome ident := unwrap PUnwrap (last_opt (segs p)).

(** path.rs:106-115 [root] *)
Definition path_root (p : path) : option path :=
  match segs p with [] => None | s :: _ => Some (mk_path (leading_colon p) [s]) end.

(** path.rs:117-126 [parent] *)
Definition path_parent (p : path) : option path :=
  match segs p with
  | _ :: _ :: _ => Some (mk_path (leading_colon p) (removelast (segs p)))
  | _ => None
  end.

(** [parent().unwrap_or_default()] *)
Definition path_parent_or_default (p : path) : path :=
  match path_parent p with Some q => q | None => path_default end.

(** path.rs:148-153 *)
Fixpoint common_prefix_len (a b : list ident) : nat :=
  match a, b with
  | x :: a', y :: b' => if ident_eqb x y then S (common_prefix_len a' b') else 0
  | _, _ => 0
  end.

(** path.rs:128-195 [relative_to] *)
Definition relative_to (self target : path) (unamb : bool) : outcome path :=
  if path_eqb self target then
    if unamb then
      let! n := path_name target in Ok (mk_path false [id_super; n])
    else Ok (mk_path false [id_self])
  else
    let n := common_prefix_len (segs self) (segs target) in
    let! rel :=
      if Nat.ltb n (length (segs self)) then
        Ok (repeat id_super (length (segs self) - n) ++ skipn n (segs target))
      else if Nat.eqb n (length (segs self)) then
        Ok ((if unamb then [id_self] else []) ++ skipn n (segs target))
      else Panic PUnreachable in
    let! rel' :=
      if unamb && option_eqb str_eqb (option_map as_rs (last_opt rel)) (Some id_super) then
        let! nm := path_name target in Ok (rel ++ [id_super; nm])
      else Ok rel in
    Ok (mk_path false rel').

(** path.rs:200-206: the longest proper prefix that can be imported, from long to short. *)
Fixpoint longest_importable (imp : str -> bool) (p : path) (i : nat) : option path :=
  match i with
  | O => None
  | S j => let m := path_of_segs (firstn i (segs p)) in
           if imp (to_py m) then Some m else longest_importable imp p j
  end.

(** [strip_prefix] on slices of identifiers *)
Fixpoint slice_strip_prefix (p l : list ident) : option (list ident) :=
  match p, l with
  | [], _ => Some l
  | x :: p', y :: l' => if ident_eqb x y then slice_strip_prefix p' l' else None
  | _ :: _, [] => None
  end.

(** path.rs:197-227 [import_quote].  [imp] is [py.import_bound(..).is_ok()] at generation
    time.  The result is the code [import(package)] followed by a chain of [getattr]s. *)
Record lookup := mk_lookup { lk_import : str; lk_attrs : list str }.
Definition import_quote (imp : str -> bool) (p : path) : outcome lookup :=
  let! root := unwrap PUnreachable (path_root p) in
  let pkg := match longest_importable imp p (length (segs p) - 1) with
             | Some m => m | None => root end in
  let! rest := unwrap PUnreachable (slice_strip_prefix (segs pkg) (segs p)) in
  Ok (mk_lookup (to_py pkg) (map as_py rest)).

(** path.rs:254-258 [Ord for Path] *)
Definition path_cmp (a b : path) : comparison := str_cmp (to_py a) (to_py b).

(** path.rs:260-272 [TryFrom<Path> for syn::Path].  syn 2.0.87's path grammar (crate not available
    here, written from its documentation): non-empty list of segments, each an identifier or one of super/self/crate/Self.
    Simplified: generic arguments ([a<b>], [a(b)]) inside a segment are treated as rejected. *)
Definition syn_path_keywords : list str := map u ["super"; "self"; "crate"; "Self"]%string.
Definition syn_segment_ok (U : uni) (i : ident) : bool :=
  syn_ident_ok U (as_rs i) || mem_str (as_rs i) syn_path_keywords.
Definition syn_path_ok (U : uni) (p : path) : bool :=
  match segs p with [] => false | l => forallb (syn_segment_ok U) l end.
Definition path_to_syn (U : uni) (p : path) : outcome path :=
  if syn_path_ok U p then Ok p else Err ESyn.
