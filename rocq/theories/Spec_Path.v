(** * Independent notions about names, paths and imports (not derived from the model) *)
From Verif Require Import Base.

(** A Python identifier over the given Unicode tables: PEP 3131 (up to NFKC). *)
Definition py_identifier (U : uni) (s : str) : Prop :=
  exists c t, s = c :: t /\ (c = 95%N \/ xid_start U c = true) /\
              (forall x, In x t -> xid_continue U x = true).

(** Strict and reserved keywords of Rust (editions up to 2021), from the Rust reference. *)
Definition rust_keyword (s : str) : Prop :=
  In s (map u
   ["as"; "break"; "const"; "continue"; "crate"; "else"; "enum"; "extern"; "false"; "fn"; "for";
    "if"; "impl"; "in"; "let"; "loop"; "match"; "mod"; "move"; "mut"; "pub"; "ref"; "return";
    "self"; "Self"; "static"; "struct"; "super"; "trait"; "true"; "type"; "unsafe"; "use";
    "where"; "while"; "async"; "await"; "dyn";
    "abstract"; "become"; "box"; "do"; "final"; "macro"; "override"; "priv"; "typeof";
    "unsized"; "virtual"; "yield"; "try"; "_"]%string).

(** Names for which Rust has no spelling at all, not even a raw one. *)
Definition rust_unspellable (s : str) : Prop :=
  In s (map u ["_"; "self"; "super"; "crate"; "Self"]%string).

(** ** Rust path resolution inside a tree of modules
    The current module and the result are absolute lists of names; [None] when [super] leaves
    the root or a path keyword occurs where it may not. *)
Definition path_kw (s : str) : bool :=
  existsb (str_eqb s) (map u ["self"; "super"; "crate"; "Self"]%string).

Definition resolve_names (cur rel : list str) : option (list str) :=
  if existsb path_kw rel then None else Some (cur ++ rel).

Fixpoint resolve_supers (cur rel : list str) : option (list str) :=
  match rel with
  | s :: r =>
      if str_eqb s (u "super") then
        match cur with [] => None | _ => resolve_supers (removelast cur) r end
      else resolve_names cur rel
  | [] => Some cur
  end.

Definition resolve (cur rel : list str) : option (list str) :=
  match rel with
  | [] => None
  | s :: r => if str_eqb s (u "self") then resolve_supers cur r else resolve_supers cur rel
  end.

(** A Rust [use] path whose first segment cannot be captured by an external crate or by a
    name in scope. *)
Definition anchored (rel : list str) : Prop :=
  exists s r, rel = s :: r /\ (s = u "self" \/ s = u "super").

(** An absolute module/item path: plain names only. *)
Definition plain_names (l : list str) : Prop := forall s, In s l -> path_kw s = false.

(** ** Lists *)
Definition is_prefix {A} (p l : list A) : Prop := exists r, l = p ++ r.

(** A dotted text: [n] leading dots and then components. *)
Fixpoint dots (n : nat) : str := match n with O => [] | S m => c_dot :: dots m end.
Definition dotted (n : nat) (comps : list str) : str := dots n ++ join [c_dot] comps.
(** Components as Python writes them: no dot, not empty (and no [r#], which is not Python). *)
Definition component (s : str) : Prop :=
  s <> [] /\ ~ In c_dot s /\ starts_with [114; 35]%N s = false.

(** ** Python's import system (fresh interpreter)
    A package universe: which dotted names are importable modules, and which attributes a
    module has right after its own initialisation (not counting submodules that other imports
    bind later).  The interpreter state is the list of modules imported so far.  Importing
    [a.b.c] imports [a], [a.b] and [a.b.c], and binds each to its parent. *)
Record universe := mk_universe {
  uv_module : list str -> bool;               (* is this dotted path an importable module *)
  uv_attr : list str -> str -> bool           (* attribute present after initialisation *)
}.

(** Non-empty prefixes of a path, shortest first: what an [import a.b.c] executes. *)
Definition prefixes (m : list str) : list (list str) :=
  map (fun k => firstn k m) (seq 1 (length m)).

Definition py_import (V : universe) (st : list (list str)) (m : list str) : option (list (list str)) :=
  match m with
  | [] => None
  | _ => if forallb (uv_module V) (prefixes m) then Some (prefixes m ++ st) else None
  end.

Definition py_getattr (V : universe) (st : list (list str)) (m : list str) (x : str) : bool :=
  uv_attr V m x || (uv_module V (m ++ [x]) && existsb (list_eqb str_eqb (m ++ [x])) st).

(** A chain of [getattr]s starting from the object at path [m]. *)
Fixpoint py_getattrs (V : universe) (st : list (list str)) (m : list str) (l : list str) : bool :=
  match l with
  | [] => true
  | x :: r => py_getattr V st m x && py_getattrs V st (m ++ [x]) r
  end.

(** Does [import m] followed by the attribute chain [l] succeed in a fresh interpreter? *)
Definition lookup_succeeds (V : universe) (m l : list str) : bool :=
  match py_import V [] m with Some st => py_getattrs V st m l | None => false end.

(** ** Text order: [s] is a proper prefix of [t], or is smaller at the first difference. *)
Definition text_before (s t : str) : Prop :=
  (exists c r, t = s ++ c :: r) \/
  (exists p c d x y, s = p ++ c :: x /\ t = p ++ d :: y /\ (c < d)%N).
