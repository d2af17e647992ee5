(** * Reading and running Rust code (C70)

    A parser for the functions that generated code consists of, and an interpreter for what it reads.  The parser follows the Rust
    reference ("Expressions", "Statements", "Functions"); the meaning of the functions of pyo3 follows its documentation (version 0.21).
    Both know only what generated code uses: anything else is not read, or gets stuck ([None]). *)
From Verif Require Import Base Model_Path Model_IntoRs Model_Out Spec_Lex Spec_Call.

(** ** Syntax
    A path is kept as its tokens; a flag says that the last argument is followed by a comma.  The statements of a block are nested. *)
Inductive expr :=
| EPath (p : list tok)
| ELit (s : str)
| ENum (s : str)
| ETuple (l : list expr) (comma : bool)
| EArray (l : list expr) (comma : bool)
| EMacro (p : list tok) (l : list expr) (comma : bool)              (* p!(l) *)
| ECall (f : expr) (l : list expr) (comma : bool)
| EMethod (e : expr) (m : str) (l : list expr) (comma : bool)       (* e.m(l) *)
| ETry (e : expr)                                                   (* e? *)
| ERef (e : expr)
| EAdd (a b : expr)
| EClosure (x : str) (e : expr)                                     (* |x| e *)
| EBlock (b : expr)
| EIfLet (c x : str) (e a b : expr)                                 (* if let c(x) = e { a } else { b } *)
| ELet (mut : bool) (x : str) (e rest : expr)
| EConst (x : str) (t : list tok) (e rest : expr)
| ESeq (e rest : expr)                                              (* e; rest *)
| EEnd.
(** A function: its parameters (the receiver is called [self]) with the tokens of their types *)
Record rfn := mk_rfn { r_name : str; r_params : list (str * list tok); r_ret : list tok; r_body : expr }.

(** ** Parser *)
Definition punct (s : Ascii.ascii) (t : tok) : bool := match t with TPunct c _ => (c =? ch s)%N | _ => false end.
Definition joint (t : tok) : bool := match t with TPunct _ j => j | _ => false end.
Definition keyword (s : string) (t : tok) : bool := match t with TWord w => str_eqb w (u s) | _ => false end.
Definition closing (d : delim) (t : tok) : bool := match t with TClose e => delim_eqb d e | _ => false end.

(** Paths, with lists of types between angle brackets after [::] *)
Inductive path_state := AfterSegment | AfterColon | AfterColons | InTypes (depth : nat).
Fixpoint p_path (st : path_state) (l : list tok) : option (list tok * list tok) :=
  match l with
  | [] => match st with AfterSegment => Some ([], []) | _ => None end
  | t :: r =>
      let go st' := match p_path st' r with Some (p, r') => Some (t :: p, r') | None => None end in
      match st with
      | AfterSegment => if punct ":" t && joint t then go AfterColon else Some ([], l)
      | AfterColon => if punct ":" t then go AfterColons else None
      | AfterColons => match t with TWord _ => go AfterSegment | _ => if punct "<" t then go (InTypes 0) else None end
      | InTypes d =>
          if punct "<" t then go (InTypes (S d))
          else if punct ">" t then go (match d with O => AfterSegment | S d' => InTypes d' end)
          else match t with TWord _ | TPunct _ _ => go (InTypes d) | _ => None end
      end
  end.
Definition p_any_path (l : list tok) : option (list tok * list tok) :=
  match l with
  | TWord _ :: _ => p_path AfterColons l
  | TPunct _ true :: _ => if punct ":" (hd (TNum []) l) then p_path AfterSegment l else None
  | _ => None
  end.
(** Types: up to a token outside of all brackets *)
Definition opens (t : tok) : bool := punct "<" t || match t with TOpen _ => true | _ => false end.
Definition shuts (t : tok) : bool := punct ">" t || match t with TClose _ => true | _ => false end.
Fixpoint p_type (stop : tok -> bool) (depth : nat) (l : list tok) : option (list tok * list tok) :=
  match l with
  | [] => None
  | t :: r =>
      let go d := match p_type stop d r with Some (p, r') => Some (t :: p, r') | None => None end in
      match depth with
      | O => if stop t then Some ([], l) else if opens t then go 1 else if shuts t then None else go O
      | S d => if opens t then go (S depth) else if shuts t then go d else go depth
      end
  end.

Fixpoint p_expr (n : nat) (l : list tok) {struct n} : option (expr * list tok) :=
  match n with
  | O => None
  | S n =>
      match l with
      | t :: TWord x :: t' :: r =>
          if punct "|" t && punct "|" t'
          then match p_expr n r with Some (e, r') => Some (EClosure x e, r') | None => None end
          else p_sum n l
      | _ => p_sum n l
      end
  end
with p_sum (n : nat) (l : list tok) {struct n} : option (expr * list tok) :=
  match n with
  | O => None
  | S n =>
      match p_operand n l with
      | Some (a, t :: r) =>
          if punct "+" t then match p_operand n r with Some (b, r') => Some (EAdd a b, r') | None => None end else Some (a, t :: r)
      | x => x
      end
  end
with p_operand (n : nat) (l : list tok) {struct n} : option (expr * list tok) :=
  match n with
  | O => None
  | S n =>
      match l with
      | [] => None
      | t :: r =>
          if punct "&" t then match p_operand n r with Some (e, r') => Some (ERef e, r') | None => None end
          else match p_primary n l with Some (e, r') => p_suffix n e r' | None => None end
      end
  end
with p_primary (n : nat) (l : list tok) {struct n} : option (expr * list tok) :=
  match n with
  | O => None
  | S n =>
      match l with
      | TLit s :: r => Some (ELit s, r)
      | TNum s :: r => Some (ENum s, r)
      | TOpen Paren :: r =>
          match p_list n Paren r with
          | Some ([e], false, r') => Some (e, r')
          | Some (es, c, r') => Some (ETuple es c, r')
          | None => None
          end
      | TOpen Bracket :: r => match p_list n Bracket r with Some (es, c, r') => Some (EArray es c, r') | None => None end
      | TOpen Brace :: r => match p_block n r with Some (b, r') => Some (EBlock b, r') | None => None end
      | t :: r =>
          if keyword "if" t then
            match r with
            | t1 :: TWord c :: TOpen Paren :: TWord x :: TClose Paren :: t2 :: r1 =>
                if keyword "let" t1 && punct "=" t2 then
                  match p_operand n r1 with
                  | Some (e, TOpen Brace :: r2) =>
                      match p_block n r2 with
                      | Some (a, t3 :: TOpen Brace :: r3) =>
                          if keyword "else" t3 then match p_block n r3 with Some (b, r4) => Some (EIfLet c x e a b, r4) | None => None end else None
                      | _ => None
                      end
                  | _ => None
                  end
                else None
            | _ => None
            end
          else
            match p_any_path l with
            | Some (p, t1 :: TOpen Paren :: r') =>
                if punct "!" t1 then match p_list n Paren r' with Some (es, c, r2) => Some (EMacro p es c, r2) | None => None end
                else Some (EPath p, t1 :: TOpen Paren :: r')
            | Some (p, r') => Some (EPath p, r')
            | None => None
            end
      | [] => None
      end
  end
with p_suffix (n : nat) (e : expr) (l : list tok) {struct n} : option (expr * list tok) :=
  match n with
  | O => None
  | S n =>
      match l with
      | TOpen Paren :: r => match p_list n Paren r with Some (es, c, r') => p_suffix n (ECall e es c) r' | None => None end
      | t :: r =>
          if punct "?" t then p_suffix n (ETry e) r
          else if punct "." t then
            match r with
            | TWord m :: TOpen Paren :: r1 => match p_list n Paren r1 with Some (es, c, r2) => p_suffix n (EMethod e m es c) r2 | None => None end
            | _ => None
            end
          else Some (e, l)
      | [] => Some (e, l)
      end
  end
(* up to and including the closing delimiter *)
with p_list (n : nat) (d : delim) (l : list tok) {struct n} : option (list expr * bool * list tok) :=
  match n with
  | O => None
  | S n =>
      match l with
      | [] => None
      | t :: r =>
          if closing d t then Some ([], false, r)
          else match p_expr n l with
               | Some (e, t1 :: r1) =>
                   if closing d t1 then Some ([e], false, r1)
                   else if punct "," t1 then
                     match r1 with
                     | t2 :: r2 => if closing d t2 then Some ([e], true, r2)
                                   else match p_list n d r1 with Some (es, c, r3) => Some (e :: es, c, r3) | None => None end
                     | [] => None
                     end
                   else None
               | _ => None
               end
      end
  end
(* the same for the statements of a block *)
with p_block (n : nat) (l : list tok) {struct n} : option (expr * list tok) :=
  match n with
  | O => None
  | S n =>
      match l with
      | [] => None
      | t :: r =>
          if closing Brace t then Some (EEnd, r)
          else if keyword "let" t then
            let m := keyword "mut" (hd (TNum []) r) in
            match (if m then tl r else r) with
            | TWord x :: t1 :: r1 =>
                if punct "=" t1 then
                  match p_expr n r1 with
                  | Some (e, t2 :: r2) => if punct ";" t2 then match p_block n r2 with Some (b, r3) => Some (ELet m x e b, r3) | None => None end else None
                  | _ => None
                  end
                else None
            | _ => None
            end
          else if keyword "const" t then
            match r with
            | TWord x :: t1 :: r1 =>
                if punct ":" t1 then
                  match p_type (punct "=") 0 r1 with
                  | Some (ty, _ :: r2) =>
                      match p_expr n r2 with
                      | Some (e, t2 :: r3) => if punct ";" t2 then match p_block n r3 with Some (b, r4) => Some (EConst x ty e b, r4) | None => None end else None
                      | _ => None
                      end
                  | _ => None
                  end
                else None
            | _ => None
            end
          else
            match p_expr n l with
            | Some (e, t1 :: r1) =>
                if closing Brace t1 then Some (e, r1)
                else if punct ";" t1 then match p_block n r1 with Some (b, r2) => Some (ESeq e b, r2) | None => None end
                else None
            | _ => None
            end
      end
  end.

(** Functions with one lifetime *)
Definition ends_param (t : tok) : bool := punct "," t || closing Paren t.
Fixpoint p_params (n : nat) (l : list tok) : option (list (str * list tok) * list tok) :=
  match n with
  | O => None
  | S n =>
      let more x ty r := match r with
        | t :: r' => if closing Paren t then Some ([(x, ty)], r') else match p_params n r' with Some (ps, r2) => Some ((x, ty) :: ps, r2) | None => None end
        | [] => None
        end in
      match l with
      | [] => None
      | t :: r =>
          if closing Paren t then Some ([], r)
          else if punct "&" t then
            match r with
            | t1 :: t2 :: TWord x :: r1 => if str_eqb x (u "self") then more x [t; t1; t2] r1 else None
            | _ => None
            end
          else match t, r with
               | TWord x, t1 :: r1 => if punct ":" t1 then match p_type ends_param 0 r1 with Some (ty, r2) => more x ty r2 | None => None end else None
               | _, _ => None
               end
      end
  end.
(* up to the token that ends the signature *)
Definition p_head (stop : tok -> bool) (l : list tok) : option (rfn * list tok) :=
  match l with
  | t0 :: TWord f :: t1 :: t2 :: TWord _ :: t3 :: TOpen Paren :: r =>
      if keyword "fn" t0 && punct "<" t1 && punct "'" t2 && punct ">" t3 then
        match p_params (length r) r with
        | Some (ps, t4 :: t5 :: r1) =>
            if punct "-" t4 && punct ">" t5 then match p_type stop 0 r1 with Some (ty, _ :: r2) => Some (mk_rfn f ps ty EEnd, r2) | _ => None end else None
        | _ => None
        end
      else None
  | _ => None
  end.
Definition opens_block (t : tok) : bool := match t with TOpen Brace => true | _ => false end.
Definition p_fn (l : list tok) : option (rfn * list tok) :=
  match p_head opens_block l with
  | Some (f, r) => match p_block (5 * length l) r with Some (b, r') => Some (mk_rfn (r_name f) (r_params f) (r_ret f) b, r') | None => None end
  | None => None
  end.

(** ** Items
    What stands in front of an item: [pub], and attributes, each as its tokens after [#] up to the closing bracket *)
Record lead := mk_lead { l_public : bool; l_attrs : list (list tok) }.
Definition bare : lead := mk_lead false [].
Definition as_public (p : lead) : lead := mk_lead true (l_attrs p).
Definition with_attr (a : list tok) (p : lead) : lead := mk_lead (l_public p) (l_attrs p ++ [a]).
Inductive item :=
| IFn (p : lead) (f : rfn)
| IMod (p : lead) (n : str) (l : list item)
| IImpl (p : lead) (target : list tok) (l : list item)          (* up to the brace *)
| ITrait (p : lead) (n : str) (l : list (lead * rfn))           (* functions without bodies *)
| IOther (p : lead) (l : list tok).                             (* up to the semicolon *)
Fixpoint upto (stop : tok -> bool) (l : list tok) : option (list tok * list tok) :=
  match l with
  | [] => None
  | t :: r => if stop t then Some ([], r) else match upto stop r with Some (p, r') => Some (t :: p, r') | None => None end
  end.
(* up to and including the closing brace *)
Fixpoint p_decls (n : nat) (p : lead) (l : list tok) : option (list (lead * rfn) * list tok) :=
  match n, l with
  | S n, t :: r =>
      if closing Brace t then Some ([], r)
      else if punct "#" t then match upto (closing Bracket) r with Some (a, r') => p_decls n (with_attr a p) r' | None => None end
      else match p_head (punct ";") l with
           | Some (f, r') => match p_decls n bare r' with Some (fs, r2) => Some ((p, f) :: fs, r2) | None => None end
           | None => None
           end
  | _, _ => None
  end.
(* up to a closing brace or the end *)
Fixpoint p_items (n : nat) (p : lead) (l : list tok) : option (list item * list tok) :=
  match n with
  | O => None
  | S n =>
      let more i r := match p_items n bare r with Some (is, r') => Some (i :: is, r') | None => None end in
      match l with
      | [] => Some ([], [])
      | t :: r =>
          if closing Brace t then Some ([], l)
          else if punct "#" t then match upto (closing Bracket) r with Some (a, r') => p_items n (with_attr a p) r' | None => None end
          else if keyword "pub" t then p_items n (as_public p) r
          else if keyword "fn" t then match p_fn l with Some (f, r') => more (IFn p f) r' | None => None end
          else if keyword "mod" t then
            match r with
            | TWord x :: TOpen Brace :: r1 => match p_items n bare r1 with Some (is, TClose Brace :: r2) => more (IMod p x is) r2 | _ => None end
            | _ => None
            end
          else if keyword "impl" t then
            match upto opens_block r with
            | Some (h, r1) => match p_items n bare r1 with Some (is, TClose Brace :: r2) => more (IImpl p h is) r2 | _ => None end
            | None => None
            end
          else if keyword "trait" t then
            match r with
            | TWord x :: TOpen Brace :: r1 => match p_decls n bare r1 with Some (fs, r2) => more (ITrait p x fs) r2 | None => None end
            | _ => None
            end
          else match upto (punct ";") l with Some (a, r1) => more (IOther p a) r1 | None => None end
      end
  end.
Definition read_file (U : uni) (s : str) : option (list item) :=
  match lex U s with
  | Some l => match p_items (S (length l)) bare l with Some (is, []) => Some is | _ => None end
  | None => None
  end.
(** The items of the module at a path, and a function of a module, of a struct, or of an object of a struct *)
Inductive inside_mod : list item -> list str -> list item -> Prop :=
| inside_here : forall l, inside_mod l [] l
| inside_there : forall l p n k ns r, In (IMod p n k) l -> inside_mod k ns r -> inside_mod l (n :: ns) r.
Inductive owner := OfModule | OfStruct (n : str) | OfObject (n : str).
Definition target_of (l : list tok) : option owner :=
  match l with
  | [TWord n] => Some (OfStruct n)
  | [TWord _; f; c1; c2; p; c3; c4; b; lt; tick; us; cm; TWord n; gt] =>                 (* T for ::pyo3::Bound<'_, n> *)
      if keyword "for" f && punct ":" c1 && punct ":" c2 && keyword "pyo3" p && punct ":" c3 && punct ":" c4 && keyword "Bound" b
         && punct "<" lt && punct "'" tick && keyword "_" us && punct "," cm && punct ">" gt
      then Some (OfObject n) else None
  | _ => None
  end.
Definition is_fn_of (l : list item) (w : owner) (f : rfn) : Prop :=
  match w with
  | OfModule => exists p, In (IFn p f) l
  | _ => exists q h k p, In (IImpl q h k) l /\ target_of h = Some w /\ In (IFn p f) k
  end.

(** ** Python: what is asked of the interpreter; it may answer with any object, or raise an exception ([None]) *)
Section run.
  Context {V : Type}.
  Inductive op :=
  | OImport (s : str)
  | OGet (o : V) (a : str)
  | OSet (o : V) (a : str) (v : V)
  | OCall (f : V) (pos : list V) (kw : list (str * V))
  | OMethod (o : V) (m : str) (pos : list V) (kw : list (str * V))
  | OSource (src file name : str)               (* PyModule::from_code_bound *)
  | OPut (o : V) (k : str) (v : V).             (* o[k] = v *)
  Variable answer : list op -> op -> option V.  (* given everything asked before *)

  (** ** Values of Rust
      What the caller passes: [Spec_Call.rarg].  References are transparent. *)
  Inductive val :=
  | VPy                                         (* Python<'py> *)
  | VUnit
  | VNum
  | VStr (s : str)
  | VObj (v : V)
  | VItems (l : list V)                         (* a Python tuple *)
  | VDictAt (i : nat)                           (* a Python dictionary *)
  | VSeq (l : list V)                           (* array, vector, iterator of objects *)
  | VSome (v : val)
  | VGiven (a : rarg V)
  | VPairs (d : list (str * V))                 (* impl IntoPyDict *)
  | VOk (v : val)
  | VErr
  | VExtract (v : V).                           (* the attempt to convert an object *)
  Record state := mk_state { vars : list (str * (bool * val)); dicts : list (list (str * V)); asked : list op }.
  Inductive ctl := Val (v : val) | Raise.       (* [?] leaves the function *)

  Definition lookup_var (s : state) (x : str) : option val :=
    match find (fun e => str_eqb (fst e) x) (vars s) with Some e => Some (snd (snd e)) | None => None end.
  Definition push (mut : bool) (x : str) (v : val) (s : state) : state := mk_state ((x, (mut, v)) :: vars s) (dicts s) (asked s).
  (** The variables of a block end with it. *)
  Definition leave (s s' : state) : state := mk_state (skipn (length (vars s') - length (vars s)) (vars s')) (dicts s') (asked s').
  Fixpoint assign (l : list (str * (bool * val))) (x : str) (v : val) : option (list (str * (bool * val))) :=
    match l with
    | [] => None
    | (y, (m, w)) :: r => if str_eqb y x then (if m then Some ((y, (m, v)) :: r) else None)
                          else match assign r x v with Some r' => Some ((y, (m, w)) :: r') | None => None end
    end.
  Fixpoint change {A} (l : list A) (i : nat) (a : A) : list A :=
    match l, i with [], _ => [] | _ :: r, O => a :: r | b :: r, S j => b :: change r j a end.

  (** [ToPyObject::to_object], also where a value is taken by [setattr] and [set_item] *)
  Definition object_of (v : val) : option V := match v with VObj o | VGiven (AOne o) => Some o | _ => None end.
  Fixpoint objects_of (l : list val) : option (list V) :=
    match l with [] => Some [] | v :: r => match object_of v, objects_of r with Some o, Some os => Some (o :: os) | _, _ => None end end.
  (** Positional arguments: [impl IntoPy<Py<PyTuple>>] *)
  Definition positional_of (v : val) : option (list V) := match v with VUnit => Some [] | VItems l => Some l | _ => None end.
  Definition ask (f : V -> val) (o : op) (s : state) : option (ctl * state) :=
    Some (Val (match answer (asked s) o with Some v => VOk (f v) | None => VErr end), mk_state (vars s) (dicts s) (asked s ++ [o])).

  Inductive prim :=
  | PIntoDict | PIntoTuple | PIntoAny | PNewDict | PNewTuple | PLen | PIter | PToObject | PSetItem | PGetAttr | PSetAttr
  | PCall | PCall1 | PCall0 | PCallMethod | PCallMethod1 | PCallMethod0 | PExtract | PSome | PWithCapacity | PFromCode | PPut.
  Definition prims : list (string * prim) := [
    ("::pyo3::types::IntoPyDict::into_py_dict_bound", PIntoDict);
    ("::pyo3::IntoPy::<::pyo3::Py<::pyo3::types::PyTuple>>::into_py", PIntoTuple);
    ("::pyo3::IntoPy::<::pyo3::Py<::pyo3::types::PyAny>>::into_py", PIntoAny);
    ("::pyo3::types::PyDict::new_bound", PNewDict); ("::pyo3::types::PyTuple::new_bound", PNewTuple);
    ("::pyo3::types::PyTupleMethods::len", PLen); ("::pyo3::types::PyTupleMethods::iter", PIter);
    ("::pyo3::ToPyObject::to_object", PToObject); ("::pyo3::types::PyDictMethods::set_item", PSetItem);
    ("::pyo3::types::PyAnyMethods::getattr", PGetAttr); ("::pyo3::types::PyAnyMethods::setattr", PSetAttr);
    ("::pyo3::types::PyAnyMethods::call", PCall); ("::pyo3::types::PyAnyMethods::call1", PCall1); ("::pyo3::types::PyAnyMethods::call0", PCall0);
    ("::pyo3::types::PyAnyMethods::call_method", PCallMethod); ("::pyo3::types::PyAnyMethods::call_method1", PCallMethod1);
    ("::pyo3::types::PyAnyMethods::call_method0", PCallMethod0); ("::pyo3::types::PyAnyMethods::extract", PExtract);
    ("Some", PSome); ("Vec::with_capacity", PWithCapacity);
    ("pyo3::types::PyAnyMethods::getattr", PGetAttr); ("pyo3::types::PyModule::from_code_bound", PFromCode); ("pyo3::types::PyAnyMethods::set_item", PPut)]%string.
  Definition spell (p : list tok) : str := flat_map (fun t => match t with TWord s => s | TPunct c _ => [c] | _ => [] end) p.
  Definition prim_of (p : list tok) : option prim := match find (fun e => str_eqb (u (fst e)) (spell p)) prims with Some e => Some (snd e) | None => None end.
  Definition is_intern (p : list tok) : bool := str_eqb (spell p) (u "::pyo3::intern") || str_eqb (spell p) (u "pyo3::intern").

  Definition new_dict (d : list (str * V)) (s : state) : option (ctl * state) := Some (Val (VDictAt (length (dicts s))), mk_state (vars s) (dicts s ++ [d]) (asked s)).
  Definition dict_at (v : val) (s : state) : option (list (str * V)) := match v with VSome (VDictAt i) => nth_error (dicts s) i | _ => None end.
  Definition apply_prim (p : prim) (l : list val) (s : state) : option (ctl * state) :=
    let ok v := Some (Val v, s) in
    match p, l with
    | PIntoDict, [VPairs d; VPy] => new_dict d s
    | PIntoDict, [VGiven (AOne v); VPy] => ok (VObj v)
    | PIntoTuple, [VGiven (ATuple l); VPy] => ok (VItems l)
    | (PIntoTuple | PIntoAny), [VGiven (AOne v); VPy] => ok (VObj v)
    | PNewDict, [VPy] => new_dict [] s
    | PNewTuple, [VPy; VSeq l] => ok (VItems l)
    | PLen, [VItems _] => ok VNum
    | PIter, [VItems l] => ok (VSeq l)
    | PToObject, [v; VPy] => match object_of v with Some o => ok (VObj o) | None => None end
    | PSetItem, [VDictAt i; VStr k; v] =>
        match object_of v, nth_error (dicts s) i with
        | Some o, Some d => Some (Val (VOk VUnit), mk_state (vars s) (change (dicts s) i (set_item d k o)) (asked s))
        | _, _ => None
        end
    | PGetAttr, [VObj o; VStr a] => ask VObj (OGet o a) s
    | PSetAttr, [VObj o; VStr a; v] => match object_of v with Some x => ask (fun _ => VUnit) (OSet o a x) s | None => None end
    | PCall, [VObj f; p; k] => match positional_of p, dict_at k s with Some pos, Some kw => ask VObj (OCall f pos kw) s | _, _ => None end
    | PCall1, [VObj f; p] => match positional_of p with Some pos => ask VObj (OCall f pos []) s | None => None end
    | PCall0, [VObj f] => ask VObj (OCall f [] []) s
    | PCallMethod, [VObj o; VStr m; p; k] => match positional_of p, dict_at k s with Some pos, Some kw => ask VObj (OMethod o m pos kw) s | _, _ => None end
    | PCallMethod1, [VObj o; VStr m; p] => match positional_of p with Some pos => ask VObj (OMethod o m pos []) s | None => None end
    | PCallMethod0, [VObj o; VStr m] => ask VObj (OMethod o m [] []) s
    | PExtract, [VObj v] => ok (VExtract v)
    | PSome, [v] => ok (VSome v)
    | PWithCapacity, [VNum] => ok (VSeq [])
    | PFromCode, [VPy; VStr src; VStr file; VStr name] => ask VObj (OSource src file name) s
    | PPut, [VObj o; VStr k; VObj v] => ask (fun _ => VUnit) (OPut o k v) s
    | _, _ => None
    end.
  Definition apply_method (v : val) (m : str) (l : list val) (s : state) : option (ctl * state) :=
    let named n := str_eqb m (u n) in
    match v, l with
    | VPy, [VStr n] => if named "import_bound"%string then ask VObj (OImport n) s else None
    | VObj _, [] => if named "as_any"%string then Some (Val v, s) else if named "py"%string then Some (Val VPy, s) else None
    | (VObj _ | VItems _), [VPy] => if named "bind"%string then Some (Val v, s) else None
    | _, _ => None
    end.

  (** ** Running *)
  Definition andthen (r : option (ctl * state)) (k : val -> state -> option (ctl * state)) : option (ctl * state) :=
    match r with Some (Val v, s) => k v s | _ => r end.
  Fixpoint eval (e : expr) (s : state) {struct e} : option (ctl * state) :=
    let fix all (l : list expr) (s : state) (k : list val -> state -> option (ctl * state)) {struct l} : option (ctl * state) :=
      match l with [] => k [] s | e :: r => andthen (eval e s) (fun v s' => all r s' (fun vs => k (v :: vs))) end in
    match e with
    | EPath [TWord x] => match lookup_var s x with Some v => Some (Val v, s) | None => None end
    | ELit x => Some (Val (VStr x), s)
    | ENum _ => Some (Val VNum, s)
    | ETuple [] _ => Some (Val VUnit, s)
    | EArray l _ => all l s (fun vs s' => match objects_of vs with Some os => Some (Val (VSeq os), s') | None => None end)
    | EMacro p [a; ELit x] _ => if is_intern p then andthen (eval a s) (fun v s' => match v with VPy => Some (Val (VStr x), s') | _ => None end) else None
    | ECall (EPath p) l _ => match prim_of p with Some f => all l s (apply_prim f) | None => None end
    | EMethod a m l _ =>
        match a, l with
        | EPath [TWord x], [b] =>
            if str_eqb m (u "extend") then                              (* Vec::extend *)
              andthen (eval b s) (fun v s' =>
                match lookup_var s' x, v with
                | Some (VSeq old), VSeq new => match assign (vars s') x (VSeq (old ++ new)) with Some l' => Some (Val VUnit, mk_state l' (dicts s') (asked s')) | None => None end
                | _, _ => None
                end)
            else andthen (eval a s) (fun v s' => all l s' (apply_method v m))
        | _, [EClosure x b] =>
            if str_eqb m (u "map") then                                 (* Iterator::map *)
              andthen (eval a s) (fun v s' =>
                match v with
                | VSeq os =>
                    (fix each (os : list V) (s : state) (done : list V) {struct os} : option (ctl * state) :=
                       match os with
                       | [] => Some (Val (VSeq done), s)
                       | o :: r => andthen (eval b (push false x (VObj o) s)) (fun w s2 =>
                           match object_of w with Some o' => each r (leave s s2) (done ++ [o']) | None => None end)
                       end) os s' []
                | _ => None
                end)
            else None
        | _, _ => andthen (eval a s) (fun v s' => all l s' (apply_method v m))
        end
    | ETry a => andthen (eval a s) (fun v s' => match v with VOk w => Some (Val w, s') | VErr => Some (Raise, s') | _ => None end)
    | ERef a => eval a s
    | EAdd a b => andthen (eval a s) (fun v s' => andthen (eval b s') (fun w s2 => match v, w with VNum, VNum => Some (Val VNum, s2) | _, _ => None end))
    | EBlock b => andthen (eval b s) (fun v s' => Some (Val v, leave s s'))
    | EIfLet c x a b1 b2 =>
        if str_eqb c (u "Some") then
          andthen (eval a s) (fun v s' =>
            let other := andthen (eval b2 s') (fun w s2 => Some (Val w, leave s' s2)) in
            let given w := andthen (eval b1 (push false x w s')) (fun w s2 => Some (Val w, leave s' s2)) in
            match v with
            | VGiven (AOptDict (Some d)) => given (VPairs d)
            | VGiven (AOptDict None) => other
            | VGiven (AOne o) => given (VGiven (AOne o))                (* an object that is there *)
            | _ => None
            end)
        else None
    | ELet mut x a r => andthen (eval a s) (fun v s' => eval r (push mut x v s'))
    | EConst x _ a r => andthen (eval a s) (fun v s' => eval r (push false x v s'))
    | ESeq a r => andthen (eval a s) (fun _ s' => eval r s')
    | EEnd => Some (Val VUnit, s)
    | _ => None
    end.

  (** A call of the function with these arguments, the receiver first *)
  Inductive result := Raised | Extracted (v : V) | Finished.
  Definition run (f : rfn) (args : list val) (before : list op) : option (result * list op) :=
    if (length (r_params f) =? length args)%nat then
      match eval (r_body f) (mk_state (combine (map fst (r_params f)) (map (pair false) args)) [] before) with
      | Some (Raise, s) | Some (Val VErr, s) => Some (Raised, asked s)
      | Some (Val (VExtract v), s) => Some (Extracted v, asked s)
      | Some (Val (VOk VUnit), s) => Some (Finished, asked s)
      | _ => None
      end
    else None.

  (** ** What a function is meant to do
      It fetches an object, asks for one thing, and extracts the answer; the first exception ends it. *)
  Definition perform (o : op) (log : list op) : option V * list op := (answer log o, log ++ [o]).
  Fixpoint walk (l : list str) (v : V) (log : list op) : option V * list op :=
    match l with
    | [] => (Some v, log)
    | a :: r => match perform (OGet v a) log with (Some v', log') => walk r v' log' | x => x end
    end.
  Definition fetch (self : option V) (d : disp) (log : list op) : option V * list op :=
    match d with
    | DSelf => (self, log)
    | DImport l => match perform (OImport (lk_import l)) log with (Some m, log') => walk (lk_attrs l) m log' | x => x end
    end.
  Definition inquire (self : option V) (d : disp) (o : V -> op) (f : V -> result) (log : list op) : result * list op :=
    match fetch self d log with
    | (Some v, log') => match perform (o v) log' with (Some w, log2) => (f w, log2) | (None, log2) => (Raised, log2) end
    | (None, log') => (Raised, log')
    end.
  (** The function that a module with embedded source gets: [sys.modules[name] = <the source as a module>] *)
  Definition loads_source (name file src : str) (log : list op) : result * list op :=
    match perform (OImport (u "sys")) log with
    | (Some sys, log1) =>
        match perform (OGet sys (u "modules")) log1 with
        | (Some modules, log2) =>
            match perform (OSource src file name) log2 with
            | (Some m, log3) => match perform (OPut modules name m) log3 with (Some _, log4) => (Finished, log4) | (None, log4) => (Raised, log4) end
            | (None, log3) => (Raised, log3)
            end
        | (None, log2) => (Raised, log2)
        end
    | (None, log1) => (Raised, log1)
    end.
  (** [l]: what the caller passes besides the receiver *)
  Definition does (d : fn_def) (self : option V) (l : list (rarg V)) (log : list op) : option (result * list op) :=
    match f_body d, python_call d l, l with
    | BCall _, Some (pos, kw), _ => Some (inquire self (f_disp d) (fun o => OCall o pos kw) Extracted log)
    | BCallMethod m _, Some (pos, kw), _ => Some (inquire self (f_disp d) (fun o => OMethod o m pos kw) Extracted log)
    | BGet a, _, [] => Some (inquire self (f_disp d) (fun o => OGet o a) Extracted log)
    | BSet a _, _, [AOne v] => Some (inquire self (f_disp d) (fun o => OSet o a v) (fun _ => Finished) log)
    | _, _, _ => None
    end.
End run.
Arguments op V : clear implicits.
Arguments val V : clear implicits.
Arguments state V : clear implicits.
Arguments ctl V : clear implicits.
Arguments result V : clear implicits.
