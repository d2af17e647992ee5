(** * Reading the declarations of a Rust file (C71)

    The Rust reference, chapters "Types", "Attributes", "Use declarations", "Structs", "Type aliases", "Traits" and
    "Implementations", as far as generated code needs it.  The items are read by [Spec_Code.read_file]; here their parts
    are read further, and a file with anything else is rejected.  Left out: bounds, arrays, function pointers, and
    arguments in the middle of a path. *)
From Verif Require Import Base Spec_Lex Spec_Code Spec_Path Spec_Rust Model_Ident Model_Path Model_Import Model_Type Model_IntoRs Model_Out.

(** ** Types *)
Inductive gty :=
| YLife (s : str)                                            (* as an argument: 'py *)
| YPath (global : bool) (p : list str) (args : list gty)     (* global: with a leading :: *)
| YRef (t : gty)
| YSlice (t : gty)
| YTuple (l : list gty)
| YImpl (t : gty).
Fixpoint p_ty (n : nat) (l : list tok) {struct n} : option (gty * list tok) :=
  match n with
  | O => None
  | S n =>
      match l with
      | TWord x :: r =>
          if str_eqb x (u "impl") then match p_ty n r with Some (t, r') => Some (YImpl t, r') | None => None end
          else p_segs n false [x] r
      | TOpen Paren :: r =>
          match p_tys n (closing Paren) r with
          | Some ([t], false, r') => Some (t, r')                            (* parentheses *)
          | Some (ts, _, r') => Some (YTuple ts, r')
          | None => None
          end
      | TOpen Bracket :: r =>
          match p_ty n r with Some (t, TClose Bracket :: r') => Some (YSlice t, r') | _ => None end
      | t :: r =>
          if punct "&" t then match p_ty n r with Some (t, r') => Some (YRef t, r') | None => None end
          else if punct "'" t then match r with TWord x :: r' => Some (YLife x, r') | _ => None end
          else if punct ":" t then
            match r with t1 :: TWord x :: r' => if punct ":" t1 then p_segs n true [x] r' else None | _ => None end
          else None
      | [] => None
      end
  end
(* after the segments [p] *)
with p_segs (n : nat) (global : bool) (p : list str) (l : list tok) {struct n} : option (gty * list tok) :=
  match n with
  | O => None
  | S n =>
      match l with
      | t :: r =>
          if punct ":" t then
            match r with t1 :: TWord x :: r' => if punct ":" t1 then p_segs n global (p ++ [x]) r' else None | _ => None end
          else if punct "<" t then
            match p_tys n (punct ">") r with Some (ts, _, r') => Some (YPath global p ts, r') | None => None end
          else Some (YPath global p [], l)
      | [] => Some (YPath global p [], l)
      end
  end
(* up to and including the token that ends the list, and whether there is a comma in front of it *)
with p_tys (n : nat) (stop : tok -> bool) (l : list tok) {struct n} : option (list gty * bool * list tok) :=
  match n with
  | O => None
  | S n =>
      match l with
      | [] => None
      | t :: r =>
          if stop t then Some ([], false, r)
          else match p_ty n l with
               | Some (e, t1 :: r1) =>
                   if stop t1 then Some ([e], false, r1)
                   else if punct "," t1 then
                     match r1 with
                     | t2 :: r2 => if stop t2 then Some ([e], true, r2)
                                   else match p_tys n stop r1 with Some (es, c, r3) => Some (e :: es, c, r3) | None => None end
                     | [] => None
                     end
                   else None
               | _ => None
               end
      end
  end.
Definition read_ty (l : list tok) : option gty := match p_ty (2 * length l) l with Some (t, []) => Some t | _ => None end.

(** ** Parts of items *)
(** Tokens without literals, as text *)
Definition tok_text (t : tok) : option str :=
  match t with
  | TWord s | TNum s => Some s
  | TPunct c _ => Some [c]
  | TOpen Paren => Some (u "(") | TClose Paren => Some (u ")")
  | TOpen Bracket => Some (u "[") | TClose Bracket => Some (u "]")
  | TOpen Brace => Some (u "{") | TClose Brace => Some (u "}")
  | TLit _ => None
  end.
Fixpoint flat (l : list tok) : option str :=
  match l with [] => Some [] | t :: r => match tok_text t, flat r with Some s, Some s' => Some (s ++ s') | _, _ => None end end.

Inductive attribute := ADoc (s : str) | AAlias (s : str) | AText (s : str).
Definition read_attr (a : list tok) : option attribute :=
  match a with
  | [TOpen Bracket; d; e; TLit s] => if keyword "doc" d && punct "=" e then Some (ADoc s) else None
  | [TOpen Bracket; d; TOpen Paren; i; e; TLit s; TClose Paren] =>
      if keyword "doc" d && keyword "alias" i && punct "=" e then Some (AAlias s) else None
  | TOpen Bracket :: r => match flat r with Some s => Some (AText s) | None => None end
  | _ => None
  end.
Section every.
  Context {A B : Type} (f : A -> option B).
  Fixpoint every (l : list A) : option (list B) :=
    match l with [] => Some [] | a :: r => match f a, every r with Some b, Some bs => Some (b :: bs) | _, _ => None end end.
End every.
(** Whether an item is public, and its attributes *)
Record front := mk_front { fr_public : bool; fr_attrs : list attribute }.
Definition read_lead (p : lead) : option front := match every read_attr (l_attrs p) with Some l => Some (mk_front (l_public p) l) | None => None end.

(** The receiver [&'py self] is a parameter [self] of type [&'py]. *)
Record head := mk_head { hd_name : str; hd_params : list (str * gty); hd_ret : gty }.
Definition read_head (f : rfn) : option head :=
  match every (fun p => match read_ty (snd p) with Some t => Some (fst p, t) | None => None end) (r_params f), read_ty (r_ret f) with
  | Some ps, Some t => Some (mk_head (r_name f) ps t)
  | _, _ => None
  end.
(** [impl T] and [impl Trait for T] *)
Definition read_target (l : list tok) : option (option gty * gty) :=
  match p_ty (2 * length l) l with
  | Some (t, []) => Some (None, t)
  | Some (t, f :: r) => if keyword "for" f then match read_ty r with Some t' => Some (Some t, t') | None => None end else None
  | None => None
  end.

(** Arguments of macros: a name, [::std::option::Option::Some] of a literal, or anything else as text *)
Inductive marg := MName (n : str) | MSome (s : str) | MText (s : str).
Inductive other :=
| OUse (p : list str) (alias : option str)
| OUses (p : list str) (names : list str)                    (* use p::{names}; *)
| OAlias (n : str) (t : gty)
| OStruct (n : str) (l : list gty)                           (* with fields without names *)
| OMacro (p : str) (args : list marg).
Fixpoint p_names (l : list tok) : option (list str) :=
  match l with
  | [TClose Brace] => Some []
  | [TWord x; TClose Brace] => Some [x]
  | TWord x :: t :: r => if punct "," t then match p_names r with Some ns => Some (x :: ns) | None => None end else None
  | _ => None
  end.
Fixpoint p_use (p : list str) (l : list tok) : option other :=
  match l with
  | TWord x :: r =>
      match r with
      | [] => Some (OUse (p ++ [x]) None)
      | [t; TWord y] => if keyword "as" t then Some (OUse (p ++ [x]) (Some y)) else None
      | t1 :: t2 :: r' => if punct ":" t1 && punct ":" t2 then p_use (p ++ [x]) r' else None
      | _ => None
      end
  | TOpen Brace :: r => match p_names r with Some ns => Some (OUses p ns) | None => None end
  | _ => None
  end.
(* at the commas outside all parentheses, up to the parenthesis that closes the list *)
Fixpoint split_args (depth : nat) (a : list tok) (l : list tok) : option (list (list tok)) :=
  match l with
  | [] => None
  | t :: r =>
      match t, depth with
      | TClose Paren, O => match r with [] => Some [a] | _ => None end
      | TClose Paren, S d => split_args d (a ++ [t]) r
      | TOpen Paren, _ => split_args (S depth) (a ++ [t]) r
      | _, O => if punct "," t then match split_args O [] r with Some l => Some (a :: l) | None => None end else split_args O (a ++ [t]) r
      | _, _ => split_args depth (a ++ [t]) r
      end
  end.
Definition read_arg (a : list tok) : option marg :=
  match a with
  | [TWord n] => Some (MName n)
  | _ =>
      match rev a with
      | TClose Paren :: TLit s :: TOpen Paren :: r =>
          match flat (rev r) with Some f => if str_eqb f (u "::std::option::Option::Some") then Some (MSome s) else None | None => None end
      | _ => match flat a with Some s => Some (MText s) | None => None end
      end
  end.
Definition read_other (l : list tok) : option other :=
  match l with
  | TWord k :: r =>
      if str_eqb k (u "use") then p_use [] r
      else if str_eqb k (u "type") then
        match r with TWord n :: e :: r' => if punct "=" e then match read_ty r' with Some t => Some (OAlias n t) | None => None end else None | _ => None end
      else if str_eqb k (u "struct") then
        match r with
        | TWord n :: TOpen Paren :: r' => match p_tys (2 * length r') (closing Paren) r' with Some (ts, _, []) => Some (OStruct n ts) | _ => None end
        | _ => None
        end
      else None
  | _ =>
      match upto (punct "!") l with
      | Some (p, TOpen Paren :: r) =>
          match flat p, split_args 0 [] r with
          | Some s, Some l => match every read_arg l with Some args => Some (OMacro s args) | None => None end
          | _, _ => None
          end
      | _ => None
      end
  end.

(** ** Declarations *)
Inductive decl :=
| CFn (p : front) (h : head)
| CMod (p : front) (n : str) (l : list decl)
| CImpl (p : front) (trait : option gty) (t : gty) (l : list decl)
| CTrait (p : front) (n : str) (l : list (front * head))
| COther (p : front) (o : other).
Definition read_decl (d : lead * rfn) : option (front * head) :=
  match read_lead (fst d), read_head (snd d) with Some p, Some h => Some (p, h) | _, _ => None end.
Fixpoint read_item (i : item) : option decl :=
  match i with
  | IFn p f => match read_lead p, read_head f with Some p, Some h => Some (CFn p h) | _, _ => None end
  | IMod p n l => match read_lead p, every read_item l with Some p, Some ds => Some (CMod p n ds) | _, _ => None end
  | IImpl p h l => match read_lead p, read_target h, every read_item l with Some p, Some (tr, t), Some ds => Some (CImpl p tr t ds) | _, _, _ => None end
  | ITrait p n l => match read_lead p, every read_decl l with Some p, Some ds => Some (CTrait p n ds) | _, _ => None end
  | IOther p l => match read_lead p, read_other l with Some p, Some o => Some (COther p o) | _, _ => None end
  end.
Definition read_decls (U : uni) (s : str) : option (list decl) :=
  match read_file U s with Some l => every read_item l | None => None end.

(** ** What the fragments declare *)
Definition pyo3 (p : list string) (args : list gty) : gty := YPath true (u "pyo3" :: map u p) args.
Fixpoint as_rust (t : rty) : gty :=
  match t with
  | RName s => YPath false [s] []
  | RVec t => YPath false [u "Vec"] [as_rust t]
  | RSlice t => YSlice (as_rust t)
  | RRef t => YRef (as_rust t)
  | RTup [t] => as_rust t
  | RTup l => YTuple (map as_rust l)
  | RAbs p l => YPath true p (map as_rust l)
  | RBound t => pyo3 ["Bound"%string] [YLife (u "py"); as_rust t]
  | RLocal p => YPath (leading_colon p) (segs p) []
  | RImpl p l => YImpl (YPath true p (map as_rust l))
  end.
Definition py_result (t : gty) : gty := pyo3 ["PyResult"%string] [t].
Definition interpreter : str * gty := (u "py", pyo3 ["marker"; "Python"]%string [YLife (u "py")]).
Definition head_of (k : contract) : head :=
  mk_head (k_name k)
    ((if k_self k then (u "self", YRef (YLife (u "py"))) else interpreter) :: map (fun p => (fst p, as_rust (snd p))) (k_params k))
    (py_result match k_ret k with
            | RetType t => as_rust t
            | RetSelf => pyo3 ["Bound"%string] [YLife (u "py"); YPath false [u "Self"] []]
            | RetUnit => YTuple []
            end).
Definition marked (a : attr) : attribute :=
  match a with
  | AttrAllow => AText (u "allow(clippy::all,clippy::nursery,clippy::pedantic,non_camel_case_types,non_snake_case,non_upper_case_globals,unused)")
  | AttrRepr => AText (u "repr(transparent)")
  | AttrDerived => AText (u "automatically_derived")
  | AttrAlias i => AAlias i
  end.
Definition plain : front := mk_front false [].
Definition made_public (p : front) : front := mk_front true (fr_attrs p).
Definition add_attr (a : attribute) (p : front) : front := mk_front (fr_public p) (fr_attrs p ++ [a]).
Fixpoint states_decls (p : front) (l : list frag) : list (front * head) :=
  match l with
  | [] => []
  | GDecl k :: r => (p, head_of k) :: states_decls plain r
  | GDoc s :: r => states_decls (add_attr (ADoc s) p) r
  | GAttr a :: r => states_decls (add_attr (marked a) p) r
  | _ :: r => states_decls p r
  end.
Fixpoint states (p : front) (x : frag) : list decl :=
  let fix all (p : front) (l : list frag) : list decl :=
    match l with
    | [] => []
    | GPub :: r => all (made_public p) r
    | GDoc s :: r => all (add_attr (ADoc s) p) r
    | GAttr a :: r => all (add_attr (marked a) p) r
    | y :: r => states p y ++ all plain r
    end in
  match x with
  | GPub | GDoc _ | GAttr _ | GDecl _ => []
  | GFn d => [CFn p (head_of (f_contract d))]
  | GEmbed _ _ _ => [CFn p (mk_head (u "pyo3_embed_python_source_code") [interpreter] (py_result (YTuple [])))]
  | GUse i => [COther p (OUse (use_path i) (use_alias i))]
  | GUseSuper l => [COther p (OUses [u "super"] l)]
  | GType n => [COther p (OAlias n (pyo3 ["types"; "PyAny"]%string []))]
  | GStruct n => [COther p (OStruct n [pyo3 ["PyAny"%string] []])]
  | GMacros n s =>
      [COther p (OMacro (u "::pyo3::pyobject_native_type_named") [MName n]);
       COther plain (OMacro (u "::pyo3::pyobject_native_type_info")
         [MName n; MText (u "::pyo3::pyobject_native_static_type_object!(::pyo3::ffi::PyBaseObject_Type)"); MSome s])]
  | GImpl n l => [CImpl p None (YPath false [n] []) (all plain l)]
  | GImplFor t n l => [CImpl p (Some (YPath false [t] [])) (pyo3 ["Bound"%string] [YLife (u "_"); YPath false [n] []]) (all plain l)]
  | GTrait n l => [CTrait p n (states_decls plain l)]
  | GMod n l => [CMod p n (all plain l)]
  end.
Fixpoint states_all (p : front) (l : list frag) : list decl :=
  match l with
  | [] => []
  | GPub :: r => states_all (made_public p) r
  | GDoc s :: r => states_all (add_attr (ADoc s) p) r
  | GAttr a :: r => states_all (add_attr (marked a) p) r
  | y :: r => states p y ++ states_all plain r
  end.

(** ** The file as its readers see it *)
Inductive inside_decls : list decl -> list str -> list decl -> Prop :=
| decls_here : forall l, inside_decls l [] l
| decls_there : forall l p n k ns r, In (CMod p n k) l -> inside_decls k ns r -> inside_decls l (n :: ns) r.
(** Documentation, and the attributes that are not *)
Definition is_doc (a : attribute) : bool := match a with ADoc _ => true | _ => false end.
Definition docs (p : front) : list str := flat_map (fun a => match a with ADoc s => [s] | _ => [] end) (fr_attrs p).
Definition extras (p : front) : list attribute := filter (fun a => negb (is_doc a)) (fr_attrs p).
Definition has_struct (k : list decl) (n : str) : Prop := exists p l, In (COther p (OStruct n l)) k.
Definition has_alias (k : list decl) (n : str) : Prop := exists p t, In (COther p (OAlias n t)) k.
(** Everything can be used from outside, and is marked as it should be.  [k] is the scope of [d]. *)
Definition is_member (public : bool) (d : decl) : Prop := exists p h, d = CFn p h /\ fr_public p = public /\ extras p = [].
Definition presented (top : bool) (k : list decl) (d : decl) : Prop :=
  match d with
  | CFn p _ => fr_public p = true /\ extras p = []
  | CMod p _ _ =>
      fr_public p = true /\
      (top = true -> extras p = [AText (u "allow(clippy::all,clippy::nursery,clippy::pedantic,non_camel_case_types,non_snake_case,non_upper_case_globals,unused)")])
  | CImpl p None _ l => fr_public p = false /\ extras p = [AText (u "automatically_derived")] /\ forall e, In e l -> is_member true e
  | CImpl p (Some _) _ l => fr_public p = false /\ extras p = [AText (u "automatically_derived")] /\ forall e, In e l -> is_member false e
  | CTrait p _ l =>
      fr_public p = true /\ (exists n, has_struct k n /\ extras p = [AAlias n; AText (u "automatically_derived")]) /\
      forall q h, In (q, h) l -> fr_public q = false /\ extras q = []
  | COther p o =>
      match o with
      | OMacro _ _ => fr_public p = false /\ fr_attrs p = []
      | OStruct _ _ => fr_public p = true /\ extras p = [AText (u "repr(transparent)")]
      | _ => fr_public p = true /\ fr_attrs p = []
      end
  end.

(** ** The types of signatures *)
Fixpoint ty_paths (t : gty) : list (bool * list str) :=
  match t with
  | YLife _ => []
  | YPath g p l => (g, p) :: flat_map ty_paths l
  | YRef t | YSlice t | YImpl t => ty_paths t
  | YTuple l => flat_map ty_paths l
  end.
Definition head_types (h : head) : list gty := hd_ret h :: map snd (hd_params h).
(** Functions, and the functions of implementations and traits *)
Definition fn_heads (l : list decl) : list head := flat_map (fun d => match d with CFn _ h => [h] | _ => [] end) l.
Definition scope_heads (l : list decl) : list head :=
  flat_map (fun d => match d with CFn _ h => [h] | CImpl _ _ _ b => fn_heads b | CTrait _ _ b => map snd b | _ => [] end) l.

(** ** What paths lead to
    The path [p], written in the module [ns] of the file [l], leads to [i] in the scope [k]. *)
Definition leads_to (l : list decl) (ns p : list str) (k : list decl) (i : str) : Prop :=
  exists q, resolve ns p = Some (q ++ [i]) /\ inside_decls l q k.
Definition has_name (k : list decl) (i : str) : Prop :=
  (exists p h, In (CFn p h) k /\ hd_name h = i) \/ has_struct k i \/ has_alias k i \/ exists p b, In (CMod p i b) k.
(** The items of the libraries that the templates and the types refer to; the paths are those of C21. *)
Definition library_paths : list (list str) :=
  map (map u) [["pyo3"; "marker"; "Python"]; ["pyo3"; "PyResult"]; ["pyo3"; "Bound"]]%string ++ existing_items.
