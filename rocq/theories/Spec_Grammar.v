(** * Rust's grammar (C69)

    The Rust reference, chapters "Items", "Attributes", "Statements and expressions", "Patterns", "Types" and "Paths", as
    far as generated code needs it.  A rule is written the way the reference writes it and read by the lexer of Rust
    itself: the words listed in [grammar] are nonterminals, capitals are classes of tokens, the rest stands for itself.
    Stricter than the reference where it leaves a restriction to later phases of the compiler: no [pub] in front of
    [impl] and macro calls or inside a trait, no [self] parameter outside traits and implementations, arguments of
    attributes, and the spacing of operators (a [<] directly in front of a quote is not taken apart).  Left out: everything that generated code does not use. *)
From Verif Require Import Base Spec_Lex Model_Token Spec_Path Spec_Items.

Definition grammar : list (string * list string) := [
  ("File", ["Items"]);
  ("Items", [""; "Item Items"]);
  ("Item", ["Attributes Bare"; "Attributes Visible"; "Attributes pub Visible"]);
  ("Bare", ["impl IDENT { Associated }"; "impl TypePath for Type { Implemented }"; "TypePath ! ( Trees ) ;"]);
  ("Visible", ["Function"; "use UseTree ;"; "type IDENT = Type ;"; "struct IDENT ( Type ) ;"; "trait IDENT { Required }"; "mod IDENT { Items }"]);
  (* attributes *)
  ("Attributes", [""; "# [ Meta ] Attributes"]);
  ("Meta", ["SimplePath Argument"]);
  ("Argument", [""; "= LITERAL"; "( Metas )"]);
  ("Metas", ["Meta MoreMetas"]);
  ("MoreMetas", [""; ", Metas"]);
  ("SimplePath", ["SEGMENT MoreSimple"]);
  ("MoreSimple", [""; ":: SimplePath"]);
  (* [use] *)
  ("UseTree", ["USEABLE UseRest"; "{ UseTrees }"]);
  ("UseRest", [""; "as IDENT"; ":: UseTree"]);
  ("UseTrees", [""; "UseTree MoreTrees"]);
  ("MoreTrees", [""; ", UseTrees"]);
  (* functions *)
  ("Function", ["fn IDENT < Lifetime > ( Params ) -> Type Block"]);
  ("Method", ["fn IDENT < Lifetime > ( MethodParams ) -> Type"]);
  ("Associated", [""; "Attributes Method Block Associated"; "Attributes pub Method Block Associated"]);
  ("Implemented", [""; "Attributes Method Block Implemented"]);
  ("Required", [""; "Attributes Method ; Required"]);
  ("MethodParams", ["& Lifetime self MoreParams"; "Params"]);
  ("Params", [""; "IDENT : Type MoreParams"]);
  ("MoreParams", [""; ", Params"]);
  ("Lifetime", ["'IDENT"; "'_"]);
  (* types *)
  ("Type", ["TypePath"; "& Type"; "[ Type ]"; "( Types )"; "impl TypePath"]);
  ("Types", [""; "Type MoreTypes"]);
  ("MoreTypes", [""; ", Types"]);
  ("TypePath", [":: TypeSegments"; "TypeSegments"]);
  ("TypeSegments", ["SEGMENT TypeArguments MoreSegments"]);
  ("MoreSegments", [""; ":: TypeSegments"]);
  ("TypeArguments", [""; "< Generics >"]);
  ("Generics", ["Generic MoreGenerics"]);
  ("MoreGenerics", [""; ", OtherGenerics"]);
  ("OtherGenerics", [""; "Generics"]);
  ("Generic", ["Lifetime"; "Type"]);
  (* statements *)
  ("Block", ["{ Statements }"]);
  ("Statements", [""; "let Pattern = Expr ; Statements"; "const IDENT : Type = Expr ; Statements"; "Simple StatementRest"]);
  ("StatementRest", [""; "; Statements"]);
  ("Pattern", ["IDENT"; "mut IDENT"; "SEGMENT ( Pattern )"]);
  (* expressions; a statement does not start with a block *)
  ("Expr", ["Operand Sum"; "| IDENT | Expr"]);
  ("Sum", [""; "+ Operand Sum"]);
  ("Operand", ["& Operand"; "Primary Suffixes"]);
  ("Simple", ["Leaf Suffixes"]);
  ("Primary", ["Leaf"; "Block"; "if let Pattern = Operand Block else Block"]);
  ("Leaf", ["LITERAL"; "NUMBER"; "ExprPath Call"; "( Exprs )"; "[ Exprs ]"]);
  ("Call", [""; "! ( Trees )"]);
  ("Suffixes", [""; "? Suffixes"; ". IDENT ( Exprs ) Suffixes"; "( Exprs ) Suffixes"]);
  ("Exprs", [""; "Expr MoreExprs"]);
  ("MoreExprs", [""; ", Exprs"]);
  ("ExprPath", [":: ExprSegments"; "ExprSegments"]);
  ("ExprSegments", ["SEGMENT MoreExpr"]);
  ("MoreExpr", [""; ":: AfterColons"]);
  ("AfterColons", ["ExprSegments"; "< Generics > MoreExpr"]);
  (* the input of a macro *)
  ("Trees", [""; "Tree Trees"]);
  ("Tree", ["ANY"; "( Trees )"; "[ Trees ]"; "{ Trees }"])
]%string.

(** The alternatives of a nonterminal; none if it is not one *)
Definition rules : list (str * list (list tok)) := map (fun e => (u (fst e), map rs (snd e))) grammar.
Definition alternatives (n : str) : list (list tok) := flat_map (fun e => if str_eqb (fst e) n then snd e else []) rules.

(** ** Classes of tokens *)
Definition class_names : list str := map u ["IDENT"; "SEGMENT"; "USEABLE"; "LITERAL"; "NUMBER"; "ANY"]%string.
Definition in_class (U : uni) (k : str) (t : tok) : Prop :=
  match t with
  | TWord w => (k = u "IDENT" /\ rust_ident U w) \/ (k = u "SEGMENT" /\ path_segment U w) \/
               (k = u "USEABLE" /\ path_segment U w /\ w <> u "Self") \/ k = u "ANY"
  | TPunct _ _ => k = u "ANY"
  | TNum _ => k = u "NUMBER" \/ k = u "ANY"
  | TLit _ => k = u "LITERAL" \/ k = u "ANY"
  | TOpen _ | TClose _ => False
  end.
(** Characters of an operator follow each other at once; a [>] closes a list of arguments also if another one follows. *)
Definition matches (U : uni) (s t : tok) : Prop :=
  match s with
  | TWord k => in_class U k t \/ (t = s /\ ~ In k class_names /\ alternatives k = [])
  | TPunct c j => t = s \/ (c = ch ">" /\ j = false /\ t = TPunct c true)
  | _ => t = s
  end.

Inductive parses (U : uni) : list tok -> list tok -> Prop :=
| parses_nil : parses U [] []
| parses_token : forall s t rhs l, matches U s t -> parses U rhs l -> parses U (s :: rhs) (t :: l)
| parses_rule : forall n rule rhs l l', In rule (alternatives n) -> parses U rule l -> parses U rhs l' -> parses U (TWord n :: rhs) (l ++ l').
Definition is_a (U : uni) (n : string) (l : list tok) : Prop := parses U [TWord (u n)] l.

(** A text that a Rust compiler can read *)
Definition rust_file (U : uni) (s : str) : Prop := exists l, lex U s = Some l /\ is_a U "File" l.
