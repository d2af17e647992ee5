(** * A small Python world for the examples *)
From Verif Require Import Base Model_Ident Model_Path Model_Config Model_Type Model_IntoRs Model_World Model_Out Model_Function Model_Property
  Model_Class Model_Module Model_Parse Model_Codegen.

(** Objects are numbered by their place in a list. *)
Record ob := mk_ob { ob_attrs : list (str * oid); ob_str : str; ob_type : type_facts; ob_sig : option signature;
                     ob_stored : list (str * storage); ob_name : str; ob_all : option (list str); ob_iter : list str }.
Definition find_str {A} (l : list (str * A)) (s : str) : option A := option_map snd (find (fun e => str_eqb (fst e) s) l).
Definition facts (name : String.string) (m c b f me : bool) (sub : builtin -> bool) (text : String.string) : type_facts :=
  mk_type_facts (u name) (Some (u "builtins")) m c b f me sub (u text).
Definition no_sub (b : builtin) : bool := false.
Definition none_ob : ob := mk_ob [] (u "None") (facts "NoneType" false false false false false no_sub "<class 'NoneType'>") None [] [] None [].
Definition ob_at (l : list ob) (o : oid) : ob := nth (N.to_nat o) l none_ob.
Definition world_of (imports : list (str * oid)) (l : list ob) : world :=
  mk_world (find_str imports) (fun o s => find_str (ob_attrs (ob_at l o)) s) (fun o => ob_str (ob_at l o)) (fun o => N.eqb o 0)
    (fun o => map fst (ob_attrs (ob_at l o))) (fun o => ob_type (ob_at l o)) (fun o => ob_sig (ob_at l o))
    (fun o s => find_str (ob_stored (ob_at l o)) s) (fun o => ob_name (ob_at l o)) (fun o => ob_all (ob_at l o)) (fun o => ob_iter (ob_at l o)).

Definition at_ (s : String.string) (o : oid) : str * oid := (u s, o).
Definition str_ob (s : String.string) : ob := mk_ob [] (u s) (facts "str" false false false false false no_sub "<class 'str'>") None [] [] None [].
Definition int_ob : ob :=
  mk_ob [at_ "__doc__" 0%N] (u "3") (facts "int" false false false false false (fun b => match b with BLong => true | _ => false end) "<class 'int'>") None [] [] None [].
Definition module_ob (name : String.string) (attrs : list (str * oid)) (all : option (list str)) (iter : list str) : ob :=
  mk_ob (at_ "__doc__" 0%N :: attrs) (u "<module>") (facts "module" true false false false false no_sub "<class 'module'>") None [] (u name) all iter.
Definition class_ob (m : oid) (attrs : list (str * oid)) (stored : list (str * storage)) : ob :=
  mk_ob (at_ "__doc__" 0%N :: at_ "__module__" m :: attrs) (u "<class>") (facts "type" false true false false false no_sub "<class 'type'>") None stored [] None [].
Definition fn_ob (m : oid) (sg : signature) : ob :=
  mk_ob [at_ "__doc__" 0%N; at_ "__module__" m] (u "<function>") (facts "function" false false false true false no_sub "<class 'function'>") (Some sg) [] [] None [].
Definition prop_ob (attrs : list (str * oid)) : ob :=
  mk_ob (at_ "__doc__" 0%N :: attrs) (u "<property>") (facts "property" false false false false false no_sub "<class 'property'>") None [] [] None [].
Definition par (n : String.string) (a : option String.string) : sig_param := mk_sig_param (u n) 1 (option_map (fun s => AText (u s)) a) false.
Definition sig (l : list sig_param) (r : option String.string) : signature := mk_signature l (option_map (fun s => AText (u s)) r).

(** Package [pkg] with module [pkg.sub]: a function, a variable, a class with a method and a property *)
Definition pkg_objects (extra : list (str * oid)) : list ob :=
  [none_ob;                                                                                                                  (* 0 *)
   str_ob "pkg"; str_ob "pkg.sub";                                                                                            (* 1, 2 *)
   module_ob "pkg" ([at_ "__path__" 1%N; at_ "f" 5%N; at_ "LIMIT" 7%N; at_ "C" 6%N; at_ "g" 11%N] ++ extra) (Some [u "f"; u "C"; u "g"]) [u "sub"];   (* 3 *)
   module_ob "pkg.sub" [at_ "g" 11%N] None [];                                                                                (* 4 *)
   fn_ob 1 (sig [par "x" (Some "int"%string); par "y" None] (Some "pkg.C"%string));                                           (* 5 *)
   class_ob 1 [at_ "__init__" 8%N; at_ "size" 9%N; at_ "scale" 12%N] [(u "scale", StoredOther)];                              (* 6 *)
   int_ob;                                                                                                                    (* 7 *)
   fn_ob 1 (sig [par "self" None; par "n" (Some "int"%string)] None);                                                         (* 8 *)
   prop_ob [at_ "fget" 10%N; at_ "fset" 13%N];                                                                                (* 9 *)
   fn_ob 1 (sig [par "self" None] (Some "int"%string));                                                                       (* 10 *)
   fn_ob 2 (sig [par "x" (Some "str"%string)] None);                                                                          (* 11 *)
   fn_ob 1 (sig [par "self" None; par "k" (Some "float"%string)] None);                                                       (* 12 *)
   fn_ob 1 (sig [par "self" None; par "value" (Some "str"%string)] None)].                                                    (* 13 *)
Definition pkg_world (extra : list (str * oid)) : world := world_of [at_ "pkg" 3%N; at_ "pkg.sub" 4%N] (pkg_objects extra).
Definition id_order : hash_order := mk_order (fun _ l => l).
Definition pkg_env (cfg : config) (extra : list (str * oid)) : penv := mk_penv (mk_env (pkg_world extra) true uni_ascii) cfg id_order.
Definition pkg_parsed (extra : list (str * oid)) : outcome module := mod_parse (pkg_env default_config extra) 3 3.
Definition pkg_output (cfg : config) (extra : list (str * oid)) : outcome (list frag) :=
  let! c := cg_module_name (pkg_env cfg extra) 3 (u "pkg") cg_new in cg_generate (pkg_env cfg extra) false 3 c.

(** ** Worlds with one odd thing each *)
Definition env_of (w : world) : penv := mk_penv (mk_env w false uni_ascii) default_config id_order.
Definition type_var_ob : ob :=
  mk_ob [at_ "__doc__" 0%N] (u "~T") (mk_type_facts (u "TypeVar") (Some (u "typing")) false false false false false no_sub (u "<class 'typing.TypeVar'>")) None [] [] None [].
(** A module whose name is the empty text *)
Definition w_nameless : world := world_of [] [none_ob; str_ob ""; module_ob "" [at_ "f" 3%N] None []; fn_ob 1 (sig [] None)].
(** One package [pkg] with some attributes, and with some submodules; the objects are numbered from 3 on. *)
Definition w_pkg (attrs : list (str * oid)) (iter : list str) (imports : list (str * oid)) (more : list ob) : world :=
  world_of (at_ "pkg" 2%N :: imports)
    (none_ob :: str_ob "pkg" :: module_ob "pkg" (at_ "__name__" 1%N :: at_ "__path__" 1%N :: attrs) None iter :: more).
Definition w_odd_submodule : world := w_pkg [] [u "a-b"] [at_ "pkg.a-b" 3%N] [module_ob "pkg.a-b" [] None []].
Definition w_odd_variable : world := w_pkg [at_ "x-y" 3%N] [] [] [int_ob].
Definition w_odd_type_var : world := w_pkg [at_ "Self" 3%N] [] [] [type_var_ob].
(** The annotation of [f] mentions the class [A-B]. *)
Definition w_odd_class : world := w_pkg [at_ "A-B" 3%N; at_ "f" 4%N] [] [] [class_ob 1 [] []; fn_ob 1 (sig [] (Some "pkg.A-B"%string))].
(** Module [m] imports [pkg] as [p]; [pkg] has a class [super]. *)
Definition w_class_super : world := w_pkg [at_ "super" 3%N] [] [at_ "m" 4%N] [class_ob 1 [] []; module_ob "m" [at_ "p" 2%N] None []].
(** Functions and methods with odd names *)
Definition w_odd_functions : world :=
  w_pkg [at_ "x-y" 3%N; at_ "C" 4%N; at_ "LIMIT" 6%N] [] []
    [fn_ob 1 (sig [par "a" None] None); class_ob 1 [at_ "x-y" 5%N] [(u "x-y", StoredOther)]; fn_ob 1 (sig [par "self" None] None); int_ob].

(** ** Worlds for requests *)
(** [pkg] takes [g] from [dep], [h] from [dep.sub] and [k] from a module that cannot be imported (if [ghost]). *)
Definition w_deps (ghost : bool) : world :=
  w_pkg ([at_ "g" 5%N; at_ "h" 8%N] ++ (if ghost then [at_ "k" 10%N] else [])) [] [at_ "dep" 4%N; at_ "dep.sub" 7%N]
    [str_ob "dep"; module_ob "dep" [at_ "__name__" 3%N; at_ "__path__" 3%N; at_ "g" 5%N; at_ "sub" 7%N] None [u "sub"]; fn_ob 3 (sig [] None);
     str_ob "dep.sub"; module_ob "dep.sub" [at_ "__name__" 6%N; at_ "h" 8%N] None []; fn_ob 6 (sig [] None); str_ob "ghost"; fn_ob 9 (sig [] None)].
(** A module that is imported under a name that is not its own, like [os.path] *)
Definition w_alias : world := w_pkg [at_ "path" 3%N] [] [at_ "pkg.path" 3%N] [module_ob "posixpath" [] None []].
(** Modules made from source text: [lone.mod] (its parent does not exist), [match], [pkg.gen] and [plain] *)
Definition w_sources : world :=
  w_pkg [] [] [] [module_ob "lone.mod" [] None []; module_ob "match" [] None []; module_ob "pkg.gen" [] None []; module_ob "plain" [] None []].
