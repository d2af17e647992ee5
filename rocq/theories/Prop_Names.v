(** * Property theorems: names, paths, imports, lookups (C01-C08, C53, C54) *)
From Verif Require Import Base Model_Ident Model_Path Model_Import Spec_Path Spec_Names
  Proof_Base Proof_Ident Proof_Path Proof_Lookup.

(** ** C01 *)
Theorem C01_name_roundtrip : forall U s,
  as_py (ident_from_py U s) = s <-> ~ (starts_with (u "r#") s = true /\ syn_ident_ok U s = true).
Proof. exact as_py_from_py_iff. Qed.
Print Assumptions C01_name_roundtrip.

Theorem C01_python_identifier_roundtrip : forall U s,
  uni_ok U -> py_identifier U s -> as_py (ident_from_py U s) = s.
Proof. exact (fun U s HU Hs => as_py_from_py U s (py_identifier_no_raw U s HU Hs)). Qed.
Print Assumptions C01_python_identifier_roundtrip.

Theorem C01_spelling_injective : forall U a b,
  uni_ok U -> py_identifier U a -> py_identifier U b ->
  ident_from_py U a = ident_from_py U b -> a = b.
Proof.
  exact (fun U a b HU Ha Hb => from_py_inj U a b (py_identifier_no_raw U a HU Ha) (py_identifier_no_raw U b HU Hb)).
Qed.
Print Assumptions C01_spelling_injective.

Example C01_ex : py_identifier uni_ascii (u "struct") /\
  ident_from_py uni_ascii (u "struct") = u "r#struct" /\ as_py (u "r#struct") = u "struct".
Proof.
  repeat split. exists (ch "s"), (u "truct"). repeat split; [now right|].
  intros x Hx. apply in_map_iff in Hx as (a & <- & Ha). cbn in Ha. intuition (subst; reflexivity).
Qed.

(** ** C02 *)
Theorem C02_valid_rust_identifier : forall U s, uni_ok U -> py_identifier U s ->
  (syn_ident_ok U (ident_from_py U s) = true <-> ~ rust_unspellable s).
Proof. exact from_py_valid_iff. Qed.
Print Assumptions C02_valid_rust_identifier.

Theorem C02_plain_spelling : forall U s, uni_ok U -> py_identifier U s -> ~ rust_keyword s ->
  ident_from_py U s = s.
Proof. exact from_py_plain. Qed.
Print Assumptions C02_plain_spelling.

Theorem C02_raw_spelling : forall U s, uni_ok U -> py_identifier U s -> rust_keyword s ->
  ident_from_py U s = u "r#" ++ s.
Proof. exact from_py_keyword. Qed.
Print Assumptions C02_raw_spelling.

Example C02_ex : rust_unspellable (u "self") /\ rust_keyword (u "match") /\
  ident_from_py uni_ascii (u "match") = u "r#match" /\
  syn_ident_ok uni_ascii (ident_from_py uni_ascii (u "match")) = true /\
  syn_ident_ok uni_ascii (ident_from_py uni_ascii (u "self")) = false.
Proof. repeat split; [cbn; tauto | cbn; tauto]. Qed.

(** ** C03 *)
Theorem C03_dotted_path_roundtrip : forall U n l, (forall s, In s l -> component s) ->
  (to_py (path_from_py U (dotted n l)) = dotted n l <->
   ~ In (u "super") l /\ (n = 0 \/ l <> [])).
Proof. exact path_py_roundtrip_iff. Qed.
Print Assumptions C03_dotted_path_roundtrip.

Example C03_ex : component (u "long") /\ component (u "to") /\
  dotted 2 [u "long"; u "to"] = u "..long.to" /\
  to_py (path_from_py uni_ascii (u "..long.to")) = u "..long.to".
Proof. repeat split; try easy; intros [H|H]; revert H; cbn; intuition easy. Qed.

Theorem C03_super_refuted : exists s, to_py (path_from_py uni_ascii s) <> s /\ s = u "a.super".
Proof. exists (u "a.super"). now vm_compute. Qed.
Print Assumptions C03_super_refuted.
Theorem C03_dot_refuted : exists s, to_py (path_from_py uni_ascii s) <> s /\ s = u ".".
Proof. exists (u "."). now vm_compute. Qed.
Print Assumptions C03_dot_refuted.

(** ** C04 *)
Theorem C04_rust_path_roundtrip : forall p,
  (forall s, In s (segs p) -> s <> [] /\ ~ In c_colon s) ->
  (leading_colon p = false \/ segs p <> []) ->
  path_from_rs (to_rs p) = p.
Proof. exact path_rs_roundtrip. Qed.
Print Assumptions C04_rust_path_roundtrip.

Theorem C04_parse_drops_only_empty : forall s, exists pieces,
  s = join (u "::") pieces /\ segs (path_from_rs s) = filter nonempty pieces /\
  (forall p, In p pieces -> contains_str (u "::") p = false).
Proof. exact path_from_rs_pieces. Qed.
Print Assumptions C04_parse_drops_only_empty.

Example C04_ex : to_rs (mk_path true [u "long"; u "path"]) = u "::long::path" /\
  path_from_rs (u "::long::path") = mk_path true [u "long"; u "path"].
Proof. easy. Qed.

(** ** C05 *)
Theorem C05_relative_path_reaches_target : forall self target unamb r,
  absolute self -> absolute target ->
  relative_to self target unamb = Ok r ->
  leading_colon r = false /\ resolve (segs self) (segs r) = Some (segs target).
Proof. exact relative_to_correct. Qed.
Print Assumptions C05_relative_path_reaches_target.

Theorem C05_relative_path_exists : forall self target unamb, segs target <> [] ->
  exists r, relative_to self target unamb = Ok r.
Proof. exact relative_to_total. Qed.
Print Assumptions C05_relative_path_exists.

Theorem C05_unambiguous_form : forall self target r,
  absolute self -> absolute target ->
  relative_to self target true = Ok r ->
  last_opt (segs r) = last_opt (segs target) /\ anchored (segs r).
Proof. exact (fun s t r Hs Ht => relative_to_unamb s t r Hs Ht (or_intror I)). Qed.
Print Assumptions C05_unambiguous_form.

Example C05_ex :
  relative_to (mk_path false [u "a"; u "b"; u "c"]) (mk_path false [u "a"; u "b"]) true
    = Ok (mk_path false [u "super"; u "super"; u "b"]) /\
  relative_to (mk_path false [u "a"; u "b"]) (mk_path false [u "a"; u "x"; u "y"]) true
    = Ok (mk_path false [u "super"; u "x"; u "y"]) /\
  absolute (mk_path false [u "a"; u "b"; u "c"]) /\
  resolve [u "a"; u "b"; u "c"] [u "super"; u "super"; u "b"] = Some [u "a"; u "b"].
Proof. repeat split. intros s Hs. cbn in Hs. intuition (subst; reflexivity). Qed.

(** ** C06 *)
Theorem C06_name_order : forall a b c : ident,
  ident_cmp a a = Eq /\ ident_cmp b a = CompOpp (ident_cmp a b) /\
  (ident_cmp a b = Lt -> ident_cmp b c = Lt -> ident_cmp a c = Lt).
Proof. exact (fun a b c => conj (ident_cmp_refl a) (conj (ident_cmp_antisym a b) (ident_cmp_trans a b c))). Qed.
Print Assumptions C06_name_order.

Theorem C06_path_order : forall a b c : path,
  path_cmp a a = Eq /\ path_cmp b a = CompOpp (path_cmp a b) /\
  (path_cmp a b = Lt -> path_cmp b c = Lt -> path_cmp a c = Lt).
Proof. exact (fun a b c => conj (path_cmp_refl a) (conj (path_cmp_antisym a b) (path_cmp_trans a b c))). Qed.
Print Assumptions C06_path_order.

Theorem C06_order_agrees_with_equality : forall U n l m k,
  (forall s, In s l -> component s) -> ~ In (u "super") l -> (n = 0 \/ l <> []) ->
  (forall s, In s k -> component s) -> ~ In (u "super") k -> (m = 0 \/ k <> []) ->
  (path_cmp (path_from_py U (dotted n l)) (path_from_py U (dotted m k)) = Eq <->
   path_from_py U (dotted n l) = path_from_py U (dotted m k)).
Proof. exact path_cmp_eq_from_py. Qed.
Print Assumptions C06_order_agrees_with_equality.

Theorem C06_name_order_is_text_order : forall U a b, uni_ok U -> py_identifier U a -> py_identifier U b ->
  (ident_cmp (ident_from_py U a) (ident_from_py U b) = Lt <-> text_before a b).
Proof. exact (fun U a b HU Ha Hb => ident_cmp_text U a b (py_identifier_no_raw U a HU Ha) (py_identifier_no_raw U b HU Hb)). Qed.
Print Assumptions C06_name_order_is_text_order.

Theorem C06_path_order_is_text_order : forall U n l m k,
  (forall s, In s l -> component s) -> ~ In (u "super") l -> (n = 0 \/ l <> []) ->
  (forall s, In s k -> component s) -> ~ In (u "super") k -> (m = 0 \/ k <> []) ->
  (path_cmp (path_from_py U (dotted n l)) (path_from_py U (dotted m k)) = Lt <-> text_before (dotted n l) (dotted m k)).
Proof. exact path_cmp_text. Qed.
Print Assumptions C06_path_order_is_text_order.

Theorem C06_order_equality_refuted : exists s t,
  path_cmp (path_from_py uni_ascii s) (path_from_py uni_ascii t) = Eq /\
  path_from_py uni_ascii s <> path_from_py uni_ascii t.
Proof. exists (u "super"), (u "."). now vm_compute. Qed.
Print Assumptions C06_order_equality_refuted.

Example C06_ex : path_cmp (path_from_py uni_ascii (u "a.b")) (path_from_py uni_ascii (u "a.c")) = Lt.
Proof. easy. Qed.

(** ** C07 *)
Theorem C07_import_classification : forall o t,
  (exists k, import_type_from_paths o t = Ok k) /\
  (import_type_from_paths o t = Ok SubmoduleReexport <->
     (length (segs t) >= 2 /\ is_prefix (removelast (segs t)) (segs o))) /\
  (import_type_from_paths o t = Ok PackageReexport <->
     (exists r ts, segs t = r :: ts /\ is_prefix [r] (segs o)) /\
     ~ (length (segs t) >= 2 /\ is_prefix (removelast (segs t)) (segs o))) /\
  (import_type_from_paths o t = Ok ExternalImport <->
     ~ (exists r ts, segs t = r :: ts /\ is_prefix [r] (segs o))).
Proof. exact import_type_correct. Qed.
Print Assumptions C07_import_classification.

Example C07_ex :
  import_type_from_paths (mk_path false [u "p"; u "sub"; u "f"]) (mk_path false [u "p"; u "f"]) = Ok SubmoduleReexport /\
  import_type_from_paths (mk_path false [u "p"; u "a"; u "f"]) (mk_path false [u "p"; u "b"; u "f"]) = Ok PackageReexport /\
  import_type_from_paths (mk_path false [u "os"]) (mk_path false [u "p"; u "os"]) = Ok ExternalImport.
Proof. easy. Qed.

(** ** C08 *)
Theorem C08_reexport_correct : forall U i x,
  absolute (im_origin i) -> absolute (im_target i) ->
  import_generate U i = Ok (Some x) ->
  im_type i = SubmoduleReexport /\ im_origin i <> im_target i /\
  resolve (removelast (segs (im_target i))) (use_path x) = Some (segs (im_origin i)) /\
  anchored (use_path x) /\
  bound_name x = last_opt (segs (im_target i)) /\
  forallb (fun s => syn_ident_ok U s || path_kw s) (use_path x) = true.
Proof. exact import_generate_correct. Qed.
Print Assumptions C08_reexport_correct.

Theorem C08_no_other_item : forall U i,
  im_type i <> SubmoduleReexport \/ im_origin i = im_target i -> import_generate U i = Ok None.
Proof. exact import_generate_none. Qed.
Print Assumptions C08_no_other_item.

Theorem C08_reexport_complete : forall U i,
  im_type i = SubmoduleReexport -> im_origin i <> im_target i ->
  absolute (im_origin i) -> absolute (im_target i) ->
  segs (im_origin i) <> [] -> segs (im_target i) <> [] ->
  (forall s, In s (segs (im_origin i)) -> syn_ident_ok U s = true) ->
  (forall s, In s (segs (im_target i)) -> syn_ident_ok U s = true) ->
  exists x, import_generate U i = Ok (Some x).
Proof. exact import_generate_some. Qed.
Print Assumptions C08_reexport_complete.

Example C08_ex :
  let i := mk_import (mk_path false [u "p"; u "sub"; u "f"]) (mk_path false [u "p"; u "g"]) SubmoduleReexport in
  import_generate uni_ascii i = Ok (Some (mk_use [u "self"; u "sub"; u "f"] (Some (u "g")))) /\
  absolute (im_origin i) /\ absolute (im_target i) /\
  (forall s, In s (segs (im_origin i)) -> syn_ident_ok uni_ascii s = true).
Proof.
  cbn zeta. repeat split; intros s Hs; cbn in Hs; intuition (subst; reflexivity).
Qed.

(** ** C54 *)
Theorem C54_lookup_denotes_path : forall imp p lk,
  (forall s, In s (segs p) -> as_py s <> u "super") ->
  import_quote imp p = Ok lk ->
  join (u ".") (lk_import lk :: lk_attrs lk) = join (u ".") (map as_py (segs p)).
Proof. exact import_quote_denotes. Qed.
Print Assumptions C54_lookup_denotes_path.

Theorem C54_lookup_exists : forall imp p, segs p <> [] -> exists lk, import_quote imp p = Ok lk.
Proof. exact import_quote_total. Qed.
Print Assumptions C54_lookup_exists.

Theorem C54_lookup_longest_proper_prefix : forall imp p lk, import_quote imp p = Ok lk ->
  exists k, 1 <= k <= length (segs p) /\
    lk_import lk = to_py (path_of_segs (firstn k (segs p))) /\
    lk_attrs lk = map as_py (skipn k (segs p)) /\
    (k < length (segs p) \/ length (segs p) = 1) /\
    (forall j, k < j < length (segs p) -> imp (to_py (path_of_segs (firstn j (segs p)))) = false) /\
    (1 < k -> imp (to_py (path_of_segs (firstn k (segs p)))) = true).
Proof. exact import_quote_spec. Qed.
Print Assumptions C54_lookup_longest_proper_prefix.

Example C54_ex : import_quote html_oracle (path_from_py uni_ascii (u "html.parser.HTMLParser"))
  = Ok (mk_lookup (u "html.parser") [u "HTMLParser"]).
Proof. easy. Qed.

(** ** C53 *)
Theorem C53_lookup_fresh_partial : forall V imp p lk,
  (forall i, In i (segs p) -> import_name i) ->
  import_quote imp p = Ok lk ->
  exists k, 1 <= k <= length (segs p) /\ (k < length (segs p) \/ length (segs p) = 1) /\
    split_char c_dot (lk_import lk) = firstn k (map as_py (segs p)) /\
    lk_attrs lk = skipn k (map as_py (segs p)) /\
    (oracle_agrees V imp -> forall j, k < j < length (segs p) ->
       forallb (uv_module V) (prefixes (firstn j (map as_py (segs p)))) = false) /\
    (lookup_succeeds V (split_char c_dot (lk_import lk)) (lk_attrs lk) = true <->
     forallb (uv_module V) (prefixes (firstn k (map as_py (segs p)))) = true /\
     forall j x, k <= j -> nth_error (map as_py (segs p)) j = Some x ->
       uv_attr V (firstn j (map as_py (segs p))) x = true).
Proof. exact lookup_iff. Qed.
Print Assumptions C53_lookup_fresh_partial.

(** Full claim (false): if every prefix of a path is importable, the generated lookup of that
    path succeeds in a fresh interpreter. *)
Theorem C53_submodule_lookup_refuted : exists V imp p lk,
  (forall j, 1 <= j <= length (segs p) -> uv_module V (map as_py (firstn j (segs p))) = true) /\
  import_quote imp p = Ok lk /\
  lookup_succeeds V (split_char c_dot (lk_import lk)) (lk_attrs lk) = false.
Proof.
  exists html_universe, html_oracle, (path_from_py uni_ascii (u "html.parser")), (mk_lookup (u "html") [u "parser"]).
  repeat split. intros j Hj. cbn in Hj. assert (Hc : j = 1 \/ j = 2) by lia. destruct Hc as [-> | ->]; easy.
Qed.
Print Assumptions C53_submodule_lookup_refuted.

Example C53_ex : (* a class of the submodule is found *)
  exists lk, import_quote html_oracle (path_from_py uni_ascii (u "html.parser.HTMLParser")) = Ok lk /\
  lookup_succeeds html_universe (split_char c_dot (lk_import lk)) (lk_attrs lk) = true.
Proof. eexists. split; [reflexivity|]. now vm_compute. Qed.
