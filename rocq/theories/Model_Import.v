(** * Model of syntax/import.rs *)
From Verif Require Import Base Model_Ident Model_Path.

(** import.rs:69-74 *)
Inductive import_type := ExternalImport | PackageReexport | SubmoduleReexport.
Definition import_type_eqb (a b : import_type) : bool :=
  match a, b with
  | ExternalImport, ExternalImport | PackageReexport, PackageReexport
  | SubmoduleReexport, SubmoduleReexport => true
  | _, _ => false
  end.

(** import.rs:4-9 *)
Record import := mk_import { im_origin : path; im_target : path; im_type : import_type }.

(** Slice method [origin.starts_with(&path)] through [Deref<Target = [Ident]>]; the
    [leading_colon] flags do not take part. *)
Definition path_starts_with (p prefix : path) : bool :=
  slice_starts_with ident_eqb (segs prefix) (segs p).

(** import.rs:76-92 [ImportType::from_paths] *)
Definition import_type_from_paths (origin target : path) : outcome import_type :=
  let is_package := match path_root target with
                    | Some r => path_starts_with origin r | None => false end in
  let is_submodule := is_package && match path_parent target with
                                    | Some q => path_starts_with origin q | None => false end in
  match is_package, is_submodule with
  | false, false => Ok ExternalImport
  | true, false => Ok PackageReexport
  | true, true => Ok SubmoduleReexport
  | _, _ => Panic PUnreachable
  end.

(** import.rs:12-19 [Import::new] *)
Definition import_new (origin target : path) : outcome import :=
  let! t := import_type_from_paths origin target in Ok (mk_import origin target t).

(** import.rs:21-23 [is_external] *)
Definition import_is_external (i : import) : bool := import_type_eqb (im_type i) ExternalImport.

(** The item [pub use path (as alias)?;] of import.rs:60-62. *)
Record use_item := mk_use { use_path : list ident; use_alias : option ident }.

(** import.rs:25-66 [Import::generate]; [None] is the empty token stream.  The [visibility]
    match (import.rs:37-42) is constant because of the early return on lines 27-29. *)
Definition import_generate (U : uni) (i : import) : outcome (option use_item) :=
  if negb (import_type_eqb (im_type i) SubmoduleReexport) then Ok None
  else if path_eqb (im_origin i) (im_target i) then Ok None
  else
    let! rel := relative_to (path_parent_or_default (im_target i)) (im_origin i) true in
    match path_to_syn U rel with
    | Ok rp =>
        let! on := path_name (im_origin i) in
        let! tn := path_name (im_target i) in
        if ident_eqb on tn then Ok (Some (mk_use (segs rp) None))
        else let! alias := ident_to_syn U tn in Ok (Some (mk_use (segs rp) (Some alias)))
    | _ => Ok None
    end.
