(** * What private names add to a module (C81) *)
From Verif Require Import Base Model_Ident Model_Path Model_Import Model_Config Model_Type Model_World Model_Function Model_Property Model_Class Model_Module Model_Parse Spec_Tree Spec_Api Spec_Attr Spec_Privacy.

(** The item is there because of an attribute [i] of the module: the name is private, the attribute comes from a private module, or it is imported from a private place. *)
Definition private_item (U : uni) (w : world) (o : oid) (name : path) (it : item) : Prop :=
  exists i a, w_getattr w o (as_py i) = Some a /\ item_path it = Some (path_snoc name i) /\
    (private (as_py i) \/ (exists s, In s (components (from_module U w a)) /\ private s) \/ exists j s, it = AnImport j /\ In s (components (im_origin j)) /\ private s).
(** The same for a member of a class *)
Definition private_member (U : uni) (w : world) (o : oid) (name : path) (p : path) : Prop :=
  exists i a, w_getattr w o (as_py i) = Some a /\ p = path_snoc name i /\ (private (as_py i) \/ exists s, In s (components (from_module U w a)) /\ private s).
