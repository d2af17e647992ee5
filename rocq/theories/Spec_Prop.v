(** * Python properties, as seen from outside (properties C33, C34) *)
From Verif Require Import Base Model_Ident Model_Path Model_Type Model_World Model_Out Model_Function.

(** [setter_of e o]: the function that sets the property [o] *)
Definition setter_of (w : world) (o s : oid) : Prop := w_getattr w o (u "fset") = Some s /\ w_is_none w s = false.
Definition no_setter (w : world) (o : oid) : Prop := forall s, ~ setter_of w o s.
Definition getter_of (w : world) (o g : oid) : Prop := w_getattr w o (u "fget") = Some g.

(** The annotation of the value a setter takes: its second parameter *)
Definition value_annotation (w : world) (s : oid) (a : option pyann) : Prop :=
  exists sg self par rest, w_signature w s = Some sg /\ sig_params sg = self :: par :: rest /\ sp_ann par = a.
(** The annotation of what a getter returns *)
Definition result_annotation (w : world) (g : oid) (a : option pyann) : Prop :=
  exists sg, w_signature w g = Some sg /\ sig_return sg = a.

(** What Python says about the documentation: a non-empty text other than [None] *)
Definition documented (w : world) (o : oid) (d : str) : Prop :=
  attr_text w o "__doc__" = Some d /\ d <> [] /\ d <> u "None".
Definition undocumented (w : world) (o : oid) : Prop := forall d, attr_text w o "__doc__" = Some d -> d = [] \/ d = u "None".

(** Functions that read or write a Python attribute *)
Definition reads_attr (n : str) (x : frag) : Prop := exists d, x = GFn d /\ f_body d = BGet n.
Definition writes_attr (n : str) (x : frag) : Prop := exists d v, x = GFn d /\ f_body d = BSet n v.
