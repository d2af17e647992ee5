(** * Two outputs, of which the second one excludes fewer names (C79) *)
From Verif Require Import Base Model_Ident Model_Path Model_Out Spec_Out Spec_More.

(** The second item has everything that the first one has: classes can have further members. *)
Inductive fuller : frag -> frag -> Prop :=
| fu_kept y y' : kept y y' -> fuller y y'
| fu_impl n l l' : (forall y, In y l -> leads y = false -> exists y', In y' l' /\ kept y y') -> fuller (GImpl n l) (GImpl n l')
| fu_trait n l l' : (forall y, In y l -> leads y = false -> exists y', In y' l' /\ kept y y') -> fuller (GTrait n l) (GTrait n l')
| fu_impl_for t n l l' : (forall y, In y l -> leads y = false -> exists y', In y' l' /\ kept y y') -> fuller (GImplFor t n l) (GImplFor t n l').

(** The names are not of the kind that the engine gives to accessors, constructors and calls. *)
Definition ordinary (b : list str) : Prop := forall s p, In s b -> In p (map u ["get_"; "set_"; "new"; "call"]%string) -> starts_with p s = false.
