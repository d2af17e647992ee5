(** * Lemmas: what submodules add to a package *)
From Coq Require Import Permutation Lia.
From Verif Require Import Base Model_Ident Model_Path Model_Import Model_Config Model_Type Model_World Model_Function Model_Property Model_Class Model_Module Model_Parse Model_Codegen
  Spec_Path Spec_Items Spec_Tree Spec_Api Spec_Attr Spec_Hash Proof_Base Proof_Ident Proof_Path Proof_IntoRs Proof_Function Proof_Items Proof_Module Proof_Parse Proof_Forest Proof_Attr Proof_Order Proof_Hash Proof_Switch
  Model_Class Spec_Open Spec_Deep.

Lemma opt_find : forall A (n : A -> path) p l (a : A), In a (opt_list (find_path n p l)) -> In a l.
Proof. intros A n p l a H. unfold opt_list, find_path in H. destruct (find _ l) as [b|] eqn:E; [|easy]. destruct H as [<-|[]]. now apply find_some in E. Qed.
Lemma retarget_moved : forall c m it, f_has (retarget c m f_none) it -> exists it0, has m it0 /\ moved it0 it (im_target c).
Proof.
  intros c m [i|i|k|p|f|p] H; cbn [f_has retarget fd_imports fd_classes fd_typevars fd_functions fd_properties f_none app] in H; [easy|..];
    apply in_map_iff in H as (a & <- & Ha); apply opt_find in Ha.
  - exists (AnImport a). split; [exact Ha|reflexivity].
  - exists (AClass a). split; [exact Ha|reflexivity].
  - exists (ATypeVar a). split; [exact Ha|reflexivity].
  - exists (AFunction a). split; [exact Ha|reflexivity].
  - exists (AProperty a). split; [exact Ha|reflexivity].
Qed.
Section deep.
  Variables (h : hash_order) (x : penv).
  Let y := deep_run h x.
  Hypothesis Ht : traverse_submodules (pe_cfg x) = false.
  Lemma deep_added : forall fuel o m m', mod_parse x (S fuel) o = Ok m -> mod_parse y (S fuel) o = Ok m' -> forall it, has m' it -> has m it \/
    exists i t k it0, w_import (pe_world x) (to_py (path_snoc (m_name m) i)) = Some t /\ mod_parse y fuel t = Ok k /\ has k it0 /\ moved it0 it (path_snoc (m_name m) i).
  Proof.
    intros fuel o m m' E H it Hit. cbn [mod_parse] in *. rewrite body_split in *. unfold before_subs in *.
    change (module_path y o) with (module_path x o) in H. change (pe_world y) with (pe_world x) in H. change (generate_preludes (pe_cfg y)) with (generate_preludes (pe_cfg x)) in H.
    change (traverse_submodules (pe_cfg y)) with true in H. change (pe_env y) with (pe_env x) in H. change (pe_uni y) with (pe_uni x) in H. rewrite Ht in E.
    change (extract_prelude y o) with (extract_prelude x o) in H. change (extract_submodules y o) with (extract_submodules x o) in H.
    apply bind_Ok in H as ([[[name pre] pk] st'] & H0 & H). apply bind_Ok in H0 as (nm & Hn & H0). apply bind_Ok in H0 as (pr & Hpre & H0).
    apply bind_Ok in H0 as (sbs & Hsb & H0). apply bind_Ok in H0 as (s0 & Hst & H0). injection H0 as <- <- <- <-. rewrite Hn in E. cbn [obind] in E. rewrite Hpre in E. cbn [obind] in E. rewrite Hsb in E. cbn [obind] in E.
    rewrite (same_each _ o (fun a => is_attr_allowed (pe_cfg x) (at_name a) (at_module a)) (fun a => is_attr_allowed (pe_cfg y) (at_name a) (at_module a)) (module_step x nm) (module_step y nm)) in Hst;
      [|reflexivity|intros s a; apply same_step; reflexivity].
    rewrite Hst in E. cbn [obind map concat] in E. apply bind_Ok in H as (r' & Hr' & H). unfold after_subs in *. change (pe_world y) with (pe_world x) in H. apply bind_Ok in H as (doc & Hdoc & H). rewrite Hdoc in E. cbn [obind] in E.
    injection H as <-. injection E as <-. cbn [retargets fold_left m_name].
    assert (K : f_has (retargets (concat (map fst r')) s0) it -> f_has s0 it \/ exists i t k it0, w_import (pe_world x) (to_py (path_snoc nm i)) = Some t /\ mod_parse y fuel t = Ok k /\ has k it0 /\ moved it0 it (path_snoc nm i)).
    { intros G. apply retargets_has in G as [G|(e & He & G)]; [now left|right]. apply in_concat in He as (es & Hes & He). apply in_map_iff in Hes as (q & <- & Hq).
      destruct (mapM_In _ _ _ _ Hr' Hq) as (i & _ & Ei). unfold act in Ei. destruct (find_path _ _ _) as [c|] eqn:Ef.
      - change (pe_world y) with (pe_world x) in Ei. destruct (w_import (pe_world x) (to_py (path_snoc nm i))) as [t|] eqn:Ew; [|injection Ei as <-; easy]. destruct (mod_parse y fuel t) as [k| | |] eqn:Ek; try discriminate Ei; injection Ei as <-; [|easy].
        destruct He as [<-|[]]. cbn [fst snd] in G. destruct (retarget_moved _ _ _ G) as (it0 & A & B). apply find_some in Ef as [_ Ef]. apply path_eqb_eq in Ef. rewrite Ef in B. now exists i, t, k, it0.
      - destruct (find_submodule _ _ _ _) as [s|]; [apply bind_Ok in Ei as (m & _ & Ei)|]; injection Ei as <-; easy. }
    destruct it as [i|i|c|p|f|p]; cbn [has m_prelude m_imports m_classes m_typevars m_functions m_properties] in *; [now left|..]; exact (K Hit).
  Qed.
End deep.
