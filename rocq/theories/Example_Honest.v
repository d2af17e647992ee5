(** * Checking that an example world satisfies the assumptions about worlds *)
From Verif Require Import Base Model_Ident Model_Path Model_Config Model_Type Model_IntoRs Model_World Model_Function
  Model_Class Model_Module Model_Parse Model_Codegen Spec_Path Spec_Tree Spec_Api Example_World Proof_Base Proof_Path.

Definition py_nameb (s : str) : bool :=
  negb (str_eqb s []) && negb (existsb (N.eqb c_dot) s) && negb (starts_with (u "r#") s) && negb (str_eqb s (u "super")).
Definition module_at (l : list ob) (o : oid) : bool := tf_is_module (ob_type (ob_at l o)).
Definition childb (imports : list (str * oid)) (l : list ob) (b : ob) (s : str) (a : oid) : bool :=
  mem_str s (ob_iter b) ||
  (module_at l a && (contains_str (u "<locals>") (ob_str (ob_at l a)) ||
     path_eqb (path_from_py uni_ascii (match attr_text (world_of imports l) a "__module__" with Some t => t | None => [] end)) (path_from_py uni_ascii (ob_name b)))).
Definition honestb (imports : list (str * oid)) (l : list ob) : bool :=
  forallb (fun b => if tf_is_module (ob_type b) then
      forallb py_nameb (split_char c_dot (ob_name b)) && forallb py_nameb (ob_iter b) &&
      forallb (fun e => if childb imports l b (fst e) (snd e) then
          py_nameb (fst e) &&
          (if module_at l (snd e) then
             match find_str imports (dot (ob_name b) (fst e)) with Some _ => true | None => str_eqb (ob_name (ob_at l (snd e))) (dot (ob_name b) (fst e)) end
           else true)
        else true) (ob_attrs b)
    else true) l &&
  forallb (fun b => forallb (fun e => negb (starts_with (u "r#") (fst e))) (ob_attrs b)) l &&
  forallb (fun e => module_at l (snd e) && str_eqb (ob_name (ob_at l (snd e))) (fst e)) imports.
Lemma py_nameb_ok : forall s, py_nameb s = true -> py_name s.
Proof.
  intros s H. unfold py_nameb in H. rewrite !andb_true_iff, !negb_true_iff in H. destruct H as [[[H1 H2] H3] H4].
  split; [split; [|split; [|exact H3]]|].
  - intros ->. discriminate.
  - intros K. enough (existsb (N.eqb c_dot) s = true) by congruence. apply existsb_exists. exists c_dot. split; [exact K|]. apply N.eqb_refl.
  - intros ->. discriminate.
Qed.
Lemma find_str_In : forall {A} (l : list (str * A)) s a, find_str l s = Some a -> In (s, a) l.
Proof.
  intros A l s a H. unfold find_str in H. destruct (find _ l) as [e|] eqn:E; [|discriminate]. injection H as <-. apply find_some in E as [E K].
  apply str_eqb_eq in K as <-. now destruct e.
Qed.
Lemma ob_at_In : forall l o, module_at l o = true -> In (ob_at l o) l.
Proof.
  intros l o H. unfold module_at, ob_at in *. destruct (nth_in_or_default (N.to_nat o) l none_ob) as [K|E]; [exact K|]. now rewrite E in H.
Qed.
Lemma attrs_all : forall l (P : str * oid -> bool), forallb (fun b => forallb P (ob_attrs b)) l = true -> forall o e, In e (ob_attrs (ob_at l o)) -> P e = true.
Proof.
  intros l P H o e He. unfold ob_at in He. destruct (nth_in_or_default (N.to_nat o) l none_ob) as [K|E]; [|rewrite E in He; easy].
  rewrite forallb_forall in H. specialize (H _ K). rewrite forallb_forall in H. now apply H.
Qed.
Lemma honestb_ok : forall imports l, honestb imports l = true -> honest uni_ascii (world_of imports l).
Proof.
  intros imports l H. unfold honestb in H. rewrite !andb_true_iff in H. destruct H as [[H1 H2] H3]. rewrite forallb_forall in H1, H3. pose proof (attrs_all l _ H2) as Hattr. clear H2.
  assert (M : forall o, is_module (world_of imports l) o -> module_at l o = true) by easy.
  assert (C : forall o s, is_module (world_of imports l) o -> child_name uni_ascii (world_of imports l) o s ->
    In s (ob_iter (ob_at l o)) \/ exists a, In (s, a) (ob_attrs (ob_at l o)) /\ childb imports l (ob_at l o) s a = true).
  { intros o s Ho [K|(a & _ & K1 & K2 & K3)]; [now left|right]. exists a. split; [now apply find_str_In|]. unfold childb. apply orb_true_iff. right.
    apply andb_true_iff. split; [now apply M|]. apply orb_true_iff. destruct K3 as [K3|K3]; [now left|right]. apply path_eqb_eq. exact K3. }
  split.
  - intros o Ho. specialize (H1 _ (ob_at_In l o (M o Ho))). unfold is_module in Ho. cbn [w_type world_of] in Ho. rewrite Ho, !andb_true_iff in H1. destruct H1 as [[H1 _] _].
    rewrite forallb_forall in H1. exists (split_char c_dot (ob_name (ob_at l o))). split; [|split; [intros s Hs; apply py_nameb_ok; now apply H1|symmetry; apply join_split_char]].
    destruct (ob_name (ob_at l o)) as [|a s]; cbn; [discriminate|]. destruct (N.eqb a c_dot); [discriminate|]. now destruct (split_char c_dot s).
  - intros n o K. apply find_str_In in K. specialize (H3 _ K). cbn in H3. apply andb_true_iff in H3 as [H3 H4]. apply str_eqb_eq in H4. now split.
  - intros o s K. cbn [w_dir world_of] in K. apply in_map_iff in K as (e & <- & K). specialize (Hattr o e K). cbn in Hattr. now apply negb_true_iff in Hattr.
  - intros o s Ho K. specialize (H1 _ (ob_at_In l o (M o Ho))). pose proof Ho as Ho'. unfold is_module in Ho'. cbn [w_type world_of] in Ho'. rewrite Ho', !andb_true_iff in H1. destruct H1 as [[_ H1] H4].
    rewrite forallb_forall in H1, H4. destruct (C o s Ho K) as [K1|(a & K1 & K2)]; [now apply py_nameb_ok, H1|].
    specialize (H4 _ K1). cbn [fst snd] in H4. rewrite K2 in H4. apply andb_true_iff in H4 as [H4 _]. now apply py_nameb_ok.
  - intros o s a Ho K Ka Ma Hn. specialize (H1 _ (ob_at_In l o (M o Ho))). pose proof Ho as Ho'. unfold is_module in Ho'. cbn [w_type world_of] in Ho'. rewrite Ho', !andb_true_iff in H1. destruct H1 as [_ H4].
    rewrite forallb_forall in H4. cbn [w_getattr world_of] in Ka. specialize (H4 _ (find_str_In _ _ _ Ka)). cbn [fst snd] in H4.
    assert (Ec : childb imports l (ob_at l o) s a = true).
    { destruct K as [K|(a' & _ & K1 & K2 & K3)].
      - unfold childb. apply orb_true_iff. left. unfold mem_str. apply existsb_exists. exists s. split; [exact K|]. now apply str_eqb_eq.
      - cbn [w_getattr world_of] in K1. rewrite Ka in K1. injection K1 as <-. unfold childb. apply orb_true_iff. right. apply andb_true_iff. split; [now apply M|].
        apply orb_true_iff. destruct K3 as [K3|K3]; [now left|right]. apply path_eqb_eq. exact K3. }
    rewrite Ec in H4. apply andb_true_iff in H4 as [_ H4]. unfold is_module in Ma. cbn [w_type world_of] in Ma. unfold module_at in H4. rewrite Ma in H4.
    cbn [w_import world_of w_name] in Hn |- *. rewrite Hn in H4. now apply str_eqb_eq in H4.
Qed.
Definition differb (l : list ob) : bool :=
  forallb (fun i => forallb (fun j => if module_at l (N.of_nat i) && module_at l (N.of_nat j) && str_eqb (ob_name (ob_at l (N.of_nat i))) (ob_name (ob_at l (N.of_nat j))) then Nat.eqb i j else true)
     (seq 0 (length l))) (seq 0 (length l)).
Lemma differb_ok : forall imports l, differb l = true -> names_differ (world_of imports l).
Proof.
  intros imports l H o o' Ho Ho' E. unfold differb in H. rewrite forallb_forall in H.
  assert (L : forall o, is_module (world_of imports l) o -> In (N.to_nat o) (seq 0 (length l))).
  { intros q Hq. apply in_seq. split; [lia|]. destruct (Nat.lt_ge_cases (N.to_nat q) (length l)) as [K|K]; [exact K|].
    unfold is_module in Hq. cbn [w_type world_of] in Hq. unfold ob_at in Hq. now rewrite nth_overflow in Hq. }
  specialize (H _ (L o Ho)). rewrite forallb_forall in H. specialize (H _ (L o' Ho')). rewrite !N2Nat.id in H.
  unfold is_module in Ho, Ho'. cbn [w_type w_name world_of] in *. unfold module_at in H. rewrite Ho, Ho', E in H. rewrite (proj2 (str_eqb_eq _ _) eq_refl) in H. cbn in H.
  apply Nat.eqb_eq in H. now apply N2Nat.inj.
Qed.
Lemma named_objects : forall imports l, Forall (fun b => tf_is_module (ob_type b) = true -> ob_name b <> []) l ->
  Forall (fun e => tf_is_module (ob_type (ob_at l (snd e))) = true) imports -> named_world (world_of imports l).
Proof.
  intros imports l Hl Hi. split.
  - intros o Ho. unfold is_module in Ho. cbn [w_type w_name world_of] in *. unfold ob_at in *. destruct (nth_in_or_default (N.to_nat o) l none_ob) as [Hin|E].
    + exact (proj1 (Forall_forall _ _) Hl _ Hin Ho).
    + rewrite E in Ho. discriminate.
  - intros n o H. cbn [w_import world_of] in H. unfold find_str in H. destruct (find _ _) as [e|] eqn:E; [|discriminate]. injection H as <-.
    apply find_some in E as [E _]. exact (proj1 (Forall_forall _ _) Hi _ E).
Qed.
