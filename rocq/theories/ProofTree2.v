(** The sorted-column builder gives the same tree as the row-partition builder. *)
From Coq Require Import Permutation Sorted.
From Verif Require Import Base Num ModelCommon ModelTree Lib Spec SpecTree ProofData ProofSort ProofSplit ProofSplit2 ProofTree.

Section Tree2.
Context {O : NumOps} (LW : NumLaws O).

Lemma perm_eq {A} (a b : list A) : a = b -> Permutation a b.
Proof. intros ->. apply Permutation_refl. Qed.

Lemma StronglySorted_map {A B} (R : A -> A -> Prop) (R' : B -> B -> Prop) (f : A -> B) l :
  (forall x y, In x l -> In y l -> R x y -> R' (f x) (f y)) -> StronglySorted R l -> StronglySorted R' (map f l).
Proof.
  intros H S. induction S as [|x l S IH Hf]; simpl; constructor.
  - apply IH. intros; apply H; auto; now right.
  - apply Forall_map. rewrite Forall_forall in *. intros y Hy. apply H; auto; [now left|now right].
Qed.

Lemma StronglySorted_nth_lt ids i j a b :
  StronglySorted lt ids -> nth_error ids i = Some a -> nth_error ids j = Some b -> i < j -> a < b.
Proof.
  intros S. revert i j. induction S as [|x l S IH Hf]; intros i j Hi Hj Hlt.
  - destruct i; discriminate.
  - destruct j as [|j]; [lia|]. destruct i as [|i]; simpl in *.
    + injection Hi as ->. rewrite Forall_forall in Hf. apply Hf. eapply nth_error_In; eauto.
    + apply (IH i j); auto. lia.
Qed.

(** A node of the row-partition builder ([d]) and of the sorted-column builder ([s]) over the same rows. *)
Record corr (nc nt : nat) (rows all_labels : list (list F)) (ids : list nat) (d : dataset) (s : sorted_dataset)
  : Prop := {
  co_node : node_data nc rows all_labels ids s;
  co_samples : samples d = map (fun i => (nth i rows [], nth i all_labels [])) ids;
  co_wf : wf_dataset nc nt d;
  co_len : length all_labels = length rows }.

Lemma corr_rows nc nt rows al ids d s : corr nc nt rows al ids d s ->
  feature_rows d = map (fun i => nth i rows []) ids /\ labels d = map (fun i => nth i al []) ids.
Proof.
  intros [_ Hs W _]. pose proof (wf_lengths _ _ _ W) as HL. unfold samples in Hs. split.
  - rewrite <- (map_fst_combine (feature_rows d) (labels d)) by auto. rewrite Hs, map_map. reflexivity.
  - rewrite <- (map_snd_combine (feature_rows d) (labels d)) by auto. rewrite Hs, map_map. reflexivity.
Qed.

Lemma nth_map_nth {A} (l : list A) dflt ids i :
  i < length ids -> nth i (map (fun i => nth i l dflt) ids) dflt = nth (nth i ids 0) l dflt.
Proof.
  intros H. rewrite (nth_indep _ dflt (nth 0 l dflt)) by now rewrite map_length.
  exact (map_nth (fun i => nth i l dflt) ids 0 i).
Qed.

Lemma corr_vls nc nt rows al ids d s :
  corr nc nt rows al ids d s -> dvls d = map (vls_of al) (s_columns s).
Proof.
  intros C. destruct (corr_rows _ _ _ _ _ _ _ C) as [Er El]. pose proof C as [Hn _ W HLr].
  pose proof (wf_lengths _ _ _ W) as HL. destruct (wf_columns _ _ _ W) as [Lc Ht].
  pose proof Hn as [N1 N2 N3 N4 N5].
  unfold dvls. apply nth_error_ext. intros j. rewrite !nth_error_map.
  destruct (nth_error (feature_columns d) j) as [col|] eqn:Ec; cycle 1.
  { apply nth_error_None in Ec. destruct (nth_error (s_columns s) j) eqn:E; auto.
    assert (j < length (s_columns s)) by (apply nth_error_Some; congruence). lia. }
  destruct (nth_error (s_columns s) j) as [scol|] eqn:Es; cycle 1.
  { apply nth_error_None in Es. assert (j < length (feature_columns d)) by (apply nth_error_Some; congruence). lia. }
  simpl. f_equal. destruct (Ht _ _ Ec) as [Lcol Hcol]. destruct (N5 _ _ Es) as (Ss & Ps & Vs).
  pose proof (wf_column_num _ _ _ _ W (nth_error_In _ _ Ec)) as Hnum.
  destruct (the_sort_spec LW col Hnum) as [_ [Pc Sc]].
  set (val := fun i : nat => nth j (nth i rows []) f0).
  set (g := fun p : F * nat => (fst p, nth (snd p) ids 0)).
  assert (Lids : length col = length ids).
  { rewrite Lcol, Er, map_length. reflexivity. }
  assert (Hcv : forall i, i < length ids -> nth_error col i = Some (val (nth i ids 0))).
  { intros i Hi. assert (Hr : nth_error (feature_rows d) i = Some (nth (nth i ids 0) rows [])).
    { rewrite Er, nth_error_map. rewrite (nth_error_nth' ids 0 Hi). reflexivity. }
    destruct (Hcol _ _ Hr) as [Hlt ->]. unfold val. now apply nth_error_nth'. }
  assert (Hg : map g (the_sort col) = scol).
  { apply (sorted_perm_unique pair_lt); auto.
    - apply (pair_lt_asym LW).
    - transitivity (map (fun i => (val i, i)) ids).
      + transitivity (map g (value_positions col)); [now apply Permutation_map|].
        apply perm_eq. apply nth_error_ext. intros i.
        rewrite !nth_error_map, nth_error_value_positions.
        destruct (Nat.lt_ge_cases i (length ids)) as [Hi|Hi].
        * rewrite (Hcv i Hi), (nth_error_nth' ids 0 Hi). reflexivity.
        * rewrite (proj2 (nth_error_None col i)) by lia. rewrite (proj2 (nth_error_None ids i)) by lia. reflexivity.
      + transitivity (map (fun i => (val i, i)) (map snd scol)).
        * apply Permutation_map. now apply Permutation_sym.
        * rewrite map_map. apply perm_eq. rewrite <- (map_id scol) at 2. apply map_ext_in.
          intros [v i] Hin. simpl. rewrite Forall_forall in Vs. destruct (Vs _ Hin) as (row & R1 & R2). simpl in *.
          f_equal. unfold val. rewrite (nth_error_nth _ _ _ R1). now apply nth_error_nth.
    - eapply StronglySorted_map; [|exact Sc]. intros [v i] [v' i'] H1 H2 Hlt.
      unfold g. simpl. destruct Hlt as [Hlt|[He Hlt]]; [now left|right]. split; auto. simpl in Hlt.
      apply (Permutation_in _ Pc) in H1, H2. apply value_positions_In in H1, H2. simpl in *.
      assert (i < length ids) by (rewrite <- Lids; apply nth_error_Some; congruence).
      assert (i' < length ids) by (rewrite <- Lids; apply nth_error_Some; congruence). simpl.
      apply (StronglySorted_nth_lt ids i i'); auto; now apply nth_error_nth'. }
  rewrite <- Hg. unfold vls_of. rewrite map_map. apply map_ext_in. intros [v i] Hin. unfold g. simpl. f_equal.
  rewrite El. apply nth_map_nth.
  apply (Permutation_in _ Pc) in Hin. apply value_positions_In in Hin. simpl in *.
  rewrite <- Lids. apply nth_error_Some. congruence.
Qed.

Lemma corr_split nc nt rows al ids d s :
  corr nc nt rows al ids d s -> rectangular nt al ->
  find_best_split_new_partition s al (N.of_nat nt) (length (s_columns s)) = find_best_split d (N.of_nat nt).
Proof.
  intros C Hr. pose proof C as [Hn Hs W HL]. destruct (corr_rows _ _ _ _ _ _ _ C) as [Er El].
  rewrite (nd_ncols _ _ _ _ _ Hn).
  rewrite (node_pfind nc nt rows al ids s Hn); auto.
  - rewrite (find_best_split_eq LW nc nt d W). rewrite <- El. now rewrite (corr_vls _ _ _ _ _ _ _ C).
  - intros ->. pose proof (wf_nonempty _ _ _ W). rewrite Er in H. now apply H.
Qed.

Lemma corr_answers nc nt rows al ids d s q i :
  corr nc nt rows al ids d s -> In i ids ->
  answers q (nth i rows []) = reaches rows (N.to_nat (q_column q)) (q_value q) i.
Proof.
  intros C Hi. destruct C as [Hn _ _ HL]. pose proof (nd_ids_bound _ _ _ _ _ Hn) as Hb. rewrite Forall_forall in Hb.
  specialize (Hb i Hi). unfold answers, reaches. rewrite (nth_error_nth' rows []) by lia. reflexivity.
Qed.

Lemma corr_partition nc nt rows al ids d s q fd td :
  corr nc nt rows al ids d s -> partition d q = Ok (fd, td) ->
  exists t f, new_partition s (N.to_nat (q_column q)) (q_value q) al = Ok (t, f) /\
    corr nc nt rows al (filter (reaches rows (N.to_nat (q_column q)) (q_value q)) ids) td t /\
    corr nc nt rows al (filter (fun i => negb (reaches rows (N.to_nat (q_column q)) (q_value q) i)) ids) fd f.
Proof.
  intros C Ep. pose proof C as [Hn Hs W HL].
  destruct (partition_wf nc nt d q fd td W Ep) as (Hq & Wf & Wt & St & Sf).
  assert (St' : samples td = map (fun i => (nth i rows [], nth i al []))
    (filter (reaches rows (N.to_nat (q_column q)) (q_value q)) ids)).
  { rewrite St, Hs. apply filter_map_comb. intros i Hi. simpl. eapply corr_answers; eauto. }
  assert (Sf' : samples fd = map (fun i => (nth i rows [], nth i al []))
    (filter (fun i => negb (reaches rows (N.to_nat (q_column q)) (q_value q) i)) ids)).
  { rewrite Sf, Hs. apply (filter_map_comb _ _ (fun p => negb (answers q (fst p)))).
    intros i Hi. simpl. f_equal. eapply corr_answers; eauto. }
  destruct (new_partition_node LW nc rows al ids s (N.to_nat (q_column q)) (q_value q) Hn Hq)
    as (t & f & E & Nt & Nf).
  { apply Exists_exists. pose proof (wf_nonempty _ _ _ Wt) as Hne. pose proof (wf_lengths _ _ _ Wt) as HLt.
    destruct (filter (reaches rows (N.to_nat (q_column q)) (q_value q)) ids) as [|i l] eqn:Ef.
    - exfalso. unfold samples in St'. destruct (feature_rows td); [congruence|].
      destruct (labels td); [discriminate|]. discriminate.
    - exists i. assert (Hi : In i (i :: l)) by now left. rewrite <- Ef in Hi. apply filter_In in Hi. tauto. }
  exists t, f. split; auto. split; constructor; auto.
Qed.

Lemma built_np cfg nc nt rows al :
  tc_number_of_classes cfg = N.of_nat nt -> standard cfg -> rectangular nt al -> (N.of_nat nt < 2 ^ 32)%N ->
  forall level d t, built mk_reg cfg level d t ->
  forall ids s, corr nc nt rows al ids d s ->
  forall fuel, length (feature_rows d) < fuel ->
  exists t', build_regression_tree_new_partition fuel s al cfg level = Ok t' /\
    tree_map (fun l => option_map s_labels (rln_data l)) t' = tree_map (fun l => option_map labels (rl_data l)) t.
Proof.
  intros Hk Hstd Hr Hnt level d t B.
  induction B as [level d b l Es Est El|level d b fd td t f Es Est Ep Bt IHt Bf IHf]; intros ids s C [|fuel] Hf;
    try lia; simpl.
  - pose proof C as [Hn Hs W HL]. destruct (corr_rows _ _ _ _ _ _ _ C) as [Er Elb].
    pose proof (node_labels_eq _ _ _ _ _ Hn) as Esl.
    assert (H0 : exists l0, idx (s_labels s) 0 = Ok l0 /\ length l0 = nt).
    { rewrite Esl, <- Elb. pose proof (wf_labels _ _ _ W) as Hlb. pose proof (wf_lengths _ _ _ W) as HLd.
      pose proof (wf_nonempty _ _ _ W). destruct (labels d) as [|l0 ls].
      - destruct (feature_rows d); [congruence|discriminate].
      - exists l0. split; auto. now inversion Hlb. }
    destruct H0 as (l0 & E0 & Ll0). rewrite E0. simpl.
    unfold as_u32. rewrite Ll0, N.mod_small by auto.
    rewrite (corr_split nc nt rows al ids d s C Hr).
    rewrite Hk, Hstd in Es. change (find_best_split d (N.of_nat nt) = Ok b) in Es. rewrite Es. simpl. rewrite Est.
    injection El as <-. eexists. split; [reflexivity|]. simpl. unfold leaf_node. rewrite Esl, <- Elb. reflexivity.
  - pose proof C as [Hn Hs W HL]. destruct (corr_rows _ _ _ _ _ _ _ C) as [Er Elb].
    pose proof (node_labels_eq _ _ _ _ _ Hn) as Esl.
    assert (H0 : exists l0, idx (s_labels s) 0 = Ok l0 /\ length l0 = nt).
    { rewrite Esl, <- Elb. pose proof (wf_labels _ _ _ W) as Hlb. pose proof (wf_lengths _ _ _ W) as HLd.
      pose proof (wf_nonempty _ _ _ W). destruct (labels d) as [|l0 ls].
      - destruct (feature_rows d); [congruence|discriminate].
      - exists l0. split; auto. now inversion Hlb. }
    destruct H0 as (l0 & E0 & Ll0). rewrite E0. simpl.
    unfold as_u32. rewrite Ll0, N.mod_small by auto.
    rewrite (corr_split nc nt rows al ids d s C Hr).
    rewrite Hk, Hstd in Es. change (find_best_split d (N.of_nat nt) = Ok b) in Es. rewrite Es. simpl. rewrite Est.
    destruct (corr_partition nc nt rows al ids d s _ fd td C Ep) as (ts & fs & Enp & Ct & Cf).
    rewrite Enp. simpl. apply partition_shrinks in Ep as [E1 E2].
    destruct (IHt _ _ Ct fuel ltac:(lia)) as (t' & Et & Mt). rewrite Et. simpl.
    destruct (IHf _ _ Cf fuel ltac:(lia)) as (f' & Ef & Mf). rewrite Ef. simpl.
    eexists. split; [reflexivity|]. simpl. unfold node_new. simpl. rewrite Mt, Mf. reflexivity.
Qed.

Lemma corr_root nc nt d s :
  wf_dataset nc nt d -> create_dataset_with_sorted_features d = Ok s ->
  corr nc nt (feature_rows d) (labels d) (seq 0 (length (labels d))) d s.
Proof.
  intros W E. constructor; auto.
  - apply (sorted_root_node LW nc nt); auto.
  - pose proof (wf_lengths _ _ _ W) as HL. unfold samples. apply nth_error_ext. intros i.
    rewrite nth_error_combine, nth_error_map, nth_error_seq.
    destruct (Nat.ltb_spec i (length (labels d))); simpl.
    + rewrite (nth_error_nth' (feature_rows d) []) by lia. rewrite (nth_error_nth' (labels d) []) by lia. reflexivity.
    + rewrite (proj2 (nth_error_None (feature_rows d) i)) by lia. reflexivity.
  - apply (wf_lengths _ _ _ W).
Qed.

Theorem same_tree nc nt d s cfg :
  wf_dataset nc nt d -> create_dataset_with_sorted_features d = Ok s ->
  standard cfg -> tc_number_of_classes cfg = N.of_nat nt -> (N.of_nat nt < 2 ^ 32)%N ->
  exists t t', regression_tree_new d cfg = Ok t /\ regression_tree_new_partition_new s cfg = Ok t' /\
    tree_map (fun l => option_map s_labels (rln_data l)) t' = tree_map (fun l => option_map labels (rl_data l)) t.
Proof.
  intros W E Hs Hk Hnt. rewrite regression_tree_new_eq.
  destruct (build_total LW mk_reg cfg nc nt Hs Hk) with (fuel := fuel_for d) (d := d) (level := 0%N) as (t & Et); auto.
  { intros d' _. unfold mk_reg. eauto. }
  exists t. rewrite Et. apply build_with_built in Et.
  pose proof (corr_root nc nt d s W E) as C.
  assert (Esl : s_labels s = labels d).
  { apply (create_dataset_with_sorted_features_Ok LW) in E. apply E. }
  destruct (built_np cfg nc nt (feature_rows d) (labels d) Hk Hs (wf_labels _ _ _ W) Hnt _ _ _ Et _ _ C
    (S (length (labels d)))) as (t' & Et' & M).
  { rewrite (wf_lengths _ _ _ W). lia. }
  exists t'. unfold regression_tree_new_partition_new. rewrite Esl. auto.
Qed.

Lemma find_leaf_tree_map {L M} (g : L -> M) row : forall t,
  find_leaf_node_for_data row (tree_map g t) = (l <- find_leaf_node_for_data row t;; Ok (g l)).
Proof.
  fix IH 1. intros [q t f l]. destruct t as [t|], f as [f|]; simpl; unfold is_leaf_node; simpl.
  - rewrite bind_assoc. destruct (solve q row) as [[|]| |]; simpl; auto.
  - rewrite bind_assoc. destruct (solve q row) as [[|]| |]; simpl; auto.
  - rewrite bind_assoc. destruct (solve q row) as [[|]| |]; simpl; auto.
  - destruct l; reflexivity.
Qed.

Theorem same_tree_mse t t' test :
  tree_map (fun l => option_map s_labels (rln_data l)) t' = tree_map (fun l => option_map labels (rl_data l)) t ->
  calculate_overall_mean_squared_error_new_partition test t' = calculate_overall_mean_squared_error test t.
Proof.
  intros H. unfold calculate_overall_mean_squared_error_new_partition, calculate_overall_mean_squared_error.
  f_equal. apply for_range_ext. intros acc i _. destruct (idx (feature_rows test) i) as [row| |]; simpl; auto.
  assert (Hl := find_leaf_tree_map (fun l => option_map s_labels (rln_data l)) row t').
  rewrite H, find_leaf_tree_map in Hl.
  destruct (find_leaf_node_for_data row t) as [[[d|]]| |], (find_leaf_node_for_data row t') as [[[s|]]| |];
    simpl in *; try discriminate; auto.
  injection Hl as ->. reflexivity.
Qed.

End Tree2.
