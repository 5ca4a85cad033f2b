(** Final forms of the tree theorems, for any arithmetic satisfying [NumLaws]. *)
From Coq Require Import Permutation Sorted.
From Verif Require Import Base Num ModelCommon ModelTree Lib Spec SpecTree ProofData ProofSort ProofSplit ProofSplit2
  ProofTree ProofTree2 ProofTransform.

Section Tree3.
Context {O : NumOps} (LW : NumLaws O).

Lemma standard_fuel cfg : standard cfg -> forall d k, tc_split_finder cfg d k <> OutOfFuel.
Proof. intros H d k. rewrite H. apply find_best_split_fuel. Qed.

Theorem usable_split nc nt d :
  wf_dataset nc nt d ->
  exists b, find_best_split d (N.of_nat nt) = Ok b /\ fleb f0 (bs_gain b) = true /\
    (feqb (bs_gain b) f0 = false ->
      let c := N.to_nat (q_column (bs_question b)) in
      let v := q_value (bs_question b) in
      c < nc /\
      (exists i row, nth_error (feature_rows d) i = Some row /\ nth_error row c = Some v) /\
      (exists i row u, nth_error (feature_rows d) i = Some row /\ nth_error row c = Some u /\ fltb u v = true) /\
      exists fd td, partition d (bs_question b) = Ok (fd, td) /\ feature_rows fd <> [] /\ feature_rows td <> []).
Proof.
  intros W. destruct (split_usable LW nc nt d W) as (b & E & G & _ & H). exists b. split; [exact E|]. split; [exact G|].
  intros Hg. destruct (H Hg) as (_ & Hc & (i & ri & Hi & Hv) & (j & rj & u & Hj & Hu & Hlt)). cbv zeta.
  split; [exact Hc|]. split; [eauto|]. split; [eauto 10|].
  destruct (usable_sides LW nc nt d _ i j ri rj u W Hi Hv Hj Hu Hlt) as [Ht Hf].
  destruct (partition_Ok nc d (bs_question b)) as (fd & td & Ep & _); eauto.
  { apply (wf_lengths _ _ _ W). } { apply (wf_rows _ _ _ W). }
  exists fd, td. split; [exact Ep|]. destruct (partition_wf nc nt d _ fd td W Ep) as (_ & Wf & Wt & _).
  split; [apply (wf_nonempty _ _ _ Wf)|apply (wf_nonempty _ _ _ Wt)].
Qed.

(** C17 *)
Theorem regression_total nc nt d cfg :
  wf_dataset nc nt d -> standard cfg -> tc_number_of_classes cfg = N.of_nat nt ->
  exists t, regression_tree_new d cfg = Ok t.
Proof.
  intros W Hs Hk. rewrite regression_tree_new_eq. apply (build_total LW mk_reg cfg nc nt); auto; try (unfold fuel_for; lia).
  unfold mk_reg. eauto.
Qed.
Theorem grad_boost_total nc nt d cfg kind :
  wf_dataset nc nt d -> standard cfg -> tc_number_of_classes cfg = N.of_nat nt ->
  exists t, grad_boost_tree_new d cfg (leaf_output_calculator_new kind) = Ok t.
Proof.
  intros W Hs Hk. rewrite grad_boost_tree_new_eq. apply (build_total LW _ cfg nc nt); auto; try (unfold fuel_for; lia).
  intros d' W'. destruct (calc_total nc nt kind d' W') as (o & E & _). unfold mk_gb. rewrite E. simpl. eauto.
Qed.
Theorem amg_total nc nt d cfg kind :
  wf_dataset nc nt d -> standard cfg -> tc_number_of_classes cfg = N.of_nat nt ->
  exists t, amg_boost_tree_new d cfg (leaf_output_calculator_new kind) = Ok t.
Proof.
  intros W Hs Hk. rewrite amg_boost_tree_new_eq. apply (build_total LW _ cfg nc nt); auto; try (unfold fuel_for; lia).
  intros d' W'. destruct (calc_total nc nt kind d' W') as (o & E & _). unfold mk_amg. rewrite E. simpl. eauto.
Qed.

Theorem trees_terminate d cfg kind :
  standard cfg ->
  regression_tree_new d cfg <> OutOfFuel /\
  grad_boost_tree_new d cfg (leaf_output_calculator_new kind) <> OutOfFuel /\
  amg_boost_tree_new d cfg (leaf_output_calculator_new kind) <> OutOfFuel.
Proof.
  intros Hs. rewrite regression_tree_new_eq, grad_boost_tree_new_eq, amg_boost_tree_new_eq.
  pose proof (standard_fuel cfg Hs). repeat split; apply build_with_fuel; auto; try (unfold fuel_for; lia).
  - discriminate.
  - apply mk_gb_fuel.
  - apply mk_amg_fuel.
Qed.

Theorem budget_irrelevant d cfg kind fuel :
  length (feature_rows d) < fuel ->
  build_regression_tree fuel d cfg 0 = build_regression_tree (fuel_for d) d cfg 0 /\
  build_grad_boost_regression_tree fuel d cfg (leaf_output_calculator_new kind) 0 =
    build_grad_boost_regression_tree (fuel_for d) d cfg (leaf_output_calculator_new kind) 0 /\
  build_approximate_grad_boost_regression_tree fuel d cfg (leaf_output_calculator_new kind) 0 =
    build_approximate_grad_boost_regression_tree (fuel_for d) d cfg (leaf_output_calculator_new kind) 0.
Proof.
  intros H. rewrite !build_reg_eq, !build_gb_eq, !build_amg_eq.
  repeat split; apply build_with_budget; auto; unfold fuel_for; lia.
Qed.

Theorem mismatch_panics nc nt d cfg kind :
  wf_dataset nc nt d -> standard cfg -> 0 < nc -> tc_number_of_classes cfg <> N.of_nat nt ->
  regression_tree_new d cfg = Panic /\
  grad_boost_tree_new d cfg (leaf_output_calculator_new kind) = Panic /\
  amg_boost_tree_new d cfg (leaf_output_calculator_new kind) = Panic.
Proof.
  intros W Hs Hnc Hk. rewrite regression_tree_new_eq, grad_boost_tree_new_eq, amg_boost_tree_new_eq.
  repeat split; apply (build_mismatch LW _ cfg nc nt); auto; discriminate.
Qed.

(** C18 *)
Lemma built_root_rows {L} (mk : dataset -> res L) cfg level d t : standard cfg -> built mk cfg level d t -> feature_rows d <> [].
Proof.
  intros Hs B E. assert (H : find_best_split d (tc_number_of_classes cfg) = Panic \/ find_best_split d (tc_number_of_classes cfg) = OutOfFuel).
  { unfold find_best_split. rewrite E.
    destruct (get_multi_target_label_metrics _ _); simpl; auto. destruct (get_total_variance_sum _ _ _); simpl; auto. }
  destruct B as [level d s l Es _ _|level d s fd td t f Es _ _ _ _]; rewrite Hs in Es;
    change (find_best_split d (tc_number_of_classes cfg) = Ok s) in Es; destruct H; congruence.
Qed.

Lemma depth_bound {L} (mk : dataset -> res L) cfg d t :
  standard cfg -> build_with mk (fuel_for d) d cfg 0 = Ok t ->
  (N.of_nat (depth t) <= tc_max_levels cfg)%N /\ depth t < length (feature_rows d) /\
  (tc_max_levels cfg = 0%N -> exists q l, t = leaf_node q l).
Proof.
  intros Hs E. apply build_with_built in E. pose proof (built_depth mk cfg 0 d t E) as [H1 H2].
  pose proof (built_root_rows mk cfg 0 d t Hs E) as Hne. split; [specialize (H1 ltac:(lia)); lia|]. split; auto.
  intros H0. specialize (H1 ltac:(lia)). rewrite H0 in H1.
  destruct E as [level d s l Es _ _|level d s fd td t f Es _ _ _ _]; eauto.
  simpl in H1. exfalso. lia.
Qed.

Theorem regression_depth d cfg t : standard cfg -> regression_tree_new d cfg = Ok t ->
  (N.of_nat (depth t) <= tc_max_levels cfg)%N /\ depth t < length (feature_rows d) /\
  (tc_max_levels cfg = 0%N -> exists q l, t = leaf_node q l).
Proof. intros Hs. rewrite regression_tree_new_eq. now apply depth_bound. Qed.
Theorem grad_boost_depth d cfg calc t : standard cfg -> grad_boost_tree_new d cfg calc = Ok t ->
  (N.of_nat (depth t) <= tc_max_levels cfg)%N /\ depth t < length (feature_rows d) /\
  (tc_max_levels cfg = 0%N -> exists q l, t = leaf_node q l).
Proof. intros Hs. rewrite grad_boost_tree_new_eq. now apply depth_bound. Qed.
Theorem amg_depth d cfg calc t : standard cfg -> amg_boost_tree_new d cfg calc = Ok t ->
  (N.of_nat (depth t) <= tc_max_levels cfg)%N /\ depth t < length (feature_rows d) /\
  (tc_max_levels cfg = 0%N -> exists q l, t = leaf_node q l).
Proof. intros Hs. rewrite amg_boost_tree_new_eq. now apply depth_bound. Qed.

(** C19 *)
Theorem trees_proper d cfg calc :
  (forall t, regression_tree_new d cfg = Ok t -> proper t) /\
  (forall t, grad_boost_tree_new d cfg calc = Ok t -> proper t) /\
  (forall t, amg_boost_tree_new d cfg calc = Ok t -> proper t).
Proof.
  rewrite regression_tree_new_eq, grad_boost_tree_new_eq, amg_boost_tree_new_eq.
  repeat split; intros t E; apply build_with_built in E; eapply built_proper; eauto.
Qed.

Lemma lookup_built {L} (mk : dataset -> res L) cfg nc nt d t row :
  wf_dataset nc nt d -> build_with mk (fuel_for d) d cfg 0 = Ok t -> nc <= length row ->
  exists l, find_leaf_node_for_data row t = Ok l /\ In l (leaves t).
Proof.
  intros W E Hr. apply build_with_built in E. apply (lookup_proper nc); auto.
  - eapply built_proper; eauto.
  - eapply built_asks; eauto.
Qed.

Theorem lookup_total nc nt d cfg calc row :
  wf_dataset nc nt d -> nc <= length row ->
  (forall t, regression_tree_new d cfg = Ok t -> exists l, find_leaf_node_for_data row t = Ok l /\ In l (leaves t)) /\
  (forall t, grad_boost_tree_new d cfg calc = Ok t -> exists l, find_leaf_node_for_data row t = Ok l /\ In l (leaves t)) /\
  (forall t, amg_boost_tree_new d cfg calc = Ok t -> exists l, find_leaf_node_for_data row t = Ok l /\ In l (leaves t)).
Proof.
  intros W Hr. rewrite regression_tree_new_eq, grad_boost_tree_new_eq, amg_boost_tree_new_eq.
  repeat split; intros t E; eapply lookup_built; eauto.
Qed.

(** A lookup on a row that is too short for a question on its path panics, never guesses. *)
Theorem lookup_outcomes {L} (t : tree_node L) row :
  proper t ->
  (find_leaf_node_for_data row t = Panic <-> Exists (fun q => length row <= N.to_nat (q_column q)) (path row t)) /\
  find_leaf_node_for_data row t <> OutOfFuel.
Proof.
  induction 1 as [q l|q t f Ht IHt Hf IHf]; simpl.
  - split; [|discriminate]. split; [discriminate|]. intros H. inversion H.
  - destruct (le_lt_dec (length row) (N.to_nat (q_column q))) as [Hq|Hq].
    + rewrite (proj2 (solve_Panic q row) Hq). simpl. split; [|discriminate]. split; auto.
    + rewrite solve_Ok by auto. simpl. destruct (answers q row); (split; [|tauto]).
      * rewrite Exists_cons. destruct IHt as [IH _]. rewrite IH. split; [auto|]. intros [H|H]; auto. lia.
      * rewrite Exists_cons. destruct IHf as [IH _]. rewrite IH. split; [auto|]. intros [H|H]; auto. lia.
Qed.

(** C20 *)
Theorem leaves_partition nc nt d cfg t :
  wf_dataset nc nt d -> regression_tree_new d cfg = Ok t ->
  Permutation (leaf_samples t) (samples d) /\
  Forall (fun l => exists x, rl_data l = Some x /\ feature_rows x <> [] /\ wf_dataset nc nt x) (leaves t).
Proof.
  intros W. rewrite regression_tree_new_eq. intros E. apply build_with_built in E.
  destruct (built_leaves_wf cfg nc nt 0 d t E W) as [H1 H2]. split; auto.
  eapply Forall_impl; [|exact H2]. simpl. intros l (x & Hx & Wx). exists x. split; auto. split; auto.
  apply (wf_nonempty _ _ _ Wx).
Qed.

(** C21 *)
Theorem leaf_on_path nc nt d cfg t x :
  wf_dataset nc nt d -> regression_tree_new d cfg = Ok t -> nc <= length x ->
  exists ld, find_leaf_node_for_data x t = Ok (mkRL (Some ld)) /\
    samples ld = filter (fun p => forallb (fun q => Bool.eqb (answers q (fst p)) (answers q x)) (path x t)) (samples d).
Proof.
  intros W. rewrite regression_tree_new_eq. intros E Hx. apply build_with_built in E.
  destruct (built_lookup cfg nc nt 0 d t x E W Hx) as (ld & H1 & H2 & _). eauto.
Qed.

Theorem training_row_in_its_leaf nc nt d cfg t row label :
  wf_dataset nc nt d -> regression_tree_new d cfg = Ok t -> In (row, label) (samples d) ->
  exists ld, find_leaf_node_for_data row t = Ok (mkRL (Some ld)) /\ In (row, label) (samples ld).
Proof.
  intros W E Hin. destruct (leaf_on_path nc nt d cfg t row W E) as (ld & H1 & H2).
  - pose proof (wf_rows _ _ _ W) as Hr. unfold rectangular in Hr. rewrite Forall_forall in Hr.
    rewrite (Hr row); auto. now apply in_combine_l in Hin.
  - exists ld. split; auto. rewrite H2. apply filter_In. split; auto. apply forallb_forall. intros q _. apply eqb_reflx.
Qed.

(** C25 *)
Theorem grad_boost_is_regression d cfg kind :
  standard cfg ->
  grad_boost_tree_new d cfg (leaf_output_calculator_new kind) =
  (t <- regression_tree_new d cfg;;
   tree_mapM (fun l => x <- unwrap (rl_data l);; o <- leaf_output_calculator_new kind x;; Ok (mkGL (Some o))) t).
Proof.
  intros Hs. rewrite grad_boost_tree_new_eq, regression_tree_new_eq.
  apply build_with_mapM; auto; try (unfold fuel_for; lia).
  - apply standard_fuel; auto.
  - apply mk_gb_fuel.
Qed.
Theorem amg_is_regression d cfg kind :
  standard cfg ->
  amg_boost_tree_new d cfg (leaf_output_calculator_new kind) =
  (t <- regression_tree_new d cfg;;
   tree_mapM (fun l => x <- unwrap (rl_data l);; o <- leaf_output_calculator_new kind x;;
     Ok (mkAL (Some (fst (find_max_value_and_index_from_vector o)))
              (Some (snd (find_max_value_and_index_from_vector o))))) t).
Proof.
  intros Hs. rewrite amg_boost_tree_new_eq, regression_tree_new_eq.
  apply build_with_mapM; auto; try (unfold fuel_for; lia).
  - apply standard_fuel; auto.
  - apply mk_amg_fuel.
  - intros x. simpl. unfold mk_amg, amg_leaf_of. destruct (leaf_output_calculator_new kind x); simpl; auto.
    destruct (find_max_value_and_index_from_vector _); reflexivity.
Qed.

(** C26 *)
Theorem deeper_refines nc nt d cfg m n t :
  wf_dataset nc nt d -> (m <= n)%N -> regression_tree_new d (with_levels n cfg) = Ok t ->
  exists t', regression_tree_new d (with_levels m cfg) = Ok t' /\ cut_at (N.to_nat m) t t'.
Proof.
  intros W Hmn. rewrite !regression_tree_new_eq. intros E. apply build_with_built in E.
  destruct (built_cut (with_levels m cfg) _ nc nt 0 d t E W) as (t' & B & C); auto; try (cbn [with_levels tc_max_levels]; lia).
  exists t'. cbn [with_levels tc_max_levels] in C. rewrite N.sub_0_r in C. split; auto.
  apply (built_build_with _ _ _ _ _ B). unfold fuel_for. lia.
Qed.

(** C15 *)
Theorem transform_tree D phi nc nt d cfg t :
  increasing_on D phi -> wf_dataset nc nt d -> Forall (row_in D) (feature_rows d) ->
  standard cfg -> tc_number_of_classes cfg = N.of_nat nt -> regression_tree_new d cfg = Ok t ->
  exists t', regression_tree_new (transform phi d) cfg = Ok t' /\ transformed phi t t' /\
    (forall row, row_in D row -> nc <= length row ->
      exists ld, find_leaf_node_for_data row t = Ok (mkRL (Some ld)) /\
        find_leaf_node_for_data (transform_row phi row) t' = Ok (mkRL (Some (transform phi ld)))) /\
    (forall row, row_in D row -> nc <= length row ->
      predict_class (transform_row phi row) t' = predict_class row t) /\
    (forall test, Forall (row_in D) (feature_rows test) -> Forall (fun r => nc <= length r) (feature_rows test) ->
      calculate_accuracy (transform phi test) t' = calculate_accuracy test t /\
      calculate_overall_mean_squared_error (transform phi test) t' = calculate_overall_mean_squared_error test t).
Proof.
  intros Hphi W Hin Hs Hk. rewrite !regression_tree_new_eq. intros E. apply build_with_built in E.
  destruct (built_transform LW D phi Hphi cfg nc nt 0 d t Hs Hk E W Hin) as (t' & B & T & Hl).
  exists t'. split. { apply (built_build_with _ _ _ _ _ B). unfold fuel_for. lia. }
  split; auto. split; auto.
  assert (Hp : forall row, row_in D row -> nc <= length row -> predict_class (transform_row phi row) t' = predict_class row t).
  { intros row Hr Hlen. destruct (Hl row Hr Hlen) as (ld & E1 & E2). unfold predict_class. rewrite E1, E2. reflexivity. }
  split; auto. intros test Ht Hn.
  assert (Hrow : forall i, idx (feature_rows (transform phi test)) i = (r <- idx (feature_rows test) i;; Ok (transform_row phi r))).
  { intros i. unfold idx. cbn. rewrite nth_error_map. now destruct (nth_error (feature_rows test) i). }
  split.
  - unfold calculate_accuracy. replace (length (feature_rows (transform phi test))) with (length (feature_rows test))
      by (cbn; now rewrite map_length).
    f_equal. apply for_range_ext. intros acc i Hi. rewrite Hrow. destruct (idx (feature_rows test) i) as [row| |] eqn:Ei; simpl; auto.
    apply idx_Ok in Ei. apply nth_error_In in Ei. rewrite Forall_forall in Ht, Hn. rewrite Hp; auto.
  - unfold calculate_overall_mean_squared_error. replace (length (feature_rows (transform phi test))) with (length (feature_rows test))
      by (cbn; now rewrite map_length).
    f_equal. apply for_range_ext. intros acc i Hi. rewrite Hrow. destruct (idx (feature_rows test) i) as [row| |] eqn:Ei; simpl; auto.
    apply idx_Ok in Ei. apply nth_error_In in Ei. rewrite Forall_forall in Ht, Hn.
    destruct (Hl row (Ht row Ei) (Hn row Ei)) as (ld & E1 & E2). rewrite E1, E2. reflexivity.
Qed.

End Tree3.
