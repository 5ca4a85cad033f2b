(** Property C61: the order of the training rows, in exact arithmetic. *)
From Coq Require Import Permutation Reals ZArith.
From Verif Require Import Base Num ModelCommon ModelTree ModelBoost Spec SpecTree SpecOrder XR SpecExact SpecClass ProofOrderExact DemoOrder.
Local Open Scope R_scope.

Theorem C61_regression_tree (nc nt : nat) (d d' : @dataset xr_ops) (ls : list (list R)) (cfg : tree_config) (t t' : tree_node regression_leaf) :
  wf_dataset nc nt d -> wf_dataset nc nt d' -> real_labels ls d -> ties_agree d -> Permutation (samples d) (samples d') ->
  standard cfg -> tc_number_of_classes cfg = N.of_nat nt ->
  regression_tree_new d cfg = Ok t -> regression_tree_new d' cfg = Ok t' -> same_questions same_samples t t'.
Proof. exact (exact_regression_order nc nt d d' ls cfg t t'). Qed.
Print Assumptions C61_regression_tree.

Theorem C61_regression_tree_answers (nc nt : nat) (d d' : @dataset xr_ops) (ls : list (list R)) (cfg : tree_config)
    (t t' : tree_node regression_leaf) :
  wf_dataset nc nt d -> wf_dataset nc nt d' -> real_labels ls d -> ties_agree d -> Permutation (samples d) (samples d') ->
  standard cfg -> tc_number_of_classes cfg = N.of_nat nt ->
  regression_tree_new d cfg = Ok t -> regression_tree_new d' cfg = Ok t' ->
  (forall row, predict_class row t' = predict_class row t) /\
  (forall test, calculate_accuracy test t' = calculate_accuracy test t) /\
  (forall test, calculate_overall_mean_squared_error test t' = calculate_overall_mean_squared_error test t).
Proof. exact (exact_regression_answers nc nt d d' ls cfg t t'). Qed.
Print Assumptions C61_regression_tree_answers.

Theorem C61_boosted_trees (nc nt : nat) (d d' : @dataset xr_ops) (ls : list (list R)) (cfg : tree_config) (kind : leaf_output_type) :
  wf_dataset nc nt d -> wf_dataset nc nt d' -> real_labels ls d -> ties_agree d -> Permutation (samples d) (samples d') ->
  standard cfg -> tc_number_of_classes cfg = N.of_nat nt ->
  grad_boost_tree_new d' cfg (leaf_output_calculator_new kind) = grad_boost_tree_new d cfg (leaf_output_calculator_new kind) /\
  amg_boost_tree_new d' cfg (leaf_output_calculator_new kind) = amg_boost_tree_new d cfg (leaf_output_calculator_new kind).
Proof.
  exact (fun W W' Hl Ht HP Hs Hk => conj (exact_grad_boost_order kind nc nt d d' ls cfg W W' Hl Ht HP Hs Hk)
                                         (exact_amg_order kind nc nt d d' ls cfg W W' Hl Ht HP Hs Hk)).
Qed.
Print Assumptions C61_boosted_trees.

(** The same trained model, tree for tree. *)
Theorem C61_regression_ensemble (nc nt : nat) (d d' : @dataset xr_ops) (ls : list (list R)) (cfg : tree_config) (n : nat) (lr : R) :
  wf_dataset nc nt d -> wf_dataset nc nt d' -> real_labels ls d -> distinct_above_minimum d ->
  Permutation (samples d) (samples d') -> standard cfg -> tc_number_of_classes cfg = N.of_nat nt -> (Z.of_nat nt <= 2 ^ 53)%Z ->
  regression_boost_train d' cfg n (Fin lr) = regression_boost_train d cfg n (Fin lr).
Proof. exact (exact_regression_boost_order nc nt d d' ls cfg n lr). Qed.
Print Assumptions C61_regression_ensemble.

Theorem C61_classification_ensembles (nc nt : nat) (d d' : @dataset xr_ops) (cfg : tree_config) (n : nat) (lr : R) :
  wf_dataset nc nt d -> wf_dataset nc nt d' -> (2 <= nt)%nat -> one_hot_labels nt d -> distinct_above_minimum d ->
  Permutation (samples d) (samples d') -> standard cfg -> tc_number_of_classes cfg = N.of_nat nt -> (Z.of_nat nt <= 2 ^ 53)%Z ->
  multi_class_boost_train d' cfg n (Fin lr) = multi_class_boost_train d cfg n (Fin lr) /\
  amg_boost_train d' cfg n (Fin lr) = amg_boost_train d cfg n (Fin lr).
Proof.
  exact (fun W W' H2 HO Hd HP Hs Hk Hz => conj (exact_multi_class_order nc nt d d' cfg n lr W W' H2 HO Hd HP Hs Hk Hz)
                                               (exact_amg_boost_order nc nt d d' cfg n lr W W' H2 HO Hd HP Hs Hk Hz)).
Qed.
Print Assumptions C61_classification_ensembles.

Example C61_example : wf_dataset 2 2 blooms /\ wf_dataset 2 2 blooms' /\ real_labels blooms_labels blooms /\
  distinct_above_minimum blooms /\ ties_agree blooms /\ one_hot_labels 2 blooms /\ Permutation (samples blooms) (samples blooms') /\
  samples blooms <> samples blooms'.
Proof.
  split; [exact (proj1 blooms_wf)|]. split; [exact blooms'_wf|]. split; [exact (proj2 blooms_wf)|]. split; [exact blooms_distinct|].
  split; [exact (distinct_ties blooms (labels blooms) blooms_distinct)|]. split; [exact blooms_one_hot|].
  split; [exact blooms_permuted|exact blooms_differ].
Qed.
