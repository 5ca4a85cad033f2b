(** Property C62: the order of the training rows, in binary64 arithmetic with integer labels, on every platform. *)
From Coq Require Import Permutation ZArith.
From Flocq Require Import IEEE754.BinarySingleNaN.
From Verif Require Import Base Num ModelCommon ModelTree Spec SpecTree SpecOrder F64 SpecInt ProofOrderInt Decide Check Demo DemoInt DemoOrder.

Theorem C62_same_split (P : platform) (M : Z) (nc nt : nat) (d d' : @dataset (f64_ops P)) :
  wf_dataset nc nt d -> wf_dataset nc nt d' -> integer_labels M d -> sums_fit M d -> float_ties_agree d ->
  Permutation (samples d) (samples d') -> find_best_split d' (N.of_nat nt) = find_best_split d (N.of_nat nt).
Proof. exact (fun W W' HI HF HT HP => int_split_order P M (proj1 HF) nc nt d d' W W' (conj HI (conj HF HT)) HP). Qed.
Print Assumptions C62_same_split.

Theorem C62_regression_tree (P : platform) (M : Z) (nc nt : nat) (d d' : @dataset (f64_ops P)) (cfg : @tree_config (f64_ops P))
    (t t' : @tree_node (f64_ops P) (@regression_leaf (f64_ops P))) :
  wf_dataset nc nt d -> wf_dataset nc nt d' -> integer_labels M d -> sums_fit M d -> float_ties_agree d ->
  Permutation (samples d) (samples d') -> standard cfg -> tc_number_of_classes cfg = N.of_nat nt ->
  regression_tree_new d cfg = Ok t -> regression_tree_new d' cfg = Ok t' -> same_questions same_samples t t'.
Proof.
  exact (fun W W' HI HF HT HP Hs Hk => int_regression_order P M (proj1 HF) nc nt d d' cfg W W' (conj HI (conj HF HT)) HP Hs Hk t t').
Qed.
Print Assumptions C62_regression_tree.

Theorem C62_regression_tree_answers (P : platform) (M : Z) (nc nt : nat) (d d' : @dataset (f64_ops P)) (cfg : @tree_config (f64_ops P))
    (t t' : @tree_node (f64_ops P) (@regression_leaf (f64_ops P))) :
  wf_dataset nc nt d -> wf_dataset nc nt d' -> integer_labels M d -> sums_fit M d -> float_ties_agree d ->
  Permutation (samples d) (samples d') -> standard cfg -> tc_number_of_classes cfg = N.of_nat nt ->
  regression_tree_new d cfg = Ok t -> regression_tree_new d' cfg = Ok t' ->
  (forall row, predict_class row t' = predict_class row t) /\
  (forall test, calculate_accuracy test t' = calculate_accuracy test t) /\
  (forall test, calculate_overall_mean_squared_error test t' = calculate_overall_mean_squared_error test t).
Proof.
  exact (fun W W' HI HF HT HP Hs Hk => int_regression_answers P M (proj1 HF) nc nt d d' cfg W W' (conj HI (conj HF HT)) HP Hs Hk t t').
Qed.
Print Assumptions C62_regression_tree_answers.

Theorem C62_boosted_trees (P : platform) (M : Z) (nc nt : nat) (d d' : @dataset (f64_ops P)) (cfg : @tree_config (f64_ops P)) :
  wf_dataset nc nt d -> wf_dataset nc nt d' -> integer_labels M d -> sums_fit M d -> float_ties_agree d ->
  Permutation (samples d) (samples d') -> standard cfg -> tc_number_of_classes cfg = N.of_nat nt ->
  grad_boost_tree_new d' cfg (leaf_output_calculator_new Regression) = grad_boost_tree_new d cfg (leaf_output_calculator_new Regression) /\
  amg_boost_tree_new d' cfg (leaf_output_calculator_new Regression) = amg_boost_tree_new d cfg (leaf_output_calculator_new Regression).
Proof.
  exact (fun W W' HI HF HT HP Hs Hk => conj (int_grad_boost_order P M (proj1 HF) nc nt d d' cfg W W' (conj HI (conj HF HT)) HP Hs Hk)
                                            (int_amg_order P M (proj1 HF) nc nt d d' cfg W W' (conj HI (conj HF HT)) HP Hs Hk)).
Qed.
Print Assumptions C62_boosted_trees.

Example C62_example :
  let O := f64_ops taylor_platform in
  @wf_dataset O 1 2 four /\ @wf_dataset O 1 2 four' /\ integer_labels 1 four /\ sums_fit 1 four /\ float_ties_agree four /\
  Permutation (samples four) (samples four') /\ @standard O (four_cfg 3 false) /\
  (b <- @find_best_split O four' 2;; Ok (bs_question b)) = Ok (Question 0 (n64 3)) /\
  (t <- @regression_tree_new O four' (four_cfg 3 false);; predict_class [n64 4] t) = Ok [n64 1; n64 0].
Proof.
  split; [check_wf|]. split; [check_wf|]. split; [exact four_integer|]. split; [exact four_fits|]. split; [exact four_ties|].
  split; [exact four_permuted|]. split; [reflexivity|]. split; compute_eq.
Qed.
