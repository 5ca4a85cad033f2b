(** Property C70: the order of the feature columns, in binary64 arithmetic on every platform. *)
From Flocq Require Import IEEE754.BinarySingleNaN.
From Verif Require Import Base Num ModelCommon ModelTree ModelBoost Spec SpecTree SpecColumns F64 ProofColumns DemoColumns Demo.
Local Open Scope nat_scope.

(** The best gain does not depend on the order of the columns, not even in its last bit. *)
Theorem C70_gain (P : platform) (order : list nat) (nc nt : nat) (d : dataset) (b b' : best_split) :
  column_order nc order -> wf_dataset nc nt d ->
  find_best_split d (N.of_nat nt) = Ok b -> find_best_split (reorder order d) (N.of_nat nt) = Ok b' ->
  bs_gain b' = bs_gain b.
Proof. exact (fun Ho => reorder_gain (f64_laws P) (f64_positive_eq P) order nc Ho nt d b b'). Qed.
Print Assumptions C70_gain.

(** Where one column is strictly best, the same question is asked about it, wherever it stands. *)
Theorem C70_question (P : platform) (order : list nat) (nc nt : nat) (d : dataset) (b : best_split) (c : nat) :
  column_order nc order -> wf_dataset nc nt d -> clear_winner nc nt d c ->
  find_best_split d (N.of_nat nt) = Ok b -> fltb f0 (bs_gain b) = true ->
  q_column (bs_question b) = N.of_nat c /\ c < nc /\
  find_best_split (reorder order d) (N.of_nat nt) =
    Ok (mkBS (bs_gain b) (Question (N.of_nat (position order c)) (q_value (bs_question b)))).
Proof. exact (fun Ho => reorder_question (f64_laws P) (f64_positive_eq P) order nc Ho nt d b c). Qed.
Print Assumptions C70_question.

(** If that is so at each question of the tree, training on reordered data gives the same tree up to column numbers, the
    same predictions for reordered rows and the same scores on reordered test data, bit for bit. *)
Theorem C70_regression_tree (P : platform) (order : list nat) (nc nt : nat) (d : dataset) (cfg : tree_config)
    (t t' : tree_node regression_leaf) :
  column_order nc order -> wf_dataset nc nt d -> standard cfg -> tc_number_of_classes cfg = N.of_nat nt ->
  regression_tree_new d cfg = Ok t -> decisive nc nt d t -> regression_tree_new (reorder order d) cfg = Ok t' ->
  same_but_columns order (reordered_leaf order) t t' /\
  (forall row p, length row = nc -> predict_class row t = Ok p -> predict_class (reorder_row order row) t' = Ok p) /\
  (forall test, rectangular nc (feature_rows test) ->
    (forall a, calculate_accuracy test t = Ok a -> calculate_accuracy (reorder order test) t' = Ok a) /\
    (forall e, calculate_overall_mean_squared_error test t = Ok e ->
               calculate_overall_mean_squared_error (reorder order test) t' = Ok e)).
Proof. exact (fun Ho => reorder_tree (f64_laws P) (f64_positive_eq P) order nc Ho nt d cfg t t'). Qed.
Print Assumptions C70_regression_tree.

Theorem C70_grad_boost_tree (P : platform) (order : list nat) (nc nt : nat) (d : dataset) (cfg : tree_config)
    (kind : leaf_output_type) (t t' : tree_node grad_boost_leaf) :
  column_order nc order -> wf_dataset nc nt d -> standard cfg -> tc_number_of_classes cfg = N.of_nat nt ->
  grad_boost_tree_new d cfg (leaf_output_calculator_new kind) = Ok t -> decisive nc nt d t ->
  grad_boost_tree_new (reorder order d) cfg (leaf_output_calculator_new kind) = Ok t' ->
  same_but_columns order eq t t' /\
  (forall row l, length row = nc -> find_leaf_node_for_data row t = Ok l ->
     find_leaf_node_for_data (reorder_row order row) t' = Ok l).
Proof. exact (fun Ho => reorder_gb (f64_laws P) (f64_positive_eq P) order nc Ho nt d cfg kind t t'). Qed.
Print Assumptions C70_grad_boost_tree.

Theorem C70_amg_tree (P : platform) (order : list nat) (nc nt : nat) (d : dataset) (cfg : tree_config)
    (kind : leaf_output_type) (t t' : tree_node amg_leaf) :
  column_order nc order -> wf_dataset nc nt d -> standard cfg -> tc_number_of_classes cfg = N.of_nat nt ->
  amg_boost_tree_new d cfg (leaf_output_calculator_new kind) = Ok t -> decisive nc nt d t ->
  amg_boost_tree_new (reorder order d) cfg (leaf_output_calculator_new kind) = Ok t' ->
  same_but_columns order eq t t' /\
  (forall row l, length row = nc -> find_leaf_node_for_data row t = Ok l ->
     find_leaf_node_for_data (reorder_row order row) t' = Ok l).
Proof. exact (fun Ho => reorder_amg (f64_laws P) (f64_positive_eq P) order nc Ho nt d cfg kind t t'). Qed.
Print Assumptions C70_amg_tree.

(** A tree with questions about both columns that meets the hypotheses, and its first question before and after. *)
Example C70_example :
  column_order 2 swap /\ wf_dataset 2 1 mixed /\
  (exists t, regression_tree_new mixed mixed_cfg = Ok t /\ decisive 2 1 mixed t) /\
  root_question (regression_tree_new mixed mixed_cfg) = Ok (0%N, n64 3) /\
  root_question (regression_tree_new (reorder swap mixed) mixed_cfg) = Ok (1%N, n64 3).
Proof. exact (conj swap_order (conj mixed_wf (conj mixed_decisive mixed_questions))). Qed.

(** With ties the order matters: the first of two equally good columns is asked about, and predictions differ. *)
Theorem C70_ties_break_by_position :
  exists (P : platform) (order : list nat) (d : @dataset (f64_ops P)) (cfg : tree_config) (row p p' : list f64),
    column_order 2 order /\ wf_dataset 2 2 d /\
    (t <- regression_tree_new d cfg;; predict_class row t) = Ok p /\
    (t <- regression_tree_new (reorder order d) cfg;; predict_class (reorder_row order row) t) = Ok p' /\ p <> p'.
Proof. exact tied_differ. Qed.
Print Assumptions C70_ties_break_by_position.
