(** Property C72: repeating every training row, in exact arithmetic (and why not in binary64). *)
From Coq Require Import Permutation Reals ZArith.
From Verif Require Import Base Num ModelCommon ModelTree ModelBoost Spec SpecTree SpecOrder SpecCopies F64 XR SpecExact SpecClass
  ProofCopies DemoOrder DemoCopies.
Local Open Scope R_scope.

(* ------------------------------------------------------------------ *)
(** ** C72 *)

(** The same question and gain, ties between rows or not. *)
Theorem C72_question (m nc nt : nat) (d : @dataset xr_ops) (ls : list (list R)) :
  (0 < m)%nat -> wf_dataset nc nt d -> real_labels ls d ->
  find_best_split (repeat_rows m d) (N.of_nat nt) = find_best_split d (N.of_nat nt).
Proof. exact (fun Hm => split_repeat m Hm nc nt d ls). Qed.
Print Assumptions C72_question.

(** The same tree; each leaf holds the same rows, [m] times. *)
Theorem C72_regression_tree (m nc nt : nat) (d : @dataset xr_ops) (ls : list (list R)) (cfg : tree_config) (t t' : tree_node regression_leaf) :
  (0 < m)%nat -> wf_dataset nc nt d -> real_labels ls d -> standard cfg -> tc_number_of_classes cfg = N.of_nat nt ->
  regression_tree_new d cfg = Ok t -> regression_tree_new (repeat_rows m d) cfg = Ok t' -> same_questions (repeated_leaf m) t t'.
Proof. exact (fun Hm W Hl Hs Hk => regression_repeat m Hm nc nt d cfg ls W Hl Hs Hk t t'). Qed.
Print Assumptions C72_regression_tree.

Theorem C72_regression_tree_answers (m nc nt : nat) (d : @dataset xr_ops) (ls : list (list R)) (cfg : tree_config)
    (t t' : tree_node regression_leaf) :
  (0 < m)%nat -> wf_dataset nc nt d -> real_labels ls d -> standard cfg -> tc_number_of_classes cfg = N.of_nat nt ->
  (0 < nt)%nat -> (Z.of_nat nt <= 2 ^ 53)%Z ->
  regression_tree_new d cfg = Ok t -> regression_tree_new (repeat_rows m d) cfg = Ok t' ->
  (forall row, predict_class row t' = predict_class row t) /\
  (forall test, calculate_accuracy test t' = calculate_accuracy test t) /\
  (forall test, calculate_overall_mean_squared_error test t' = calculate_overall_mean_squared_error test t).
Proof. exact (fun Hm W Hl Hs Hk => regression_repeat_answers m Hm nc nt d cfg ls W Hl Hs Hk t t'). Qed.
Print Assumptions C72_regression_tree_answers.

Theorem C72_boosted_trees (m nc nt : nat) (d : @dataset xr_ops) (ls : list (list R)) (cfg : tree_config) (kind : leaf_output_type) :
  (0 < m)%nat -> wf_dataset nc nt d -> real_labels ls d -> standard cfg -> tc_number_of_classes cfg = N.of_nat nt ->
  grad_boost_tree_new (repeat_rows m d) cfg (leaf_output_calculator_new kind) = grad_boost_tree_new d cfg (leaf_output_calculator_new kind) /\
  amg_boost_tree_new (repeat_rows m d) cfg (leaf_output_calculator_new kind) = amg_boost_tree_new d cfg (leaf_output_calculator_new kind).
Proof.
  exact (fun Hm W Hl Hs Hk => conj (grad_boost_repeat m Hm nc nt d cfg ls W Hl Hs Hk kind) (amg_repeat m Hm nc nt d cfg ls W Hl Hs Hk kind)).
Qed.
Print Assumptions C72_boosted_trees.

(** The same trained model, tree for tree. *)
Theorem C72_regression_ensemble (m nc nt : nat) (d : @dataset xr_ops) (ls : list (list R)) (cfg : tree_config) (n : nat) (lr : R) :
  (0 < m)%nat -> wf_dataset nc nt d -> real_labels ls d -> standard cfg -> tc_number_of_classes cfg = N.of_nat nt -> (Z.of_nat nt <= 2 ^ 53)%Z ->
  regression_boost_train (repeat_rows m d) cfg n (Fin lr) = regression_boost_train d cfg n (Fin lr).
Proof. exact (fun Hm W Hl Hs Hk Hz => regression_ensemble_repeat m Hm nc nt d cfg W Hs Hk n lr Hz ls Hl). Qed.
Print Assumptions C72_regression_ensemble.

Theorem C72_classification_ensembles (m nc nt : nat) (d : @dataset xr_ops) (cfg : tree_config) (n : nat) (lr : R) :
  (0 < m)%nat -> wf_dataset nc nt d -> (2 <= nt)%nat -> one_hot_labels nt d -> standard cfg -> tc_number_of_classes cfg = N.of_nat nt ->
  (Z.of_nat nt <= 2 ^ 53)%Z ->
  multi_class_boost_train (repeat_rows m d) cfg n (Fin lr) = multi_class_boost_train d cfg n (Fin lr) /\
  amg_boost_train (repeat_rows m d) cfg n (Fin lr) = amg_boost_train d cfg n (Fin lr).
Proof.
  exact (fun Hm W H2 HO Hs Hk Hz => conj (multi_class_repeat m Hm nc nt d cfg W Hs Hk n lr Hz H2 HO)
                                         (amg_ensemble_repeat m Hm nc nt d cfg W Hs Hk n lr Hz H2 HO)).
Qed.
Print Assumptions C72_classification_ensembles.

(** The copies in any order, if rows that share a feature value share their label. *)
Theorem C72_copies_in_any_order (m nc nt : nat) (d d' : @dataset xr_ops) (ls : list (list R)) (cfg : tree_config) :
  (0 < m)%nat -> wf_dataset nc nt d -> wf_dataset nc nt d' -> real_labels ls d -> ties_agree d ->
  Permutation (samples d') (copies m (samples d)) -> standard cfg -> tc_number_of_classes cfg = N.of_nat nt ->
  (forall kind,
     grad_boost_tree_new d' cfg (leaf_output_calculator_new kind) = grad_boost_tree_new d cfg (leaf_output_calculator_new kind) /\
     amg_boost_tree_new d' cfg (leaf_output_calculator_new kind) = amg_boost_tree_new d cfg (leaf_output_calculator_new kind)) /\
  (forall t t', (0 < nt)%nat -> (Z.of_nat nt <= 2 ^ 53)%Z -> regression_tree_new d cfg = Ok t -> regression_tree_new d' cfg = Ok t' ->
     (forall row, predict_class row t' = predict_class row t) /\
     (forall test, calculate_accuracy test t' = calculate_accuracy test t) /\
     (forall test, calculate_overall_mean_squared_error test t' = calculate_overall_mean_squared_error test t)).
Proof.
  exact (fun Hm W W' Hl Ht HP Hs Hk => conj (any_order_boosted m Hm nc nt d d' ls cfg W W' Hl Ht HP Hs Hk)
                                            (any_order_answers m Hm nc nt d d' ls cfg W W' Hl Ht HP Hs Hk)).
Qed.
Print Assumptions C72_copies_in_any_order.

Example C72_example : wf_dataset 2 2 blooms /\ real_labels blooms_labels blooms /\ one_hot_labels 2 blooms /\ ties_agree blooms /\
  samples (repeat_rows 2%nat blooms) <> samples blooms /\
  wf_dataset 2 2 blooms_twice /\ Permutation (samples blooms_twice) (copies 2%nat (samples blooms)).
Proof.
  split; [exact (proj1 blooms_wf)|]. split; [exact (proj2 blooms_wf)|]. split; [exact blooms_one_hot|].
  split; [exact (ProofOrderExact.distinct_ties blooms (labels blooms) blooms_distinct)|].
  split; [exact blooms_repeated|]. split; [exact blooms_twice_wf|exact blooms_twice_copies].
Qed.

(** In binary64 the claim fails: three copies of a row with label 0.1. *)
Theorem C72_binary64_counterexample :
  exists (P : platform) (d : @dataset (f64_ops P)) (cfg : @tree_config (f64_ops P)) (v v' : @F (f64_ops P)),
    let O := f64_ops P in
    wf_dataset 1%nat 1%nat d /\ standard cfg /\
    (m <- regression_boost_train d cfg 0%nat f1;; regression_boost_predict m [f0]) = Ok [v] /\
    (m <- regression_boost_train (repeat_rows 3%nat d) cfg 0%nat f1;; regression_boost_predict m [f0]) = Ok [v'] /\ fltb v v' = true.
Proof. exact copies_matter. Qed.
Print Assumptions C72_binary64_counterexample.
