(** Model of the crate [multi-target-grad-boost] (/repo/multi-target-grad-boost/src). *)
From Verif Require Import Base Num ModelCommon ModelTree.

Section Boost.
Context {O : NumOps}.

(* ------------------------------------------------------------------ *)
(** ** ensembles/boosting_types.rs *)

(** boosting_types.rs:8-30: BoostingResult and the three model structs have the same three fields. *)
Record model (L : Type) := mkModel {
  m_trees : list (tree_node L);
  m_initial_guess : list F;
  m_learning_rate : F }.
Arguments mkModel {L}. Arguments m_trees {L}. Arguments m_initial_guess {L}. Arguments m_learning_rate {L}.

Definition regression_boost_model := model grad_boost_leaf.
Definition multi_class_boost_model := model grad_boost_leaf.
Definition amg_boost_model := model amg_leaf.

(** boosting_types.rs:32-36 *)
Inductive ensemble_type := AMGBoost | MultiClassBoost | RegressionBoost.

(** boosting_types.rs:48-52 *)
Record training_data := mkTD {
  td_data : dataset;
  td_labels : list (list F);     (* mutable_labels *)
  td_size : nat }.

Definition with_labels (d : dataset) (l : list (list F)) : dataset :=
  mkDS (feature_rows d) l (feature_columns d).

(* ------------------------------------------------------------------ *)
(** ** ensembles/common_boosting_functions.rs *)

(** common_boosting_functions.rs:11-18 *)
Definition update_dataset_labels_with_initial_guess (mutable_labels : list (list F))
    (initial_guess : list F) : res (list (list F)) :=
  for_range (length mutable_labels) (fun ml i => upd ml i initial_guess) mutable_labels.

(** [leaf_output.into_iter().map(|x| learning_rate * x)], common_boosting_functions.rs:30-33, 73-76 *)
Definition weighted (learning_rate : F) (leaf_output : list F) : list F :=
  map (fun x => fmul learning_rate x) leaf_output.

(** common_boosting_functions.rs:21-37 *)
Definition update_dataset_labels (td : training_data) (tree : tree_node grad_boost_leaf)
    (learning_rate : F) : res training_data :=
  ml <- for_range (td_size td) (fun ml i =>
    row <- idx (feature_rows (td_data td)) i;;
    leaf_data <- find_leaf_node_for_data row tree;;
    leaf_output <- unwrap (gl_output leaf_data);;
    let weighted_leaf_output := weighted learning_rate leaf_output in
    current <- idx ml i;;
    new <- add_f64_slices_as_vector current weighted_leaf_output;;
    upd ml i new) (td_labels td);;
  Ok (mkTD (td_data td) ml (td_size td)).

(** common_boosting_functions.rs:64-80 *)
Definition collect_leaf_outputs_for_test_instance (row : list F)
    (trees : list (tree_node grad_boost_leaf)) (learning_rate : F) : res (list (list F)) :=
  for_range (length trees) (fun acc i =>
    t <- idx trees i;;
    leaf <- find_leaf_node_for_data row t;;
    leaf_output <- unwrap (gl_output leaf);;
    Ok (acc ++ [weighted learning_rate leaf_output])) [].

(** Loop at common_boosting_functions.rs:54-60 (and amg_boost_predict_functions.rs:20-26) *)
Definition add_leaf_outputs (initial_guess : list F) (outs : list (list F)) : res (list F) :=
  foldM (fun sum leaf_output =>
    for_range (length sum) (fun sum i =>
      s <- idx sum i;;
      x <- idx leaf_output i;;
      upd sum i (fadd s x)) sum) outs initial_guess.

(** common_boosting_functions.rs:46-61 *)
Definition predict_instance (row : list F) (trees : list (tree_node grad_boost_leaf))
    (initial_guess : list F) (learning_rate : F) : res (list F) :=
  outs <- collect_leaf_outputs_for_test_instance row trees learning_rate;;
  add_leaf_outputs initial_guess outs.

(* ------------------------------------------------------------------ *)
(** ** ensembles/boosting_loop.rs *)

(** boosting_loop.rs:40-55 *)
Definition determine_initial_guess (td : training_data) (ty : ensemble_type) : res (list F) :=
  l0 <- idx (td_labels td) 0;;
  let number_of_classes := f_of_nat (length l0) in
  match ty with
  | AMGBoost => Ok (repeat (fdiv f1 number_of_classes) (N.to_nat (f_to_usize number_of_classes)))
  | MultiClassBoost => Ok (repeat (fdiv f1 number_of_classes) (N.to_nat (f_to_usize number_of_classes)))
  | RegressionBoost => calculate_average_f64_vector (labels (td_data td))
  end.

(** boosting_types.rs:38-46 and boosting_loop.rs:11-38. The executor updates the training data in
    place and returns the trees; here it returns both. *)
Definition executor (L : Type) : Type :=
  training_data -> nat -> tree_config -> F -> res (training_data * list (tree_node L)).

Definition boosting_loop {L} (data : dataset) (cfg : tree_config) (number_of_iterations : nat)
    (learning_rate : F) (ty : ensemble_type) (exec : executor L) : res (model L) :=
  let td := mkTD data (labels data) (length (labels data)) in
  initial_guess <- determine_initial_guess td ty;;
  ml <- update_dataset_labels_with_initial_guess (td_labels td) initial_guess;;
  '(_, trees) <- exec (mkTD (td_data td) ml (td_size td)) number_of_iterations cfg learning_rate;;
  Ok (mkModel trees initial_guess learning_rate).

(** The shared loop shape of the three executors:
    [for _i in 0..number_of_iterations { residuals; tree; update; push }]. *)
Definition boosting_iterations {L} (residuals : training_data -> res (list (list F)))
    (fit : dataset -> res (tree_node L))
    (update : training_data -> tree_node L -> res training_data)
    (td : training_data) (number_of_iterations : nat)
  : res (training_data * list (tree_node L)) :=
  for_range number_of_iterations (fun acc _i =>
    let '(td, trees) := acc in
    r <- residuals td;;
    let learner_data := with_labels (td_data td) r in
    tree <- fit learner_data;;
    td' <- update td tree;;
    Ok (td', trees ++ [tree])) (td, []).

(* ------------------------------------------------------------------ *)
(** ** ensembles/RegressionBoost *)

(** regression_boost_executor_functions.rs:42-54; rayon map as [mapM]. *)
Definition calculate_residuals_regression (td : training_data) : res (list (list F)) :=
  mapM (fun i =>
    true_label <- idx (labels (td_data td)) i;;
    current_label <- idx (td_labels td) i;;
    subtract_f64_slices_as_vector true_label current_label) (seq 0 (td_size td)).

(** regression_boost_executor_functions.rs:18-40 *)
Definition regression_executor : executor grad_boost_leaf :=
  fun td number_of_iterations cfg learning_rate =>
    boosting_iterations calculate_residuals_regression
      (fun d => grad_boost_tree_new d cfg (leaf_output_calculator_new Regression))
      (fun td tree => update_dataset_labels td tree learning_rate)
      td number_of_iterations.

(** regression_boost_ensemble.rs:19-41 *)
Definition regression_boost_train (data : dataset) (cfg : tree_config) (number_of_iterations : nat)
    (learning_rate : F) : res regression_boost_model :=
  boosting_loop data cfg number_of_iterations learning_rate RegressionBoost regression_executor.

(** regression_boost_ensemble.rs:43-51 *)
Definition regression_boost_predict (m : regression_boost_model) (row : list F) : res (list F) :=
  predict_instance row (m_trees m) (m_initial_guess m) (m_learning_rate m).

(** The same loop in all three ensembles: regression_boost_ensemble.rs:53-62,
    multi_class_boost_ensemble.rs:53-62, amg_boost_ensemble.rs:58-67 *)
Definition calculate_all_predictions (predict : list F -> res (list F)) (test_set : dataset)
  : res (list (list F)) :=
  for_range (length (feature_rows test_set)) (fun acc i =>
    row <- idx (feature_rows test_set) i;;
    prediction <- predict row;;
    Ok (acc ++ [prediction])) [].

(** regression_boost_ensemble.rs:71-84 *)
Definition calculate_mean_squared_error (test_labels predictions : list (list F)) : res F :=
  total_error <- for_range (length test_labels) (fun total_error i =>
    l <- idx test_labels i;;
    p <- idx predictions i;;
    e <- mean_sum_of_squared_differences_between_f64_slices l p;;
    Ok (fadd total_error e)) f0;;
  Ok (fdiv total_error (f_of_nat (length test_labels))).

(** regression_boost_ensemble.rs:53-62 *)
Definition regression_boost_all_predictions (m : regression_boost_model) (test_set : dataset) :=
  calculate_all_predictions (regression_boost_predict m) test_set.

(** regression_boost_ensemble.rs:64-68 *)
Definition regression_boost_score (m : regression_boost_model) (test_set : dataset) : res F :=
  predictions <- regression_boost_all_predictions m test_set;;
  calculate_mean_squared_error (labels test_set) predictions.

(* ------------------------------------------------------------------ *)
(** ** ensembles/MultiClassBoosting/common_multi_class_boosting_functions.rs *)

(** common_multi_class_boosting_functions.rs:4-16 *)
Definition get_binary_prediction (prediction : list F) : res (list F) :=
  let '(_, max_index) :=
    fold_left (fun acc ie =>
      let '(max_seen, max_index) := acc in
      let '(index, element) := ie in
      if fltb max_seen element then (element, index) else (max_seen, max_index))
    (enumerate prediction) (fninf, 0) in
  upd (repeat f0 (length prediction)) max_index f1.

(** common_multi_class_boosting_functions.rs:18-33 *)
Definition calculate_accuracy_from_predictions (predictions : list (list F)) (test_set : dataset) : res F :=
  correct_count <- foldM (fun c ip =>
    let '(index, prediction) := ip in
    actual <- idx (labels test_set) index;;
    Ok (if vec_eqb prediction actual then fadd c f1 else c)) (enumerate predictions) f0;;
  Ok (fdiv correct_count (f_of_nat (length predictions))).

(** common_multi_class_boosting_functions.rs:61-71 *)
Definition calculate_probabilities_of_predictions (current_label : list F) : list F :=
  let exponentials := map fexp current_label in
  let s := fsum exponentials in
  multiply_f64_slice_by_f64_scalar (fdiv f1 s) exponentials.

(** common_multi_class_boosting_functions.rs:44-58; rayon map as [mapM]. *)
Definition calculate_residuals_multi_class (td : training_data) : res (list (list F)) :=
  mapM (fun i =>
    true_label <- idx (labels (td_data td)) i;;
    current_label <- idx (td_labels td) i;;
    let probabilities := calculate_probabilities_of_predictions current_label in
    subtract_f64_slices_as_vector true_label probabilities) (seq 0 (td_size td)).

(* ------------------------------------------------------------------ *)
(** ** ensembles/MultiClassBoosting/MultiClassBoost *)

(** multi_class_boost_executor_functions.rs:17-40 *)
Definition multi_class_executor : executor grad_boost_leaf :=
  fun td number_of_iterations cfg learning_rate =>
    boosting_iterations calculate_residuals_multi_class
      (fun d => grad_boost_tree_new d cfg (leaf_output_calculator_new MultiClassClassification))
      (fun td tree => update_dataset_labels td tree learning_rate)
      td number_of_iterations.

(** multi_class_boost_ensemble.rs:19-41 *)
Definition multi_class_boost_train (data : dataset) (cfg : tree_config) (number_of_iterations : nat)
    (learning_rate : F) : res multi_class_boost_model :=
  boosting_loop data cfg number_of_iterations learning_rate MultiClassBoost multi_class_executor.

(** The raw score computed inside multi_class_boost_ensemble.rs:43-49 *)
Definition multi_class_boost_raw (m : multi_class_boost_model) (row : list F) : res (list F) :=
  predict_instance row (m_trees m) (m_initial_guess m) (m_learning_rate m).

(** multi_class_boost_ensemble.rs:43-51 *)
Definition multi_class_boost_predict (m : multi_class_boost_model) (row : list F) : res (list F) :=
  prediction <- multi_class_boost_raw m row;;
  get_binary_prediction prediction.

(** multi_class_boost_ensemble.rs:53-62 *)
Definition multi_class_boost_all_predictions (m : multi_class_boost_model) (test_set : dataset) :=
  calculate_all_predictions (multi_class_boost_predict m) test_set.

(** multi_class_boost_ensemble.rs:64-67 *)
Definition multi_class_boost_score (m : multi_class_boost_model) (test_set : dataset) : res F :=
  predictions <- multi_class_boost_all_predictions m test_set;;
  calculate_accuracy_from_predictions predictions test_set.

(* ------------------------------------------------------------------ *)
(** ** ensembles/MultiClassBoosting/AMGBoost *)

(** amg_boost_ensemble.rs:76-78 *)
Definition calculate_approximate_value (max_value number_of_classes : F) : F :=
  fdiv (fneg max_value) (fsub number_of_classes f1).

(** amg_boost_executor_functions.rs:70-83 *)
Definition get_weighted_amg_boost_leaf_values (row : list F) (tree : tree_node amg_leaf)
    (learning_rate number_of_classes : F) : res (F * F * nat) :=
  leaf_data <- find_leaf_node_for_data row tree;;
  max_value <- unwrap (al_max leaf_data);;
  let weighted_max_value := fmul learning_rate max_value in
  let weighted_non_max_value :=
    fmul learning_rate (calculate_approximate_value max_value number_of_classes) in
  max_value_index <- unwrap (al_class leaf_data);;
  Ok (weighted_max_value, weighted_non_max_value, max_value_index).

(** amg_boost_executor_functions.rs:39-68 *)
Definition amg_update_dataset_labels (td : training_data) (tree : tree_node amg_leaf)
    (learning_rate : F) : res training_data :=
  ml0 <- idx (td_labels td) 0;;
  let number_of_classes := length ml0 in
  ml <- for_range (td_size td) (fun ml i =>
    row <- idx (feature_rows (td_data td)) i;;
    '(weighted_max_value, weighted_non_max_value, max_value_index) <-
      get_weighted_amg_boost_leaf_values row tree learning_rate (f_of_nat number_of_classes);;
    current_label <- idx ml i;;
    c <- idx current_label max_value_index;;
    current_label <- upd current_label max_value_index (fadd c weighted_max_value);;
    current_label <- for_range number_of_classes (fun cl j =>
      if negb (j =? max_value_index) then
        x <- idx cl j;; upd cl j (fadd x weighted_non_max_value)
      else Ok cl) current_label;;
    upd ml i current_label) (td_labels td);;
  Ok (mkTD (td_data td) ml (td_size td)).

(** amg_boost_executor_functions.rs:17-37 *)
Definition amg_executor : executor amg_leaf :=
  fun td number_of_iterations cfg learning_rate =>
    boosting_iterations calculate_residuals_multi_class
      (fun d => amg_boost_tree_new d cfg (leaf_output_calculator_new MultiClassClassification))
      (fun td tree => amg_update_dataset_labels td tree learning_rate)
      td number_of_iterations.

(** amg_boost_predict_functions.rs:48-58 *)
Definition construct_approximate_leaf_output (leaf_data : amg_leaf) (number_of_classes : nat)
  : res (list F) :=
  max_value <- unwrap (al_max leaf_data);;
  max_value_class <- unwrap (al_class leaf_data);;
  let non_max_value := calculate_approximate_value max_value (f_of_nat number_of_classes) in
  upd (repeat non_max_value number_of_classes) max_value_class max_value.

(** amg_boost_predict_functions.rs:29-46 *)
Definition amg_collect_leaf_outputs_for_test_instance (row : list F)
    (trees : list (tree_node amg_leaf)) (learning_rate : F) (number_of_classes : nat)
  : res (list (list F)) :=
  for_range (length trees) (fun acc i =>
    t <- idx trees i;;
    leaf <- find_leaf_node_for_data row t;;
    leaf_output <- construct_approximate_leaf_output leaf number_of_classes;;
    Ok (acc ++ [weighted learning_rate leaf_output])) [].

(** amg_boost_predict_functions.rs:7-27 *)
Definition amg_predict_instance (row : list F) (trees : list (tree_node amg_leaf))
    (initial_guess : list F) (learning_rate : F) (number_of_classes : nat) : res (list F) :=
  outs <- amg_collect_leaf_outputs_for_test_instance row trees learning_rate number_of_classes;;
  add_leaf_outputs initial_guess outs.

(** amg_boost_ensemble.rs:22-44 *)
Definition amg_boost_train (data : dataset) (cfg : tree_config) (number_of_iterations : nat)
    (learning_rate : F) : res amg_boost_model :=
  boosting_loop data cfg number_of_iterations learning_rate AMGBoost amg_executor.

(** The raw score computed inside amg_boost_ensemble.rs:46-54 *)
Definition amg_boost_raw (m : amg_boost_model) (row : list F) : res (list F) :=
  amg_predict_instance row (m_trees m) (m_initial_guess m) (m_learning_rate m)
    (length (m_initial_guess m)).

(** amg_boost_ensemble.rs:46-56 *)
Definition amg_boost_predict (m : amg_boost_model) (row : list F) : res (list F) :=
  prediction <- amg_boost_raw m row;;
  get_binary_prediction prediction.

(** amg_boost_ensemble.rs:58-67 *)
Definition amg_boost_all_predictions (m : amg_boost_model) (test_set : dataset) :=
  calculate_all_predictions (amg_boost_predict m) test_set.

(** amg_boost_ensemble.rs:69-72 *)
Definition amg_boost_score (m : amg_boost_model) (test_set : dataset) : res F :=
  predictions <- amg_boost_all_predictions m test_set;;
  calculate_accuracy_from_predictions predictions test_set.

End Boost.
Arguments mkModel {O L}. Arguments m_trees {O L}. Arguments m_initial_guess {O L}. Arguments m_learning_rate {O L}.
