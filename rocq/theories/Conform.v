(** The repository's own tests, replayed on the model. These are tests of the model, not proofs: no theorem
    uses them. Every assertion of the unit and integration tests whose data files are in the repository
    appears here, except those on the 1348-row digits file. *)
From Flocq Require Import IEEE754.BinarySingleNaN.
From Verif Require Import Base Num ModelCommon ModelTree ModelBoost F64 Decide ConformData.
Local Open Scope nat_scope.

Local Instance O : NumOps := f64_ops demo_platform.

Definition n (k : Z) : f64 := f64_of_Z k.
(** A decimal literal: the correctly rounded quotient of its digits by a power of ten. *)
Definition dec (p : Z * Z) : f64 := Bdiv mode_NE (f64_of_Z (fst p)) (f64_of_Z (10 ^ snd p)).
Definition file header (records : list (list (Z * Z))) : option csv_file :=
  Some (mkCsv header (map (fun r => Some (map dec r)) records)).
Definition iris := file iris_header iris_records.
Definition iris_test := file iris_test_header iris_test_records.
Definition synthetic := file synthetic_1_header synthetic_1_records.
Definition wine_train := file wine_train_header wine_train_records.
Definition wine_test := file wine_test_header wine_test_records.

(** common/src/question.rs:28-54 *)
Example test_question_solve :
  solve (Question 0 (n 1)) [n 1; n 2; n 4] = Ok true /\ solve (Question 1 (n 5)) [n 1; n 2; n 4] = Ok false.
Proof. compute_eqs. Qed.

(** common/src/numerical_calculations.rs:83-107 *)
Example test_vector_math_functions :
  let v := [n 1; n 2; n 3] in
  add_f64_slices_as_vector v v = Ok [n 2; n 4; n 6] /\
  multiply_f64_slice_by_f64_scalar (n 2) v = [n 2; n 4; n 6] /\
  divide_f64_slices_as_vector v v = Ok [n 1; n 1; n 1] /\
  multiply_f64_slices_as_vector v v = Ok [n 1; n 4; n 9] /\
  calculate_average_f64_vector [v; v] = Ok v /\
  mean_sum_of_squared_differences_between_f64_slices v v = Ok (n 0) /\
  sum_of_f64_vectors [v; v] = Ok [n 2; n 4; n 6].
Proof. compute_eqs. Qed.

(** common/src/feature_sorter.rs:16-36 *)
Example test_get_sorted_feature_tuple_vector :
  (columns <- create_feature_columns [[n 10; n 2; n 1]; [n 6; n 2; n 2]; [n (-1); n 2; n 3]];;
   column <- idx columns 0;; get_sorted_feature_tuple_vector column) = Ok [(n (-1), 2); (n 6, 1); (n 10, 0)].
Proof. compute_eq. Qed.

(** common/src/data_reader.rs:122-136 *)
Example print_csv_reading_and_mt_one_hot_labels :
  (data_set <- read_csv_data iris;; mt_labels <- create_multi_target_labels (sd_labels data_set) 3;; idx mt_labels 0) =
  Ok [n 1; n 0; n 0].
Proof. compute_eq. Qed.

(** threshold_finder_variance.rs:207-230. The loss is compared with [==], as there. *)
Example test_best_threshold_for_particular_feature :
  let labels := [[n 1; n 0]; [n 1; n 0]; [n 0; n 1]] in
  (total <- get_multi_target_label_metrics labels 2;;
   columns <- create_feature_columns [[n 10; n 2; n 0]; [n 6; n 2; n 0]; [n 1; n 2; n 1]];;
   column <- idx columns 0;; best <- determine_best_threshold 3 labels column total 2;;
   Ok (feqb (bt_loss best) f0, bt_threshold best)) = Ok (true, n 6).
Proof. compute_eq. Qed.

(** threshold_finder_variance.rs:232-247 *)
Example test_best_threshold_for_particular_feature_in_iris :
  (d <- read_csv_data_one_hot_multi_target iris 3;; total <- get_multi_target_label_metrics (labels d) 3;;
   column <- idx (feature_columns d) 2;;
   best <- determine_best_threshold (length (labels d)) (labels d) column total 2;; Ok (bt_threshold best)) = Ok (n 30).
Proof. compute_eq. Qed.

(** split_finder_variance.rs:134-178 *)
Example test_find_best_split_dummy :
  let features := [[n 10; n 2; n 0]; [n 6; n 2; n 0]; [n 1; n 2; n 1]] in
  let labels := [[n 1; n 0]; [n 1; n 0]; [n 1; n 1]] in
  (columns <- create_feature_columns features;;
   b <- find_best_split (mkDS features labels columns) 2;; Ok (q_value (bs_question b))) = Ok (n 6) /\
  (columns <- create_feature_columns features;;
   s <- create_dataset_with_sorted_features (mkDS features labels columns);;
   b <- find_best_split_new_partition s labels 2 (length columns);; Ok (q_value (bs_question b))) = Ok (n 6).
Proof. compute_eqs. Qed.

(** split_finder_variance.rs:180-186 *)
Example test_find_first_best_split_iris :
  (d <- read_csv_data_one_hot_multi_target iris 3;; b <- find_best_split d 3;; Ok (bs_question b)) = Ok (Question 2 (n 30)).
Proof. compute_eq. Qed.

(** calculations.rs:135-148 *)
Example test_calculate_variance_vector :
  (m <- get_multi_target_label_metrics [[n 1; n 3; n 4]; [n 2; n 5; n 3]; [n 3; n (-5); n 7]] 3;;
   v <- calculate_variance_vector m (f_of_nat (length (lm_sum m))) 3;; idx v 0) = Ok (Bdiv mode_NE (n 2) (n 3)).
Proof. compute_eq. Qed.

Definition config (classes : N) : tree_config := mkTC (split_finder_new Variance) false classes 8.

(** scorer.rs:164-203, tests/integration_tests.rs:14-34: the class of one row and the accuracy on the test file *)
Example test_iris_tree :
  (d <- read_csv_data_one_hot_multi_target iris 3;; t <- regression_tree_new d (config 3);;
   c <- predict_class [n 58; n 27; n 51; n 19] t;;
   test <- read_csv_data_one_hot_multi_target iris_test 3;; accuracy <- calculate_accuracy test t;; Ok (c, accuracy)) =
  Ok ([n 0; n 0; n 1], n 1).
Proof. compute_eq. Qed.

(** tests/integration_tests.rs:36-56 *)
Example test_decision_tree_for_synthetic :
  (d <- read_csv_data_one_hot_multi_target synthetic 2;; t <- regression_tree_new d (config 2);;
   calculate_accuracy d t) = Ok (n 1).
Proof. compute_eq. Qed.
