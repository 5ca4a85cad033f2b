(** The repository's test on the wine data, replayed on the model (see Conform.v). *)
From Flocq Require Import IEEE754.BinarySingleNaN.
From Verif Require Import Base Num ModelCommon ModelTree ModelBoost F64 Decide ConformData Conform.
Local Open Scope nat_scope.
Local Existing Instance O.

(** tests/integration_tests.rs:81-101 *)
Example test_decision_tree_for_wine :
  (d <- read_csv_data_one_hot_multi_target wine_train 3;; t <- regression_tree_new d (config 3);;
   test <- read_csv_data_one_hot_multi_target wine_test 3;;
   accuracy <- calculate_accuracy test t;; Ok (fltb (dec (80, 2)%Z) accuracy)) = Ok true.
Proof. compute_eq. Qed.
