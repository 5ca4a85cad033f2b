(** Property C100: the order of the feature columns and ensembles, in binary64 arithmetic on every platform. *)
From Coq Require Import ZArith.
From Flocq Require Import IEEE754.BinarySingleNaN.
From Verif Require Import Base Num ModelCommon ModelTree ModelBoost Spec SpecTree SpecScore SpecColumns SpecColumnsBoost F64
  ProofColumnsBoost DemoColumns DemoColumnsBoost Demo.
Local Open Scope nat_scope.
Local Existing Instance f64_ops.

(** [decisive_stages]: at each question of each tree, one column is strictly best on the residuals the tree was grown from. *)
Theorem C100_regression (P : platform) (order : list nat) (nc nt : nat) (d : dataset) (cfg : tree_config) (n : nat) (lr : F)
    (m : regression_boost_model) :
  column_order nc order -> wf_dataset nc nt d -> standard cfg -> tc_number_of_classes cfg = N.of_nat nt -> (Z.of_nat nt <= 2 ^ 53)%Z ->
  regression_boost_train d cfg n lr = Ok m ->
  decisive_stages regression_boost_predict (fun s => s) nc nt d m ->
  exists m', regression_boost_train (reorder order d) cfg n lr = Ok m' /\ same_ensemble_but_columns order m m' /\
  (forall row p, length row = nc -> regression_boost_predict m row = Ok p -> regression_boost_predict m' (reorder_row order row) = Ok p) /\
  (forall test e, rectangular nc (feature_rows test) -> regression_boost_score m test = Ok e -> regression_boost_score m' (reorder order test) = Ok e).
Proof. exact (fun Ho W Hs Hk Hn => regression_boost_reordered (f64_laws P) (f64_positive_eq P) order nc Ho nt d cfg n lr W Hs Hk Hn m). Qed.
Print Assumptions C100_regression.

Theorem C100_multi_class (P : platform) (order : list nat) (nc nt : nat) (d : dataset) (cfg : tree_config) (n : nat) (lr : F)
    (m : multi_class_boost_model) :
  column_order nc order -> wf_dataset nc nt d -> standard cfg -> tc_number_of_classes cfg = N.of_nat nt -> (Z.of_nat nt <= 2 ^ 53)%Z ->
  multi_class_boost_train d cfg n lr = Ok m ->
  decisive_stages multi_class_boost_raw softmax nc nt d m ->
  exists m', multi_class_boost_train (reorder order d) cfg n lr = Ok m' /\ same_ensemble_but_columns order m m' /\
  (forall row p, length row = nc -> multi_class_boost_predict m row = Ok p -> multi_class_boost_predict m' (reorder_row order row) = Ok p) /\
  (forall test e, rectangular nc (feature_rows test) -> multi_class_boost_score m test = Ok e -> multi_class_boost_score m' (reorder order test) = Ok e).
Proof. exact (fun Ho W Hs Hk Hn => multi_class_boost_reordered (f64_laws P) (f64_positive_eq P) order nc Ho nt d cfg n lr W Hs Hk Hn m). Qed.
Print Assumptions C100_multi_class.

Theorem C100_amg (P : platform) (order : list nat) (nc nt : nat) (d : dataset) (cfg : tree_config) (n : nat) (lr : F)
    (m : amg_boost_model) :
  column_order nc order -> wf_dataset nc nt d -> standard cfg -> tc_number_of_classes cfg = N.of_nat nt -> 0 < nt -> (Z.of_nat nt <= 2 ^ 53)%Z ->
  amg_boost_train d cfg n lr = Ok m ->
  decisive_stages amg_boost_raw softmax nc nt d m ->
  exists m', amg_boost_train (reorder order d) cfg n lr = Ok m' /\ same_ensemble_but_columns order m m' /\
  (forall row p, length row = nc -> amg_boost_predict m row = Ok p -> amg_boost_predict m' (reorder_row order row) = Ok p) /\
  (forall test e, rectangular nc (feature_rows test) -> amg_boost_score m test = Ok e -> amg_boost_score m' (reorder order test) = Ok e).
Proof. exact (fun Ho W Hs Hk Hp Hn => amg_boost_reordered (f64_laws P) (f64_positive_eq P) order nc Ho nt d cfg n lr W Hs Hk Hn m Hp). Qed.
Print Assumptions C100_amg.

(** With tied columns the order does change the answers of an ensemble. *)
Theorem C100_ties_break_by_position :
  exists (P : platform) (order : list nat) (d : @dataset (f64_ops P)) (cfg : tree_config) (row p p' : list f64),
    column_order 2 order /\ @wf_dataset (f64_ops P) 2 2 d /\
    (m <- regression_boost_train d cfg 1 (n64 1);; regression_boost_predict m row) = Ok p /\
    (m <- regression_boost_train (reorder order d) cfg 1 (n64 1);; regression_boost_predict m (reorder_row order row)) = Ok p' /\ p <> p'.
Proof. exact tied_boost_differ. Qed.
Print Assumptions C100_ties_break_by_position.

(** Ensembles of three trees of each kind that meet the hypotheses, and the first columns asked about before and after. *)
Example C100_example :
  let O := f64_ops taylor_platform in
  column_order 2 swap /\ @wf_dataset O 2 1 mixed /\ @wf_dataset O 2 3 mixed_classes /\
  (exists m, regression_boost_train mixed mixed_cfg 3 rate = Ok m /\ @decisive_stages O _ regression_boost_predict (fun s => s) 2 1 mixed m) /\
  (exists m, multi_class_boost_train mixed_classes mixed_classes_cfg 3 rate = Ok m /\ @decisive_stages O _ multi_class_boost_raw softmax 2 3 mixed_classes m) /\
  (exists m, amg_boost_train mixed_classes mixed_classes_cfg 3 rate = Ok m /\ @decisive_stages O _ amg_boost_raw softmax 2 3 mixed_classes m) /\
  first_columns (regression_boost_train mixed mixed_cfg 3 rate) = Ok [0%N; 0%N; 0%N] /\
  first_columns (regression_boost_train (reorder swap mixed) mixed_cfg 3 rate) = Ok [1%N; 1%N; 1%N].
Proof. exact (conj swap_order (conj mixed_wf (conj mixed_classes_wf (conj mixed_stages (conj mixed_class_stages (conj mixed_amg_stages mixed_boost_columns)))))). Qed.
