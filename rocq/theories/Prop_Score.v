(** Properties C30, C31, C41, C46 and C47 (accuracy): predictions and scores, in binary64 arithmetic on
    every platform. *)
From Coq Require Import Permutation Reals.
From Flocq Require Import IEEE754.BinarySingleNaN.
From Verif Require Import Base Num ModelCommon ModelTree ModelBoost Spec SpecTree SpecScore SpecF64 F64
  ProofScore ProofBoost ProofScoreF64 ProofScore2 Decide Check Demo.
Local Open Scope nat_scope.

(* ------------------------------------------------------------------ *)
(** ** C30 *)

(** The answer of a built tree: most votes among the training samples on the row's path. *)
Theorem C30_majority_class (P : platform) (nc nt : nat) (d : dataset) (cfg : tree_config)
    (t : tree_node regression_leaf) (row : list F) :
  wf_dataset nc nt d -> 0 < nt -> (Z.of_nat nt <= 2 ^ 53)%Z ->
  regression_tree_new d cfg = Ok t -> nc <= length row ->
  exists c v, predict_class row t = Ok v /\ one_hot nt (N.of_nat c) v /\
    most_votes nt (map snd (samples_like row t d)) c.
Proof. exact (majority_class (f64_laws P) nc nt d cfg t row). Qed.
Print Assumptions C30_majority_class.

(** The same for any tree, from the labels in the leaf the row reaches. *)
Theorem C30_majority_class_of_leaf (P : platform) (k : nat) (t : tree_node regression_leaf) (row : list F) (ld : dataset) :
  find_leaf_node_for_data row t = Ok (mkRL (Some ld)) ->
  labels ld <> [] -> rectangular k (labels ld) -> 0 < k -> (Z.of_nat k <= 2 ^ 53)%Z ->
  exists c v, predict_class row t = Ok v /\ one_hot k (N.of_nat c) v /\ most_votes k (labels ld) c.
Proof. exact (predict_class_leaf (f64_laws P) k t row ld). Qed.
Print Assumptions C30_majority_class_of_leaf.

(** At most one class and one vector fit that description. *)
Theorem C30_answer_is_unique (P : platform) (k c c' : nat) (ls : list (list F)) (v v' : list F) :
  (most_votes k ls c -> most_votes k ls c' -> c = c') /\
  (one_hot k (N.of_nat c) v -> one_hot k (N.of_nat c) v' -> v = v').
Proof. exact (conj (most_votes_unique k ls c c') (one_hot_unique k (N.of_nat c) v v')). Qed.
Print Assumptions C30_answer_is_unique.

(** No label equal to 1: class 0. *)
Theorem C30_no_votes_is_class_0 (P : platform) (k : nat) (ls : list (list F)) (c : nat) :
  (forall i, i < k -> votes ls i = 0) -> most_votes k ls c -> c = 0.
Proof. exact (no_votes k ls c). Qed.
Print Assumptions C30_no_votes_is_class_0.

Example C30_example :
  let O := f64_ops taylor_platform in
  wf_dataset 1 2 four /\
  (t <- regression_tree_new four (four_cfg 1 true);; predict_class [n64 4] t) = Ok [n64 1; n64 0] /\
  (t <- regression_tree_new four (four_cfg 1 true);; predict_class [] t) = Panic.
Proof. split; [check_wf|compute_eqs]. Qed.

(* ------------------------------------------------------------------ *)
(** ** C31 *)

Theorem C31_tree_accuracy_is_a_fraction (P : platform) (test : dataset) (t : tree_node regression_leaf) :
  length (labels test) = length (feature_rows test) -> feature_rows test <> [] ->
  (Z.of_nat (length (feature_rows test)) <= 2 ^ 53)%Z ->
  Forall (fun row => exists v, predict_class row t = Ok v) (feature_rows test) ->
  exists r, calculate_accuracy test t = Ok r /\
    is_fraction (length (correct_samples (fun row => predict_class row t) test)) (length (feature_rows test)) r.
Proof. exact (tree_accuracy_f64 P test t). Qed.
Print Assumptions C31_tree_accuracy_is_a_fraction.

Theorem C31_multi_class_accuracy_is_a_fraction (P : platform) (test : dataset) (m : multi_class_boost_model) :
  length (labels test) = length (feature_rows test) -> feature_rows test <> [] ->
  (Z.of_nat (length (feature_rows test)) <= 2 ^ 53)%Z ->
  Forall (fun row => exists v, multi_class_boost_predict m row = Ok v) (feature_rows test) ->
  exists r, multi_class_boost_score m test = Ok r /\
    is_fraction (length (correct_samples (multi_class_boost_predict m) test)) (length (feature_rows test)) r.
Proof. exact (ensemble_accuracy_f64 P test (multi_class_boost_predict m)). Qed.
Print Assumptions C31_multi_class_accuracy_is_a_fraction.

Theorem C31_amg_accuracy_is_a_fraction (P : platform) (test : dataset) (m : amg_boost_model) :
  length (labels test) = length (feature_rows test) -> feature_rows test <> [] ->
  (Z.of_nat (length (feature_rows test)) <= 2 ^ 53)%Z ->
  Forall (fun row => exists v, amg_boost_predict m row = Ok v) (feature_rows test) ->
  exists r, amg_boost_score m test = Ok r /\
    is_fraction (length (correct_samples (amg_boost_predict m) test)) (length (feature_rows test)) r.
Proof. exact (ensemble_accuracy_f64 P test (amg_boost_predict m)). Qed.
Print Assumptions C31_amg_accuracy_is_a_fraction.

(** All rows counted correct, or none, means what it says. *)
Theorem C31_all_or_none (P : platform) (predict : list F -> res (list F)) (test : dataset) :
  length (labels test) = length (feature_rows test) ->
  (length (correct_samples predict test) = length (feature_rows test) <-> Forall (row_correct predict) (samples test)) /\
  (length (correct_samples predict test) = 0 <-> Forall (fun p => ~ row_correct predict p) (samples test)).
Proof. exact (correct_all P predict test). Qed.
Print Assumptions C31_all_or_none.

Theorem C31_empty_test_set_is_nan (P : platform) (test : dataset) (t : tree_node regression_leaf)
    (m : multi_class_boost_model) (a : amg_boost_model) :
  feature_rows test = [] ->
  calculate_accuracy test t = Ok (B754_nan : f64) /\
  multi_class_boost_score m test = Ok (B754_nan : f64) /\
  amg_boost_score a test = Ok (B754_nan : f64).
Proof.
  exact (fun H => conj (tree_accuracy_empty P test t H)
    (conj (ensemble_accuracy_empty P test (multi_class_boost_predict m) H)
          (ensemble_accuracy_empty P test (amg_boost_predict a) H))).
Qed.
Print Assumptions C31_empty_test_set_is_nan.

Example C31_example :
  let O := f64_ops taylor_platform in
  (t <- regression_tree_new four (four_cfg 1 true);; calculate_accuracy four t) = Ok (Bdiv mode_NE (n64 3) (n64 4)) /\
  (m <- multi_class_boost_train four (four_cfg 1 true) 2 (n64 1);; multi_class_boost_score m four) = Ok (n64 1) /\
  (m <- amg_boost_train four (four_cfg 0 true) 1 (n64 1);; amg_boost_score m four) = Ok (Bdiv mode_NE (n64 3) (n64 4)).
Proof. compute_eqs. Qed.

(* ------------------------------------------------------------------ *)
(** ** C41 *)

Theorem C41_multi_class_answers_one_class (P : platform) (m : multi_class_boost_model) (row s : list F) :
  multi_class_boost_raw m row = Ok s -> s <> [] ->
  exists c v, multi_class_boost_predict m row = Ok v /\ one_hot (length s) (N.of_nat c) v /\ first_largest s c.
Proof. exact (multi_class_one_class (f64_laws P) m row s). Qed.
Print Assumptions C41_multi_class_answers_one_class.

Theorem C41_amg_answers_one_class (P : platform) (m : amg_boost_model) (row s : list F) :
  amg_boost_raw m row = Ok s -> s <> [] ->
  exists c v, amg_boost_predict m row = Ok v /\ one_hot (length s) (N.of_nat c) v /\ first_largest s c.
Proof. exact (amg_one_class (f64_laws P) m row s). Qed.
Print Assumptions C41_amg_answers_one_class.

Theorem C41_empty_scores_panic (P : platform) (m : multi_class_boost_model) (a : amg_boost_model) (row : list F) :
  (multi_class_boost_raw m row = Ok [] -> multi_class_boost_predict m row = Panic) /\
  (amg_boost_raw a row = Ok [] -> amg_boost_predict a row = Panic).
Proof. exact (empty_scores m a row). Qed.
Print Assumptions C41_empty_scores_panic.

Theorem C41_answer_is_unique (P : platform) (s : list F) (c c' : nat) :
  first_largest s c -> first_largest s c' -> c = c'.
Proof. exact (first_largest_unique (f64_laws P) s c c'). Qed.
Print Assumptions C41_answer_is_unique.

Example C41_example :
  let O := f64_ops demo_platform in
  let predict s := multi_class_boost_predict (O := O) (mkModel [] s (n64 1)) [] in
  predict [B754_nan; n64 3; n64 7; n64 7] = Ok [n64 0; n64 0; n64 1; n64 0] /\
  predict [B754_nan; B754_infinity true] = Ok [n64 1; n64 0] /\
  predict [n64 2; B754_infinity false; B754_infinity false] = Ok [n64 0; n64 1; n64 0] /\
  predict [] = Panic.
Proof. compute_eqs. Qed.

(* ------------------------------------------------------------------ *)
(** ** C46 *)

Theorem C46_predictions_are_pointwise (P : platform) (r : regression_boost_model) (m : multi_class_boost_model)
    (a : amg_boost_model) (test : dataset) (ps : list (list F)) :
  (regression_boost_all_predictions r test = Ok ps <->
     Forall2 (fun row p => regression_boost_predict r row = Ok p) (feature_rows test) ps) /\
  (multi_class_boost_all_predictions m test = Ok ps <->
     Forall2 (fun row p => multi_class_boost_predict m row = Ok p) (feature_rows test) ps) /\
  (amg_boost_all_predictions a test = Ok ps <->
     Forall2 (fun row p => amg_boost_predict a row = Ok p) (feature_rows test) ps).
Proof.
  exact (conj (pointwise (regression_boost_predict r) test ps)
    (conj (pointwise (multi_class_boost_predict m) test ps) (pointwise (amg_boost_predict a) test ps))).
Qed.
Print Assumptions C46_predictions_are_pointwise.

Theorem C46_regression_score (P : platform) (m : regression_boost_model) (test : dataset) (ps : list (list F)) :
  Forall2 (fun row p => regression_boost_predict m row = Ok p) (feature_rows test) ps ->
  length (labels test) <= length (feature_rows test) ->
  Forall (fun p => length (fst p) = length (snd p)) (combine (labels test) ps) ->
  regression_boost_score m test = Ok (mean_squared_error_of fsum0 (combine (labels test) ps)).
Proof. exact (regression_score_eq m test ps). Qed.
Print Assumptions C46_regression_score.

Theorem C46_classification_scores (P : platform) (m : multi_class_boost_model) (a : amg_boost_model) (test : dataset) :
  length (feature_rows test) <= length (labels test) ->
  (Z.of_nat (length (feature_rows test)) <= 2 ^ 53)%Z ->
  (Forall (fun row => exists v, multi_class_boost_predict m row = Ok v) (feature_rows test) ->
   multi_class_boost_score m test =
     Ok (fdiv (f_of_nat (length (correct_samples (multi_class_boost_predict m) test))) (f_of_nat (length (feature_rows test))))) /\
  (Forall (fun row => exists v, amg_boost_predict a row = Ok v) (feature_rows test) ->
   amg_boost_score a test =
     Ok (fdiv (f_of_nat (length (correct_samples (amg_boost_predict a) test))) (f_of_nat (length (feature_rows test))))).
Proof.
  exact (fun H1 H2 => conj (ensemble_accuracy (f64_laws P) (multi_class_boost_predict m) test H1 H2)
                           (ensemble_accuracy (f64_laws P) (amg_boost_predict a) test H1 H2)).
Qed.
Print Assumptions C46_classification_scores.

Theorem C46_missing_values_panic (P : platform) (r : regression_boost_model) (m : multi_class_boost_model)
    (a : amg_boost_model) (test : dataset) (ps : list (list F)) :
  (Forall2 (fun row p => multi_class_boost_predict m row = Ok p) (feature_rows test) ps ->
   length (labels test) < length (feature_rows test) -> multi_class_boost_score m test = Panic) /\
  (Forall2 (fun row p => amg_boost_predict a row = Ok p) (feature_rows test) ps ->
   length (labels test) < length (feature_rows test) -> amg_boost_score a test = Panic) /\
  (Forall2 (fun row p => regression_boost_predict r row = Ok p) (feature_rows test) ps ->
   length (feature_rows test) < length (labels test) -> regression_boost_score r test = Panic).
Proof.
  exact (conj (accuracy_missing_label (multi_class_boost_predict m) test ps)
    (conj (accuracy_missing_label (amg_boost_predict a) test ps) (regression_missing_prediction r test ps))).
Qed.
Print Assumptions C46_missing_values_panic.

Example C46_example :
  let O := f64_ops taylor_platform in
  let guess := mkModel (O := O) (L := grad_boost_leaf) [] [n64 1; n64 3] (n64 1) in
  let test ls := @mkDS O [[n64 1]; [n64 2]] ls [[n64 1; n64 2]] in
  regression_boost_all_predictions guess (test []) = Ok [[n64 1; n64 3]; [n64 1; n64 3]] /\
  regression_boost_score guess (test [[n64 1; n64 1]; [n64 5; n64 3]]) = Ok (n64 5) /\
  regression_boost_score guess (test [[n64 1; n64 1]]) = Ok (n64 2) /\
  regression_boost_score guess (test [[n64 1; n64 1]; [n64 5; n64 3]; [n64 0; n64 0]]) = Panic /\
  multi_class_boost_score guess (test [[n64 0; n64 1]]) = Panic.
Proof. compute_eqs. Qed.

(* ------------------------------------------------------------------ *)
(** ** C47, accuracy *)

Theorem C47_accuracy_ignores_order (P : platform) (test test' : dataset) (t : tree_node regression_leaf)
    (m : multi_class_boost_model) (a : amg_boost_model) :
  length (labels test) = length (feature_rows test) -> length (labels test') = length (feature_rows test') ->
  Permutation (samples test) (samples test') ->
  (Z.of_nat (length (feature_rows test)) <= 2 ^ 53)%Z ->
  (Forall (fun row => exists v, predict_class row t = Ok v) (feature_rows test) ->
     calculate_accuracy test t = calculate_accuracy test' t) /\
  (Forall (fun row => exists v, multi_class_boost_predict m row = Ok v) (feature_rows test) ->
     multi_class_boost_score m test = multi_class_boost_score m test') /\
  (Forall (fun row => exists v, amg_boost_predict a row = Ok v) (feature_rows test) ->
     amg_boost_score a test = amg_boost_score a test').
Proof.
  exact (fun H1 H2 H3 H4 => conj (tree_accuracy_perm P test test' t H1 H2 H3 H4)
    (conj (ensemble_accuracy_perm P test test' (multi_class_boost_predict m) H1 H2 H3 H4)
          (ensemble_accuracy_perm P test test' (amg_boost_predict a) H1 H2 H3 H4))).
Qed.
Print Assumptions C47_accuracy_ignores_order.

Definition four_reversed : @dataset (f64_ops taylor_platform) :=
  @mkDS (f64_ops taylor_platform) (rev (feature_rows four)) (rev (labels four)) (map (@rev _) (feature_columns four)).
Example C47_example :
  Permutation (samples four) (samples four_reversed) /\
  (t <- regression_tree_new four (four_cfg 1 true);; calculate_accuracy four_reversed t) = Ok (Bdiv mode_NE (n64 3) (n64 4)).
Proof. split; [exact (Permutation_rev (samples four))|compute_eq]. Qed.
