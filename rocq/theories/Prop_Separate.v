(** Property C103: with deep enough trees a classification ensemble separates consistent training rows, in exact arithmetic. *)
From Coq Require Import Reals.
From Verif Require Import Base Num ModelCommon ModelTree ModelBoost Spec SpecTree XR SpecExact SpecScore SpecFit SpecClass SpecGradient SpecLoss ProofSeparate DemoBoostExact DemoSeparate.
Local Open Scope R_scope.

(* ------------------------------------------------------------------ *)
(** ** C103 *)

(** On every training row the score of its class leads every other score by at least [n * lr * 2 (nt - 1) / nt] after [n] iterations,
    so the log-loss of the training rows is at most [(nt - 1) * exp (- that)] a row. *)
Theorem C103_multi_class_separates (nc nt : nat) (d : dataset) (cfg : tree_config) (n : nat) (lr : R) (m : multi_class_boost_model) :
  (2 <= nt)%nat -> (Z.of_nat nt <= 2 ^ 53)%Z -> wf_dataset nc nt d -> one_hot_labels nt d -> consistent d ->
  standard cfg -> tc_number_of_classes cfg = N.of_nat nt -> (N.of_nat (length (feature_rows d)) <= tc_max_levels cfg + 1)%N -> 0 < lr ->
  multi_class_boost_train d cfg n (Fin lr) = Ok m ->
  exists ss cs, mapM (multi_class_boost_raw m) (feature_rows d) = Ok (map (map Fin) ss) /\ classes nt d cs /\
    (forall s c j, In (s, c) (combine ss cs) -> (j < nt)%nat -> j <> c -> INR n * (lr * (2 * (INR nt - 1) / INR nt)) <= nth c s 0 - nth j s 0) /\
    total_loss (combine ss cs) <= INR (length (feature_rows d)) * ((INR nt - 1) * exp (- (INR n * (lr * (2 * (INR nt - 1) / INR nt))))).
Proof. exact (multi_class_separates nc nt d cfg n lr m). Qed.
Print Assumptions C103_multi_class_separates.

(** Every training row is answered with its own label, from the first iteration on. *)
Theorem C103_multi_class_learns (nc nt : nat) (d : dataset) (cfg : tree_config) (n : nat) (lr : R) (m : multi_class_boost_model) (row label : list xr) :
  (2 <= nt)%nat -> (Z.of_nat nt <= 2 ^ 53)%Z -> wf_dataset nc nt d -> one_hot_labels nt d -> consistent d ->
  standard cfg -> tc_number_of_classes cfg = N.of_nat nt -> (N.of_nat (length (feature_rows d)) <= tc_max_levels cfg + 1)%N -> 0 < lr ->
  (0 < n)%nat -> multi_class_boost_train d cfg n (Fin lr) = Ok m -> In (row, label) (samples d) -> multi_class_boost_predict m row = Ok label.
Proof. exact (multi_class_learns nc nt d cfg n lr m row label). Qed.
Print Assumptions C103_multi_class_learns.

(** So the score on the training set is exactly 1. *)
Theorem C103_multi_class_full_score (nc nt : nat) (d : dataset) (cfg : tree_config) (n : nat) (lr : R) (m : multi_class_boost_model) :
  (2 <= nt)%nat -> (Z.of_nat nt <= 2 ^ 53)%Z -> wf_dataset nc nt d -> one_hot_labels nt d -> consistent d ->
  standard cfg -> tc_number_of_classes cfg = N.of_nat nt -> (N.of_nat (length (feature_rows d)) <= tc_max_levels cfg + 1)%N -> 0 < lr ->
  (0 < n)%nat -> (Z.of_nat (length (feature_rows d)) <= 2 ^ 53)%Z -> multi_class_boost_train d cfg n (Fin lr) = Ok m -> multi_class_boost_score m d = Ok (Fin 1).
Proof. exact (multi_class_full_score nc nt d cfg n lr m). Qed.
Print Assumptions C103_multi_class_full_score.

(** On every training row the score of its class leads every other score by at least [n * lr] after [n] iterations,
    so the log-loss of the training rows is at most [(nt - 1) * exp (- that)] a row. *)
Theorem C103_amg_separates (nc nt : nat) (d : dataset) (cfg : tree_config) (n : nat) (lr : R) (m : amg_boost_model) :
  (2 <= nt)%nat -> (Z.of_nat nt <= 2 ^ 53)%Z -> wf_dataset nc nt d -> one_hot_labels nt d -> consistent d ->
  standard cfg -> tc_number_of_classes cfg = N.of_nat nt -> (N.of_nat (length (feature_rows d)) <= tc_max_levels cfg + 1)%N -> 0 < lr ->
  amg_boost_train d cfg n (Fin lr) = Ok m ->
  exists ss cs, mapM (amg_boost_raw m) (feature_rows d) = Ok (map (map Fin) ss) /\ classes nt d cs /\
    (forall s c j, In (s, c) (combine ss cs) -> (j < nt)%nat -> j <> c -> INR n * (lr * 1) <= nth c s 0 - nth j s 0) /\
    total_loss (combine ss cs) <= INR (length (feature_rows d)) * ((INR nt - 1) * exp (- (INR n * (lr * 1)))).
Proof. exact (amg_separates nc nt d cfg n lr m). Qed.
Print Assumptions C103_amg_separates.

(** Every training row is answered with its own label, from the first iteration on. *)
Theorem C103_amg_learns (nc nt : nat) (d : dataset) (cfg : tree_config) (n : nat) (lr : R) (m : amg_boost_model) (row label : list xr) :
  (2 <= nt)%nat -> (Z.of_nat nt <= 2 ^ 53)%Z -> wf_dataset nc nt d -> one_hot_labels nt d -> consistent d ->
  standard cfg -> tc_number_of_classes cfg = N.of_nat nt -> (N.of_nat (length (feature_rows d)) <= tc_max_levels cfg + 1)%N -> 0 < lr ->
  (0 < n)%nat -> amg_boost_train d cfg n (Fin lr) = Ok m -> In (row, label) (samples d) -> amg_boost_predict m row = Ok label.
Proof. exact (amg_learns nc nt d cfg n lr m row label). Qed.
Print Assumptions C103_amg_learns.

(** So the score on the training set is exactly 1. *)
Theorem C103_amg_full_score (nc nt : nat) (d : dataset) (cfg : tree_config) (n : nat) (lr : R) (m : amg_boost_model) :
  (2 <= nt)%nat -> (Z.of_nat nt <= 2 ^ 53)%Z -> wf_dataset nc nt d -> one_hot_labels nt d -> consistent d ->
  standard cfg -> tc_number_of_classes cfg = N.of_nat nt -> (N.of_nat (length (feature_rows d)) <= tc_max_levels cfg + 1)%N -> 0 < lr ->
  (0 < n)%nat -> (Z.of_nat (length (feature_rows d)) <= 2 ^ 53)%Z -> amg_boost_train d cfg n (Fin lr) = Ok m -> amg_boost_score m d = Ok (Fin 1).
Proof. exact (amg_full_score nc nt d cfg n lr m). Qed.
Print Assumptions C103_amg_full_score.

Example C103_example : wf_dataset 1 2 two /\ one_hot_labels 2 two /\ consistent two /\ standard (two_cfg 1) /\
  (forall n lr, (0 < n)%nat -> 0 < lr -> exists m, multi_class_boost_train two (two_cfg 1) n (Fin lr) = Ok m /\
    multi_class_boost_predict m [Fin 0] = Ok [Fin 1; Fin 0] /\ multi_class_boost_predict m [Fin 1] = Ok [Fin 0; Fin 1] /\ multi_class_boost_score m two = Ok (Fin 1)) /\
  (forall n lr, (0 < n)%nat -> 0 < lr -> exists m, amg_boost_train two (two_cfg 1) n (Fin lr) = Ok m /\
    amg_boost_predict m [Fin 0] = Ok [Fin 1; Fin 0] /\ amg_boost_predict m [Fin 1] = Ok [Fin 0; Fin 1] /\ amg_boost_score m two = Ok (Fin 1)).
Proof. exact (conj (proj1 two_wf) (conj two_one_hot (conj two_consistent (conj eq_refl (conj two_multi_learnt two_amg_learnt))))). Qed.
