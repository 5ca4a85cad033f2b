(** Property C63: a model's answers change only at training values, in binary64 arithmetic on every platform. *)
From Flocq Require Import IEEE754.BinarySingleNaN.
From Verif Require Import Base Num ModelCommon ModelTree ModelBoost Spec SpecTree SpecStep F64 ProofStep Decide Check Demo.
Local Open Scope nat_scope.

(* ------------------------------------------------------------------ *)
(** ** C63 *)

(** Every question of a trained tree compares a feature with a value it has in the training rows, not its smallest there. *)
Theorem C63_questions (P : platform) (nc nt : nat) (d : dataset) (cfg : tree_config) (calc : leaf_output_calculator) :
  wf_dataset nc nt d -> standard cfg -> tc_number_of_classes cfg = N.of_nat nt ->
  (forall t, regression_tree_new d cfg = Ok t ->
     Forall (fun q => N.to_nat (q_column q) < nc /\ split_value (feature_rows d) (N.to_nat (q_column q)) (q_value q)) (asked t)) /\
  (forall t, grad_boost_tree_new d cfg calc = Ok t ->
     Forall (fun q => N.to_nat (q_column q) < nc /\ split_value (feature_rows d) (N.to_nat (q_column q)) (q_value q)) (asked t)) /\
  (forall t, amg_boost_tree_new d cfg calc = Ok t ->
     Forall (fun q => N.to_nat (q_column q) < nc /\ split_value (feature_rows d) (N.to_nat (q_column q)) (q_value q)) (asked t)).
Proof. exact (questions (f64_laws P) nc nt d cfg calc). Qed.
Print Assumptions C63_questions.

Theorem C63_tree_answers (P : platform) (nc nt : nat) (d : dataset) (cfg : tree_config) (calc : leaf_output_calculator)
    (x y : list F) :
  wf_dataset nc nt d -> standard cfg -> tc_number_of_classes cfg = N.of_nat nt -> indistinct nc (feature_rows d) x y ->
  (forall t, regression_tree_new d cfg = Ok t -> find_leaf_node_for_data x t = find_leaf_node_for_data y t) /\
  (forall t, grad_boost_tree_new d cfg calc = Ok t -> find_leaf_node_for_data x t = find_leaf_node_for_data y t) /\
  (forall t, amg_boost_tree_new d cfg calc = Ok t -> find_leaf_node_for_data x t = find_leaf_node_for_data y t).
Proof. exact (tree_answers (f64_laws P) nc nt d cfg calc x y). Qed.
Print Assumptions C63_tree_answers.

Theorem C63_ensemble_answers (P : platform) (nc nt : nat) (d : dataset) (cfg : tree_config) (n : nat) (lr : F) (x y : list F) :
  wf_dataset nc nt d -> standard cfg -> tc_number_of_classes cfg = N.of_nat nt -> indistinct nc (feature_rows d) x y ->
  (forall m, regression_boost_train d cfg n lr = Ok m -> regression_boost_predict m x = regression_boost_predict m y) /\
  (forall m, multi_class_boost_train d cfg n lr = Ok m -> multi_class_boost_predict m x = multi_class_boost_predict m y) /\
  (forall m, amg_boost_train d cfg n lr = Ok m -> amg_boost_predict m x = amg_boost_predict m y).
Proof. exact (fun W Hs Hk => ensemble_answers (f64_laws P) nc nt d cfg n lr W Hs Hk x y). Qed.
Print Assumptions C63_ensemble_answers.

(** Rows are indistinct if they differ only in features that, in both rows, are NaN or at most the smallest training
    value, or, in both rows, are at least the largest. *)
Theorem C63_out_of_range (P : platform) (nc : nat) (rows : list (list F)) (x y : list F) :
  length x = length y -> nc <= length x ->
  (forall j a b, j < nc -> nth_error x j = Some a -> nth_error y j = Some b ->
     a = b \/
     (forall v, training_value rows j v -> fltb v a = false /\ fltb v b = false) \/
     (forall v, training_value rows j v -> fleb v a = true /\ fleb v b = true)) ->
  indistinct nc rows x y.
Proof. exact (out_of_range (f64_laws P) nc rows x y). Qed.
Print Assumptions C63_out_of_range.

(** NaN is treated as the smallest training value 1, and 100 as the largest, 4; these two differ. *)
Example C63_example :
  let O := f64_ops taylor_platform in
  wf_dataset 1 2 four /\
  indistinct 1 (feature_rows four) [B754_nan] [n64 1] /\
  indistinct 1 (feature_rows four) [n64 100] [n64 4] /\
  (t <- regression_tree_new four (four_cfg 2 true);; Ok (asked t)) = Ok [Question 0 (n64 3); Question 0 (n64 4)] /\
  (m <- regression_boost_train four (four_cfg 2 true) 1 (n64 1);; mapM (regression_boost_predict m) [[B754_nan]; [n64 1]; [n64 100]; [n64 3]]) =
    Ok [[n64 1; n64 0]; [n64 1; n64 0]; [n64 1; n64 0]; [n64 0; n64 1]].
Proof.
  cbn zeta. split; [check_wf|]. split; [|split].
  1, 2: apply C63_out_of_range; [reflexivity|constructor|]; intros [|j] a b Hj Ea Eb; [|now inversion Hj as [|? H0]; inversion H0];
    injection Ea as <-; injection Eb as <-; right.
  - left. intros v (r & Hr & Ev). cbn in Hr. destruct Hr as [<-|[<-|[<-|[<-|[]]]]]; injection Ev as <-; split; vm_compute; reflexivity.
  - right. intros v (r & Hr & Ev). cbn in Hr. destruct Hr as [<-|[<-|[<-|[<-|[]]]]]; injection Ev as <-; split; vm_compute; reflexivity.
  - compute_eqs.
Qed.
