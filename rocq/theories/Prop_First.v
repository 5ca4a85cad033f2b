(** Property C104: after its first iteration a classification ensemble answers like the single tree, in exact arithmetic. *)
From Coq Require Import Reals.
From Verif Require Import Base Num ModelCommon ModelTree ModelBoost Spec SpecTree XR SpecExact SpecScore SpecFit SpecClass ProofFirst DemoBoostExact DemoFirst.
Local Open Scope R_scope.

(* ------------------------------------------------------------------ *)
(** ** C104 *)

(** The score of every class is affine in its share [p] of the training rows in the leaf that the row reaches in the regression tree. *)
Theorem C104_multi_class_scores (nc nt : nat) (d : dataset) (cfg : tree_config) (lr : R) (t : tree_node regression_leaf) (row : list xr)
    (m : multi_class_boost_model) :
  (2 <= nt)%nat -> (Z.of_nat nt <= 2 ^ 53)%Z -> wf_dataset nc nt d -> one_hot_labels nt d -> standard cfg ->
  tc_number_of_classes cfg = N.of_nat nt -> regression_tree_new d cfg = Ok t -> (nc <= length row)%nat ->
  multi_class_boost_train d cfg 1 (Fin lr) = Ok m ->
  exists p, tree_prediction row t = Ok (map Fin p) /\ length p = nt /\
    multi_class_boost_raw m row = Ok (map Fin (map (fun x => 1 / INR nt + lr * (INR nt * x - 1)) p)).
Proof. exact (fun Hk Hz W HO Hs Hc Et Hrow => multi_class_first_scores nc nt d cfg lr t row Hk Hz W HO Hs Hc Et Hrow m). Qed.
Print Assumptions C104_multi_class_scores.

(** The answer to every row, seen in training or not, is the most frequent class of that leaf: what the tree answers. *)
Theorem C104_multi_class_answer (nc nt : nat) (d : dataset) (cfg : tree_config) (lr : R) (t : tree_node regression_leaf) (row : list xr)
    (m : multi_class_boost_model) :
  (2 <= nt)%nat -> (Z.of_nat nt <= 2 ^ 53)%Z -> wf_dataset nc nt d -> one_hot_labels nt d -> standard cfg ->
  tc_number_of_classes cfg = N.of_nat nt -> regression_tree_new d cfg = Ok t -> (nc <= length row)%nat ->
  0 < lr -> multi_class_boost_train d cfg 1 (Fin lr) = Ok m -> multi_class_boost_predict m row = predict_class row t.
Proof. exact (fun Hk Hz W HO Hs Hc Et Hrow => multi_class_first_answer nc nt d cfg lr t row Hk Hz W HO Hs Hc Et Hrow m). Qed.
Print Assumptions C104_multi_class_answer.

(** So the two have the same accuracy on every test set. *)
Theorem C104_multi_class_score (nc nt : nat) (d : dataset) (cfg : tree_config) (lr : R) (t : tree_node regression_leaf)
    (m : multi_class_boost_model) (test : dataset) :
  (2 <= nt)%nat -> (Z.of_nat nt <= 2 ^ 53)%Z -> wf_dataset nc nt d -> one_hot_labels nt d -> standard cfg ->
  tc_number_of_classes cfg = N.of_nat nt -> regression_tree_new d cfg = Ok t -> 0 < lr ->
  multi_class_boost_train d cfg 1 (Fin lr) = Ok m -> Forall (fun row => (nc <= length row)%nat) (feature_rows test) ->
  (length (feature_rows test) <= length (labels test))%nat -> (Z.of_nat (length (feature_rows test)) <= 2 ^ 53)%Z ->
  multi_class_boost_score m test = calculate_accuracy test t.
Proof. exact (multi_class_first_accuracy nc nt d cfg lr t m test). Qed.
Print Assumptions C104_multi_class_score.

(** The scores follow from the largest share [nth c p 0] of the training rows in the leaf that the row reaches in the regression tree. *)
Theorem C104_amg_scores (nc nt : nat) (d : dataset) (cfg : tree_config) (lr : R) (t : tree_node regression_leaf) (row : list xr)
    (m : amg_boost_model) :
  (2 <= nt)%nat -> (Z.of_nat nt <= 2 ^ 53)%Z -> wf_dataset nc nt d -> one_hot_labels nt d -> standard cfg ->
  tc_number_of_classes cfg = N.of_nat nt -> regression_tree_new d cfg = Ok t -> (nc <= length row)%nat ->
  amg_boost_train d cfg 1 (Fin lr) = Ok m ->
  exists p c, tree_prediction row t = Ok (map Fin p) /\ length p = nt /\ (c < nt)%nat /\
    (forall j, (j < nt)%nat -> nth j p 0 <= nth c p 0 /\ ((j < c)%nat -> nth j p 0 < nth c p 0)) /\
    amg_boost_raw m row = Ok (map Fin (map (fun j => 1 / INR nt +
      lr * (if Nat.eqb j c then INR nt * nth c p 0 - 1 else - (INR nt * nth c p 0 - 1) / (INR nt - 1))) (seq 0 nt))).
Proof. exact (fun Hk Hz W HO Hs Hc Et Hrow => amg_first_scores nc nt d cfg lr t row Hk Hz W HO Hs Hc Et Hrow m). Qed.
Print Assumptions C104_amg_scores.

(** The answer to every row, seen in training or not, is the most frequent class of that leaf: what the tree answers. *)
Theorem C104_amg_answer (nc nt : nat) (d : dataset) (cfg : tree_config) (lr : R) (t : tree_node regression_leaf) (row : list xr)
    (m : amg_boost_model) :
  (2 <= nt)%nat -> (Z.of_nat nt <= 2 ^ 53)%Z -> wf_dataset nc nt d -> one_hot_labels nt d -> standard cfg ->
  tc_number_of_classes cfg = N.of_nat nt -> regression_tree_new d cfg = Ok t -> (nc <= length row)%nat ->
  0 < lr -> amg_boost_train d cfg 1 (Fin lr) = Ok m -> amg_boost_predict m row = predict_class row t.
Proof. exact (fun Hk Hz W HO Hs Hc Et Hrow => amg_first_answer nc nt d cfg lr t row Hk Hz W HO Hs Hc Et Hrow m). Qed.
Print Assumptions C104_amg_answer.

(** So the two have the same accuracy on every test set. *)
Theorem C104_amg_score (nc nt : nat) (d : dataset) (cfg : tree_config) (lr : R) (t : tree_node regression_leaf)
    (m : amg_boost_model) (test : dataset) :
  (2 <= nt)%nat -> (Z.of_nat nt <= 2 ^ 53)%Z -> wf_dataset nc nt d -> one_hot_labels nt d -> standard cfg ->
  tc_number_of_classes cfg = N.of_nat nt -> regression_tree_new d cfg = Ok t -> 0 < lr ->
  amg_boost_train d cfg 1 (Fin lr) = Ok m -> Forall (fun row => (nc <= length row)%nat) (feature_rows test) ->
  (length (feature_rows test) <= length (labels test))%nat -> (Z.of_nat (length (feature_rows test)) <= 2 ^ 53)%Z ->
  amg_boost_score m test = calculate_accuracy test t.
Proof. exact (amg_first_accuracy nc nt d cfg lr t m test). Qed.
Print Assumptions C104_amg_score.

Example C104_example : wf_dataset 1 2 two /\ one_hot_labels 2 two /\ standard (two_cfg 1) /\
  (forall lr, 0 < lr -> exists t m m', regression_tree_new two (two_cfg 1) = Ok t /\
    multi_class_boost_train two (two_cfg 1) 1 (Fin lr) = Ok m /\ amg_boost_train two (two_cfg 1) 1 (Fin lr) = Ok m' /\
    predict_class [Fin 0] t = Ok [Fin 1; Fin 0] /\ predict_class [Fin 1] t = Ok [Fin 0; Fin 1] /\
    multi_class_boost_predict m [Fin 0] = Ok [Fin 1; Fin 0] /\ amg_boost_predict m' [Fin 1] = Ok [Fin 0; Fin 1]).
Proof. exact (conj (proj1 two_wf) (conj two_one_hot (conj eq_refl two_first))). Qed.
