(** Property C112: training that cannot ask anything. *)
From Coq Require Import Reals.
From Flocq Require Import IEEE754.BinarySingleNaN.
From Verif Require Import Base Num F64 ModelCommon ModelTree ModelBoost Spec SpecTree XR SpecExact SpecScore SpecFit SpecClass SpecTwins SpecQuiet
  ProofQuiet ProofQuiet2 ProofQuiet3 ProofWitness Decide Check Demo DemoExact DemoBoostExact DemoQuiet.
Local Open Scope R_scope.

(* ------------------------------------------------------------------ *)
(** ** C112 *)

(** With floating-point numbers: each model gives all rows the same answer, however many iterations there were. *)
Theorem C112_same_answers (P : platform) (O := f64_ops P) (nc nt : nat) (d : dataset) (cfg : tree_config) (n : nat) (lr : f64) (x y : list f64) :
  wf_dataset nc nt d -> standard cfg -> tc_number_of_classes cfg = N.of_nat nt -> nothing_to_ask cfg (feature_rows d) ->
  (forall t, regression_tree_new d cfg = Ok t -> predict_class x t = predict_class y t) /\
  (forall m, regression_boost_train d cfg n lr = Ok m -> regression_boost_predict m x = regression_boost_predict m y) /\
  (forall m, multi_class_boost_train d cfg n lr = Ok m -> multi_class_boost_predict m x = multi_class_boost_predict m y) /\
  (forall m, amg_boost_train d cfg n lr = Ok m -> amg_boost_predict m x = amg_boost_predict m y).
Proof. exact (fun W Hs Hk Q => quiet_answers (f64_laws P) nc nt d cfg n lr W Hs Hk Q x y). Qed.
Print Assumptions C112_same_answers.

(** A tree answers the class that most training rows have, the first one on ties. *)
Theorem C112_tree_class (P : platform) (O := f64_ops P) (nc nt : nat) (d : dataset) (cfg : tree_config) (t : tree_node regression_leaf) (row : list f64) :
  wf_dataset nc nt d -> standard cfg -> tc_number_of_classes cfg = N.of_nat nt -> nothing_to_ask cfg (feature_rows d) ->
  (0 < nt)%nat -> (Z.of_nat nt <= 2 ^ 53)%Z -> (nc <= length row)%nat -> regression_tree_new d cfg = Ok t ->
  exists c v, predict_class row t = Ok v /\ one_hot nt (N.of_nat c) v /\ most_votes nt (labels d) c.
Proof. exact (fun W Hs Hk Q => quiet_class (f64_laws P) nc nt d cfg W Hs Hk Q t row). Qed.
Print Assumptions C112_tree_class.

(** In exact arithmetic a regression ensemble answers the mean label, whatever the learning rate and the number of iterations. *)
Theorem C112_ensemble_mean (nc nt : nat) (d : dataset) (ls : list (list R)) (cfg : tree_config) (n : nat) (lr : R) (m : regression_boost_model) (row : list xr) :
  wf_dataset nc nt d -> real_labels ls d -> standard cfg -> tc_number_of_classes cfg = N.of_nat nt -> nothing_to_ask cfg (feature_rows d) ->
  regression_boost_train d cfg n (Fin lr) = Ok m -> regression_boost_predict m row = Ok (map Fin (mean_label nt ls)).
Proof. exact (quiet_boost nc nt d ls cfg n lr m row). Qed.
Print Assumptions C112_ensemble_mean.

Theorem C112_tree_mean (nc nt : nat) (d : dataset) (ls : list (list R)) (cfg : tree_config) (t : tree_node regression_leaf) (row : list xr) :
  wf_dataset nc nt d -> real_labels ls d -> standard cfg -> tc_number_of_classes cfg = N.of_nat nt -> nothing_to_ask cfg (feature_rows d) ->
  regression_tree_new d cfg = Ok t -> tree_prediction row t = Ok (map Fin (mean_label nt ls)).
Proof. exact (quiet_tree nc nt d ls cfg t row). Qed.
Print Assumptions C112_tree_mean.

(** In exact arithmetic the classification ensembles answer the most frequent class after one iteration with a positive learning rate. *)
Theorem C112_first_classes (nc nt : nat) (d : dataset) (cfg : tree_config) (lr : R) (row : list xr) :
  (2 <= nt)%nat -> (Z.of_nat nt <= 2 ^ 53)%Z -> wf_dataset nc nt d -> one_hot_labels nt d -> standard cfg -> tc_number_of_classes cfg = N.of_nat nt ->
  nothing_to_ask cfg (feature_rows d) -> (nc <= length row)%nat -> 0 < lr ->
  exists c v, one_hot nt (N.of_nat c) v /\ most_votes nt (labels d) c /\
    (forall m, multi_class_boost_train d cfg 1 (Fin lr) = Ok m -> multi_class_boost_predict m row = Ok v) /\
    (forall m, amg_boost_train d cfg 1 (Fin lr) = Ok m -> amg_boost_predict m row = Ok v).
Proof. exact (quiet_first nc nt d cfg lr row). Qed.
Print Assumptions C112_first_classes.

(** Three rows with feature 5 and labels 0, 9 and 3: every row is answered with 4. *)
Example C112_example : wf_dataset 1 1 alike /\ real_labels alike_labels alike /\ standard (plain_cfg 2) /\ nothing_to_ask (plain_cfg 2) (feature_rows alike) /\
  (forall n lr, exists m, regression_boost_train alike (plain_cfg 2) n (Fin lr) = Ok m) /\ mean_label 1 alike_labels = [4].
Proof. exact (conj (proj1 alike_wf) (conj (proj2 alike_wf) (conj eq_refl (conj (alike_quiet 2) (conj (fun n lr => alike_trained 2 n (Fin lr)) alike_mean))))). Qed.

Example C112_class_example : let O := f64_ops taylor_platform in
  wf_dataset 1 2 alike64 /\ standard (four_cfg 2 true) /\ nothing_to_ask (four_cfg 2 true) (feature_rows alike64) /\
  (t <- regression_tree_new alike64 (four_cfg 2 true);; mapM (fun r => predict_class r t) [[n64 5]; [n64 7]]) = Ok [[n64 0; n64 1]; [n64 0; n64 1]] /\
  (m <- multi_class_boost_train alike64 (four_cfg 2 true) 1 (n64 1);; mapM (multi_class_boost_predict m) [[n64 5]; [n64 7]]) = Ok [[n64 0; n64 1]; [n64 0; n64 1]].
Proof. intros O. split; [check_wf|]. split; [reflexivity|]. split; [exact (alike64_quiet 2 true)|]. compute_eqs. Qed.

Example C112_first_classes_example : wf_dataset 1 2 alike_classes /\ one_hot_labels 2 alike_classes /\ standard (two_cfg 3) /\
  nothing_to_ask (two_cfg 3) (feature_rows alike_classes) /\
  forall lr, (exists m, multi_class_boost_train alike_classes (two_cfg 3) 1 (Fin lr) = Ok m) /\ (exists m, amg_boost_train alike_classes (two_cfg 3) 1 (Fin lr) = Ok m).
Proof.
  exact (conj (proj1 alike_classes_wf) (conj alike_classes_one_hot (conj eq_refl (conj (alike_classes_quiet 3) (fun lr => alike_classes_trained 3 1 (Fin lr)))))).
Qed.
