(** Properties C105 and C106: boosting continues on the residuals, and its first iteration blends the mean with the single tree, in exact arithmetic. *)
From Coq Require Import Reals.
From Verif Require Import Base Num ModelCommon ModelTree ModelBoost Spec SpecTree XR SpecExact SpecScore SpecFit SpecAffine ProofRestart ProofBlend ProofWitness DemoExact DemoRestart.
Local Open Scope R_scope.

(* ------------------------------------------------------------------ *)
(** ** C105 *)

(** [m] is boosted [n] times; [r] is boosted [k] times on what [m] leaves over of the labels. Then [n + k] iterations give
    the trees of [m] followed by those of [r], and for every row the sum of their two predictions. *)
Theorem C105_regression (nc nt : nat) (d : dataset) (ls : list (list R)) (cfg : tree_config) (n k : nat) (lr : R) (m r m' : regression_boost_model) (preds : list (list xr)) :
  wf_dataset nc nt d -> real_labels ls d -> regression_boost_train d cfg n (Fin lr) = Ok m -> regression_boost_all_predictions m d = Ok preds ->
  regression_boost_train (mkDS (feature_rows d) (differences (labels d) preds) (feature_columns d)) cfg k (Fin lr) = Ok r ->
  regression_boost_train d cfg (n + k) (Fin lr) = Ok m' ->
  m_trees m' = m_trees m ++ m_trees r /\ m_initial_guess m' = m_initial_guess m /\ m_initial_guess r = map Fin (repeat 0 nt) /\
  forall row, (nc <= length row)%nat -> exists a b, regression_boost_predict m row = Ok (map Fin a) /\ regression_boost_predict r row = Ok (map Fin b) /\
    length a = nt /\ length b = nt /\ regression_boost_predict m' row = Ok (map Fin (shift b a)).
Proof. exact (regression_restart nc nt d ls cfg n k lr m r m' preds). Qed.
Print Assumptions C105_regression.

(** With the configurations that the programs use, all three trainings succeed. *)
Theorem C105_trained (nc nt : nat) (d : dataset) (ls : list (list R)) (cfg : tree_config) (n k : nat) (lr : R) :
  wf_dataset nc nt d -> real_labels ls d -> standard cfg -> tc_number_of_classes cfg = N.of_nat nt -> (Z.of_nat nt <= 2 ^ 53)%Z ->
  exists m preds r m', regression_boost_train d cfg n (Fin lr) = Ok m /\ regression_boost_all_predictions m d = Ok preds /\
    regression_boost_train (mkDS (feature_rows d) (differences (labels d) preds) (feature_columns d)) cfg k (Fin lr) = Ok r /\
    regression_boost_train d cfg (n + k) (Fin lr) = Ok m'.
Proof. exact (restart_succeeds nc nt d ls cfg n k lr). Qed.
Print Assumptions C105_trained.

(** Labels 9, 0, 0: the first iteration answers 6 and 3/2 and leaves 3, -3/2, -3/2 to the next. *)
Example C105_example :
  wf_dataset 1 1 plain /\ real_labels [[9]; [0]; [0]] plain /\
  (exists t m, regression_tree_new plain (plain_cfg 2) = Ok t /\ regression_boost_train plain (plain_cfg 2) 1 (Fin (1/2)) = Ok m /\
    tree_prediction [Fin 7] t = Ok [Fin 9] /\ tree_prediction [Fin (3/2)] t = Ok [Fin 0] /\
    regression_boost_predict m [Fin 7] = Ok [Fin (3 + 6 * (1/2))] /\ regression_boost_predict m [Fin (3/2)] = Ok [Fin (3 - 3 * (1/2))]) /\
  forall n k, exists m preds r m', regression_boost_train plain (plain_cfg 2) n (Fin (1/2)) = Ok m /\ regression_boost_all_predictions m plain = Ok preds /\
    regression_boost_train (mkDS (feature_rows plain) (differences (labels plain) preds) (feature_columns plain)) (plain_cfg 2) k (Fin (1/2)) = Ok r /\
    regression_boost_train plain (plain_cfg 2) (n + k) (Fin (1/2)) = Ok m'.
Proof. exact (conj (proj1 plain_wf) (conj (proj2 plain_wf) (conj (plain_blend (1/2)) plain_restart))). Qed.

(* ------------------------------------------------------------------ *)
(** ** C106 *)

(** Target [j] of a prediction is (1 - lr) times the mean label plus lr times what the single regression tree predicts. *)
Theorem C106_blend (nc nt : nat) (d : dataset) (ls : list (list R)) (cfg : tree_config) (lr : R) (t : tree_node regression_leaf) (m : regression_boost_model) :
  wf_dataset nc nt d -> real_labels ls d -> standard cfg -> tc_number_of_classes cfg = N.of_nat nt ->
  regression_tree_new d cfg = Ok t -> regression_boost_train d cfg 1 (Fin lr) = Ok m ->
  (exists g, m_trees m = [g] /\ tree_map (fun _ => tt) g = tree_map (fun _ => tt) t) /\
  forall row, (nc <= length row)%nat -> exists p, tree_prediction row t = Ok (map Fin p) /\ length p = nt /\
    regression_boost_predict m row = Ok (map Fin (map (fun q => (1 - lr) * fst q + lr * snd q) (combine (map (fun j => mean (target j ls)) (seq 0 nt)) p))).
Proof. exact (regression_blend nc nt d ls cfg lr t m). Qed.
Print Assumptions C106_blend.

(** With learning rate 1 it is the tree. *)
Theorem C106_full_step (nc nt : nat) (d : dataset) (ls : list (list R)) (cfg : tree_config) (t : tree_node regression_leaf) (m : regression_boost_model) (row : list xr) :
  wf_dataset nc nt d -> real_labels ls d -> standard cfg -> tc_number_of_classes cfg = N.of_nat nt ->
  regression_tree_new d cfg = Ok t -> regression_boost_train d cfg 1 (Fin 1) = Ok m -> (nc <= length row)%nat ->
  regression_boost_predict m row = tree_prediction row t.
Proof. exact (regression_full_step nc nt d ls cfg t m row). Qed.
Print Assumptions C106_full_step.

(** So the two scores agree on every test set. *)
Theorem C106_full_step_error (nc nt : nat) (d : dataset) (ls : list (list R)) (cfg : tree_config) (t : tree_node regression_leaf) (m : regression_boost_model)
    (test : dataset) (ys : list (list R)) :
  (0 < nt)%nat -> wf_dataset nc nt d -> real_labels ls d -> standard cfg -> tc_number_of_classes cfg = N.of_nat nt ->
  regression_tree_new d cfg = Ok t -> regression_boost_train d cfg 1 (Fin 1) = Ok m ->
  Forall (fun row => (nc <= length row)%nat) (feature_rows test) -> real_labels ys test -> rectangular nt ys -> ys <> [] ->
  length (feature_rows test) = length ys ->
  regression_boost_score m test = calculate_overall_mean_squared_error test t.
Proof. exact (regression_full_step_error nc nt d ls cfg t m test ys). Qed.
Print Assumptions C106_full_step_error.

(** The tree answers 9 and 0, the mean is 3; the ensemble answers 3 + 6 lr and 3 - 3 lr. *)
Example C106_example :
  wf_dataset 1 1 plain /\ real_labels [[9]; [0]; [0]] plain /\ standard (plain_cfg 2) /\ tc_number_of_classes (plain_cfg 2) = N.of_nat 1 /\
  forall lr, exists t m, regression_tree_new plain (plain_cfg 2) = Ok t /\ regression_boost_train plain (plain_cfg 2) 1 (Fin lr) = Ok m /\
    tree_prediction [Fin 7] t = Ok [Fin 9] /\ tree_prediction [Fin (3/2)] t = Ok [Fin 0] /\
    regression_boost_predict m [Fin 7] = Ok [Fin (3 + 6 * lr)] /\ regression_boost_predict m [Fin (3/2)] = Ok [Fin (3 - 3 * lr)].
Proof. exact (conj (proj1 plain_wf) (conj (proj2 plain_wf) (conj eq_refl (conj eq_refl plain_blend)))). Qed.
