(** Properties C32, C38, C39, C40, C42 (sum), C43, C47 (regression), C48, C49 (zero rate) and C52: scores and ensembles in
    exact arithmetic. *)
From Coq Require Import Reals Permutation.
From Verif Require Import Base Num ModelCommon ModelTree ModelBoost Spec SpecTree XR SpecExact SpecScore SpecFit SpecError SpecClass SpecAffine
  ProofScoreExact ProofBoostExact ProofClassExact ProofClassRun ProofShift ProofTight ProofWitness DemoExact DemoBoostExact.
Local Open Scope R_scope.

(* ------------------------------------------------------------------ *)
(** ** C32 *)

Theorem C32_tree_error (nt : nat) (t : tree_node regression_leaf) (test : dataset) (ls ps : list (list R)) :
  (0 < nt)%nat -> real_labels ls test -> ls <> [] -> rectangular nt ls -> length (feature_rows test) = length ls ->
  Forall2 (fun row p => tree_prediction row t = Ok (map Fin p) /\ length p = nt) (feature_rows test) ps ->
  exists e, calculate_overall_mean_squared_error test t = Ok (Fin e) /\
    e = mean_squared_error nt ps ls /\ 0 <= e /\ (e = 0 <-> ps = ls).
Proof. exact (tree_score_spec nt t test ls ps). Qed.
Print Assumptions C32_tree_error.

Theorem C32_ensemble_score (nt : nat) (m : regression_boost_model) (test : dataset) (ls ps : list (list R)) :
  (0 < nt)%nat -> real_labels ls test -> ls <> [] -> rectangular nt ls -> length (feature_rows test) = length ls ->
  Forall2 (fun row p => regression_boost_predict m row = Ok (map Fin p) /\ length p = nt) (feature_rows test) ps ->
  exists e, regression_boost_score m test = Ok (Fin e) /\
    e = mean_squared_error nt ps ls /\ 0 <= e /\ (e = 0 <-> ps = ls).
Proof. exact (boost_score_spec nt m test ls ps). Qed.
Print Assumptions C32_ensemble_score.

(** The predictions required above exist for every trained ensemble. *)
Theorem C32_trained_predictions (nc nt : nat) (d : dataset) (ls : list (list R)) (cfg : tree_config) (n : nat) (lr : R)
    (m : regression_boost_model) (rows : list (list F)) :
  wf_dataset nc nt d -> real_labels ls d -> regression_boost_train d cfg n (Fin lr) = Ok m ->
  (forall row, In row rows -> (nc <= length row)%nat) ->
  exists ps, Forall2 (fun row p => regression_boost_predict m row = Ok (map Fin p) /\ length p = nt) rows ps.
Proof. exact (trained_predictions nc nt d ls cfg n lr m rows). Qed.
Print Assumptions C32_trained_predictions.

Example C32_example :
  (exists t t', regression_tree_new plain (with_levels 0 (plain_cfg 2)) = Ok t /\ regression_tree_new plain (plain_cfg 2) = Ok t' /\
     calculate_overall_mean_squared_error plain t = Ok (Fin 18) /\ calculate_overall_mean_squared_error plain t' = Ok (Fin 0)) /\
  (exists m m', regression_boost_train plain (plain_cfg 2) 0 (Fin 3) = Ok m /\ regression_boost_train plain (plain_cfg 2) 1 (Fin 3) = Ok m' /\
     regression_boost_score m plain = Ok (Fin 18) /\ regression_boost_score m' plain = Ok (Fin 72)).
Proof. exact (conj plain_errors plain_above_two). Qed.

(* ------------------------------------------------------------------ *)
(** ** C38 *)

Theorem C38_boosting_fits_no_worse (nc nt : nat) (d : dataset) (ls : list (list R)) (cfg : tree_config) (n : nat) (lr : R)
    (m m' : regression_boost_model) :
  wf_dataset nc nt d -> real_labels ls d -> (0 < nt)%nat -> 0 <= lr <= 2 ->
  regression_boost_train d cfg n (Fin lr) = Ok m -> regression_boost_train d cfg (S n) (Fin lr) = Ok m' ->
  exists e e', regression_boost_score m d = Ok (Fin e) /\ regression_boost_score m' d = Ok (Fin e') /\ e' <= e.
Proof. exact (boosting_no_worse nc nt d ls cfg n lr m m'). Qed.
Print Assumptions C38_boosting_fits_no_worse.

(** With trees deep enough to separate consistent data each iteration scales the score by (1 - rate)^2. *)
Theorem C38_deep_trees_scale_the_score (nc nt : nat) (d : dataset) (ls : list (list R)) (cfg : tree_config) (n : nat) (lr : R)
    (m m' : regression_boost_model) :
  wf_dataset nc nt d -> real_labels ls d -> (0 < nt)%nat -> consistent d -> standard cfg -> tc_number_of_classes cfg = N.of_nat nt ->
  (N.of_nat (length (feature_rows d)) <= tc_max_levels cfg + 1)%N ->
  regression_boost_train d cfg n (Fin lr) = Ok m -> regression_boost_train d cfg (S n) (Fin lr) = Ok m' ->
  exists e, regression_boost_score m d = Ok (Fin e) /\ regression_boost_score m' d = Ok (Fin ((1 - lr) * (1 - lr) * e)).
Proof. exact (deep_boosting nc nt d ls cfg n lr m m'). Qed.
Print Assumptions C38_deep_trees_scale_the_score.

(** Above rate 2 the score can increase. *)
Theorem C38_above_two_counterexample : exists m m',
  regression_boost_train plain (plain_cfg 2) 0 (Fin 3) = Ok m /\ regression_boost_train plain (plain_cfg 2) 1 (Fin 3) = Ok m' /\
  regression_boost_score m plain = Ok (Fin 18) /\ regression_boost_score m' plain = Ok (Fin 72).
Proof. exact plain_above_two. Qed.
Print Assumptions C38_above_two_counterexample.

Example C38_example : wf_dataset 1 1 plain /\ real_labels [[9]; [0]; [0]] plain /\
  exists m m',
    regression_boost_train plain (plain_cfg 2) 0 (Fin (1/2)) = Ok m /\ regression_boost_train plain (plain_cfg 2) 1 (Fin (1/2)) = Ok m' /\
    regression_boost_score m plain = Ok (Fin 18) /\ regression_boost_score m' plain = Ok (Fin ((1 - 1/2) * (1 - 1/2) * 18)).
Proof. exact (conj (proj1 plain_wf) (conj (proj2 plain_wf) (plain_step (1/2)))). Qed.

(* ------------------------------------------------------------------ *)
(** ** C39 *)

Theorem C39_residuals (k : nat) (td : training_data) (scores : list (list R)) :
  (2 <= k)%nat -> one_hot_labels k (td_data td) -> td_labels td = map (map Fin) scores -> rectangular k scores ->
  td_size td = length (labels (td_data td)) -> length scores = length (labels (td_data td)) ->
  exists r, calculate_residuals_multi_class td = Ok (map (map Fin) r) /\ length r = length scores /\
    (forall i y s v, nth_error (labels (td_data td)) i = Some y -> nth_error scores i = Some s -> nth_error r i = Some v ->
       length v = k /\ (forall j, (j < k)%nat -> nth_error y j = Some (Fin (nth j v 0 + probability s j)))) /\
    (forall v, In v r -> (forall x, In x v -> -1 < x < 1) /\ Rsum v = 0).
Proof. exact (residuals_exact k td scores). Qed.
Print Assumptions C39_residuals.

(** The residuals every tree of a trained ensemble was fitted to (see C36). *)
Theorem C39_multi_class_run (nc nt : nat) (d : dataset) (cfg : tree_config) (n : nat) (lr : R) (m : multi_class_boost_model) (k : nat) :
  (2 <= nt)%nat -> (Z.of_nat nt <= 2 ^ 53)%Z -> wf_dataset nc nt d -> one_hot_labels nt d ->
  multi_class_boost_train d cfg n (Fin lr) = Ok m -> (k < n)%nat ->
  exists scores r, mapM (multi_class_boost_raw (first_trees k m)) (feature_rows d) = Ok scores /\
    differences (labels d) (map softmax scores) = map (map Fin) r /\ length r = length (feature_rows d) /\
    (forall v, In v r -> length v = nt /\ (forall x, In x v -> -1 < x < 1) /\ Rsum v = 0).
Proof. exact (multi_residuals nc nt d cfg n lr m k). Qed.
Print Assumptions C39_multi_class_run.

Theorem C39_amg_run (nc nt : nat) (d : dataset) (cfg : tree_config) (n : nat) (lr : R) (m : amg_boost_model) (k : nat) :
  (2 <= nt)%nat -> (Z.of_nat nt <= 2 ^ 53)%Z -> wf_dataset nc nt d -> one_hot_labels nt d ->
  amg_boost_train d cfg n (Fin lr) = Ok m -> (k < n)%nat ->
  exists scores r, mapM (amg_boost_raw (first_trees k m)) (feature_rows d) = Ok scores /\
    differences (labels d) (map softmax scores) = map (map Fin) r /\ length r = length (feature_rows d) /\
    (forall v, In v r -> length v = nt /\ (forall x, In x v -> -1 < x < 1) /\ Rsum v = 0).
Proof. exact (amg_residuals nc nt d cfg n lr m k). Qed.
Print Assumptions C39_amg_run.

Example C39_example : one_hot_labels 2 two /\
  calculate_residuals_multi_class (mkTD two (map (map Fin) [[0; 0]; [5; 5]]) 2) = Ok (map (map Fin) [[1/2; -1/2]; [-1/2; 1/2]]).
Proof. exact (conj two_one_hot two_residuals). Qed.

(* ------------------------------------------------------------------ *)
(** ** C40 *)

Theorem C40_multi_class_leaf_outputs (nc nt : nat) (d : dataset) (cfg : tree_config) (n : nat) (lr : R) (m : multi_class_boost_model)
    (k : nat) :
  (2 <= nt)%nat -> (Z.of_nat nt <= 2 ^ 53)%Z -> wf_dataset nc nt d -> one_hot_labels nt d ->
  multi_class_boost_train d cfg n (Fin lr) = Ok m -> (k < n)%nat ->
  exists scores r t, mapM (multi_class_boost_raw (first_trees k m)) (feature_rows d) = Ok scores /\
    differences (labels d) (map softmax scores) = map (map Fin) r /\ nth_error (m_trees m) k = Some t /\
    (forall l, In l (leaves t) -> exists group, group <> [] /\ incl group r /\
       (forall j, (j < nt)%nat -> 0 < curvature (target j group)) /\ gl_output l = Some (map Fin (class_output nt group))) /\
    (forall row, (nc <= length row)%nat -> exists group,
       map snd (samples_like row t (mkDS (feature_rows d) (map (map Fin) r) (feature_columns d))) = map (map Fin) group /\
       find_leaf_node_for_data row t = Ok (mkGL (Some (map Fin (class_output nt group))))).
Proof. exact (multi_leaf_outputs nc nt d cfg n lr m k). Qed.
Print Assumptions C40_multi_class_leaf_outputs.

Theorem C40_amg_leaf_outputs (nc nt : nat) (d : dataset) (cfg : tree_config) (n : nat) (lr : R) (m : amg_boost_model) (k : nat) :
  (2 <= nt)%nat -> (Z.of_nat nt <= 2 ^ 53)%Z -> wf_dataset nc nt d -> one_hot_labels nt d ->
  amg_boost_train d cfg n (Fin lr) = Ok m -> (k < n)%nat ->
  exists scores r t, mapM (amg_boost_raw (first_trees k m)) (feature_rows d) = Ok scores /\
    differences (labels d) (map softmax scores) = map (map Fin) r /\ nth_error (m_trees m) k = Some t /\
    (forall l, In l (leaves t) -> exists group c, group <> [] /\ incl group r /\
       (forall j, (j < nt)%nat -> 0 < curvature (target j group)) /\ (c < nt)%nat /\ al_class l = Some c /\
       al_max l = Some (Fin (nth c (class_output nt group) 0))) /\
    (forall row, (nc <= length row)%nat -> exists group c,
       map snd (samples_like row t (mkDS (feature_rows d) (map (map Fin) r) (feature_columns d))) = map (map Fin) group /\
       find_leaf_node_for_data row t = Ok (mkAL (Some (Fin (nth c (class_output nt group) 0))) (Some c)) /\
       (c < nt)%nat /\
       forall j, (j < nt)%nat -> nth j (class_output nt group) 0 <= nth c (class_output nt group) 0 /\
         ((j < c)%nat -> nth j (class_output nt group) 0 < nth c (class_output nt group) 0)).
Proof. exact (amg_leaf_outputs_largest nc nt d cfg n lr m k). Qed.
Print Assumptions C40_amg_leaf_outputs.

(** With one class every leaf output is NaN. *)
Theorem C40_multi_class_one_class (nc : nat) (d : dataset) (cfg : tree_config) (n : nat) (lr : F) (m : multi_class_boost_model)
    (t : tree_node grad_boost_leaf) (l : grad_boost_leaf) :
  wf_dataset nc 1 d -> one_hot_labels 1 d -> multi_class_boost_train d cfg n lr = Ok m ->
  In t (m_trees m) -> In l (leaves t) -> gl_output l = Some [XNaN].
Proof. exact (multi_one_class nc d cfg n lr m t l). Qed.
Print Assumptions C40_multi_class_one_class.

Theorem C40_amg_one_class (nc : nat) (d : dataset) (cfg : tree_config) (n : nat) (lr : F) (m : amg_boost_model)
    (t : tree_node amg_leaf) (l : amg_leaf) :
  wf_dataset nc 1 d -> one_hot_labels 1 d -> amg_boost_train d cfg n lr = Ok m ->
  In t (m_trees m) -> In l (leaves t) ->
  exists x, wf_dataset nc 1 x /\ incl (feature_rows x) (feature_rows d) /\
    leaf_output_calculator_new MultiClassClassification x = Ok [XNaN] /\ al_max l = Some NInf /\ al_class l = Some 0%nat.
Proof. exact (amg_one_class nc d cfg n lr m t l). Qed.
Print Assumptions C40_amg_one_class.

Example C40_example : wf_dataset 1 2 two /\ one_hot_labels 2 two /\
  (exists m, multi_class_boost_train two (two_cfg 3) 5 (Fin (1/2)) = Ok m) /\
  (exists m, amg_boost_train two (two_cfg 3) 5 (Fin (1/2)) = Ok m) /\
  class_output 2 [[1/2; -1/2]] = [1; -1].
Proof. exact (conj (proj1 two_wf) (conj two_one_hot (conj (two_multi 3 5 _) (conj (two_amg 3 5 _) two_output)))). Qed.

Example C40_one_class_example : wf_dataset 1 1 one /\ one_hot_labels 1 one /\
  (exists m, multi_class_boost_train one (one_cfg 3) 5 (Fin (1/2)) = Ok m) /\
  (exists m, amg_boost_train one (one_cfg 3) 5 (Fin (1/2)) = Ok m).
Proof. exact (conj (proj1 one_wf) (conj one_one_hot (conj (one_multi 3 5 _) (one_amg 3 5 _)))). Qed.

(* ------------------------------------------------------------------ *)
(** ** C42, the sum *)

Theorem C42_sums_to_zero (l : amg_leaf) (k : nat) (m : R) (c : nat) :
  (2 <= k)%nat -> al_max l = Some (Fin m) -> al_class l = Some c -> (c < k)%nat ->
  exists v, construct_approximate_leaf_output l k = Ok (map Fin v) /\ length v = k /\ nth_error v c = Some m /\
    (forall j, (j < k)%nat -> j <> c -> nth_error v j = Some (- m / (INR k - 1))) /\ Rsum v = 0.
Proof. exact (amg_sums_to_zero l k m c). Qed.
Print Assumptions C42_sums_to_zero.

Example C42_sum_example : al_max (mkAL (Some (Fin 6)) (Some 1%nat)) = Some (Fin 6) /\ - 6 / (INR 3 - 1) = -3.
Proof. exact (conj eq_refl minus_three). Qed.

(* ------------------------------------------------------------------ *)
(** ** C43 *)

Theorem C43_two_classes (nc : nat) (d : dataset) (cfg : tree_config) (n : nat) (lr : R) (m : multi_class_boost_model)
    (m' : amg_boost_model) :
  wf_dataset nc 2 d -> one_hot_labels 2 d ->
  multi_class_boost_train d cfg n (Fin lr) = Ok m -> amg_boost_train d cfg n (Fin lr) = Ok m' ->
  Forall2 (fun t t' => tree_map (fun _ => tt) t = tree_map (fun _ => tt) t') (m_trees m) (m_trees m') /\
  (forall row, multi_class_boost_raw m row = amg_boost_raw m' row) /\
  (forall row, multi_class_boost_predict m row = amg_boost_predict m' row) /\
  (forall test, multi_class_boost_score m test = amg_boost_score m' test).
Proof. exact (two_classes nc d cfg n lr m m'). Qed.
Print Assumptions C43_two_classes.

Example C43_example : wf_dataset 1 2 two /\ one_hot_labels 2 two /\
  (exists m, multi_class_boost_train two (two_cfg 3) 5 (Fin (1/2)) = Ok m) /\
  (exists m, amg_boost_train two (two_cfg 3) 5 (Fin (1/2)) = Ok m).
Proof. exact (conj (proj1 two_wf) (conj two_one_hot (conj (two_multi 3 5 _) (two_amg 3 5 _)))). Qed.

(* ------------------------------------------------------------------ *)
(** ** C47, regression *)

Theorem C47_tree_error_ignores_order (t : tree_node regression_leaf) (test test' : dataset) (e : F) :
  length (feature_rows test) = length (labels test) -> length (feature_rows test') = length (labels test') ->
  Permutation (samples test) (samples test') ->
  calculate_overall_mean_squared_error test t = Ok e -> calculate_overall_mean_squared_error test' t = Ok e.
Proof. exact (tree_score_perm t test test' e). Qed.
Print Assumptions C47_tree_error_ignores_order.

Theorem C47_ensemble_score_ignores_order (m : regression_boost_model) (test test' : dataset) (e : F) :
  length (feature_rows test) = length (labels test) -> length (feature_rows test') = length (labels test') ->
  Permutation (samples test) (samples test') ->
  regression_boost_score m test = Ok e -> regression_boost_score m test' = Ok e.
Proof. exact (boost_score_perm m test test' e). Qed.
Print Assumptions C47_ensemble_score_ignores_order.

Example C47_regression_example :
  Permutation (samples plain) (samples plain_reordered) /\
  exists m m', regression_boost_train plain (plain_cfg 2) 0 (Fin 3) = Ok m /\ regression_boost_train plain (plain_cfg 2) 1 (Fin 3) = Ok m' /\
    regression_boost_score m plain = Ok (Fin 18) /\ regression_boost_score m' plain = Ok (Fin 72).
Proof. exact (conj plain_reordered_perm plain_above_two). Qed.

(* ------------------------------------------------------------------ *)
(** ** C48 *)

Theorem C48_tree_shift (nc nt : nat) (d : dataset) (ls : list (list R)) (cfg : tree_config) (v : list R)
    (t t' : tree_node regression_leaf) :
  wf_dataset nc nt d -> real_labels ls d -> standard cfg -> tc_number_of_classes cfg = N.of_nat nt -> length v = nt ->
  regression_tree_new d cfg = Ok t -> regression_tree_new (relabel d (map (shift v) ls)) cfg = Ok t' ->
  tree_map (fun _ => tt) t' = tree_map (fun _ => tt) t /\
  forall row, (tree_prediction row t = Panic /\ tree_prediction row t' = Panic) \/
    exists p, tree_prediction row t = Ok (map Fin p) /\ length p = nt /\ tree_prediction row t' = Ok (map Fin (shift v p)).
Proof. exact (tree_shift nc nt d ls cfg v t t'). Qed.
Print Assumptions C48_tree_shift.

Theorem C48_ensemble_shift (nc nt : nat) (d : dataset) (ls : list (list R)) (cfg : tree_config) (n : nat) (lr : R) (v : list R)
    (m m' : regression_boost_model) :
  wf_dataset nc nt d -> real_labels ls d -> standard cfg -> tc_number_of_classes cfg = N.of_nat nt -> length v = nt ->
  regression_boost_train d cfg n (Fin lr) = Ok m ->
  regression_boost_train (relabel d (map (shift v) ls)) cfg n (Fin lr) = Ok m' ->
  m_trees m' = m_trees m /\
  forall row, (regression_boost_predict m row = Panic /\ regression_boost_predict m' row = Panic) \/
    exists p, regression_boost_predict m row = Ok (map Fin p) /\ length p = nt /\ regression_boost_predict m' row = Ok (map Fin (shift v p)).
Proof. exact (boost_shift nc nt d ls cfg n lr v m m'). Qed.
Print Assumptions C48_ensemble_shift.

Example C48_example : wf_dataset 1 1 plain /\ real_labels [[9]; [0]; [0]] plain /\
  map (shift [5]) [[9]; [0]; [0]] = [[9 + 5]; [0 + 5]; [0 + 5]] /\
  (exists m, regression_boost_train plain (plain_cfg 2) 3 (Fin (1/2)) = Ok m) /\
  exists m' t', regression_boost_train (relabel plain [[9 + 5]; [0 + 5]; [0 + 5]]) (plain_cfg 2) 3 (Fin (1/2)) = Ok m' /\
    regression_tree_new (relabel plain [[9 + 5]; [0 + 5]; [0 + 5]]) (plain_cfg 2) = Ok t'.
Proof.
  exact (conj (proj1 plain_wf) (conj (proj2 plain_wf) (conj eq_refl (conj (plain_trained 2 3 _) (plain_relabelled 3 (1/2) [[9 + 5]; [0 + 5]; [0 + 5]] eq_refl three_rows))))).
Qed.

(* ------------------------------------------------------------------ *)
(** ** C49, zero learning rate *)

Theorem C49_zero_learning_rate (nc nt : nat) (d : dataset) (ls : list (list R)) (cfg : tree_config) (n : nat)
    (m : regression_boost_model) (row : list F) :
  wf_dataset nc nt d -> real_labels ls d -> regression_boost_train d cfg n (Fin 0) = Ok m -> (nc <= length row)%nat ->
  regression_boost_predict m row = Ok (m_initial_guess m) /\ m_initial_guess m = map (fun j => Fin (mean (target j ls))) (seq 0 nt).
Proof. exact (zero_learning_rate nc nt d ls cfg n m row). Qed.
Print Assumptions C49_zero_learning_rate.

Example C49_zero_rate_example : wf_dataset 1 1 plain /\ real_labels [[9]; [0]; [0]] plain /\
  (exists m, regression_boost_train plain (plain_cfg 2) 4 (Fin 0) = Ok m) /\ (1 <= length [Fin 8])%nat.
Proof. exact (conj (proj1 plain_wf) (conj (proj2 plain_wf) (conj (plain_trained 2 4 _) (le_n 1)))). Qed.

(* ------------------------------------------------------------------ *)
(** ** C52 *)

Theorem C52_tree_rescaling (nc nt : nat) (d : dataset) (ls : list (list R)) (cfg : tree_config) (s : R) (v : list R)
    (t t' : tree_node regression_leaf) :
  wf_dataset nc nt d -> real_labels ls d -> standard cfg -> tc_number_of_classes cfg = N.of_nat nt -> s <> 0 -> length v = nt ->
  regression_tree_new d cfg = Ok t -> regression_tree_new (relabel d (map (affine s v) ls)) cfg = Ok t' ->
  tree_map (fun _ => tt) t' = tree_map (fun _ => tt) t /\
  forall row, (tree_prediction row t = Panic /\ tree_prediction row t' = Panic) \/
    exists p, tree_prediction row t = Ok (map Fin p) /\ length p = nt /\ tree_prediction row t' = Ok (map Fin (affine s v p)).
Proof. exact (tree_affine nc nt d ls cfg s v t t'). Qed.
Print Assumptions C52_tree_rescaling.

Theorem C52_ensemble_rescaling (nc nt : nat) (d : dataset) (ls : list (list R)) (cfg : tree_config) (n : nat) (lr s : R) (v : list R)
    (m m' : regression_boost_model) :
  wf_dataset nc nt d -> real_labels ls d -> standard cfg -> tc_number_of_classes cfg = N.of_nat nt -> s <> 0 -> length v = nt ->
  regression_boost_train d cfg n (Fin lr) = Ok m ->
  regression_boost_train (relabel d (map (affine s v) ls)) cfg n (Fin lr) = Ok m' ->
  Forall2 (fun t t' => tree_map (fun _ => tt) t' = tree_map (fun _ => tt) t) (m_trees m) (m_trees m') /\
  forall row, (regression_boost_predict m row = Panic /\ regression_boost_predict m' row = Panic) \/
    exists p, regression_boost_predict m row = Ok (map Fin p) /\ length p = nt /\ regression_boost_predict m' row = Ok (map Fin (affine s v p)).
Proof. exact (boost_affine nc nt d ls cfg n lr s v m m'). Qed.
Print Assumptions C52_ensemble_rescaling.

Example C52_example : wf_dataset 1 1 plain /\ real_labels [[9]; [0]; [0]] plain /\
  map (affine (-2) [5]) [[9]; [0]; [0]] = [[-2 * 9 + 5]; [-2 * 0 + 5]; [-2 * 0 + 5]] /\
  (exists m, regression_boost_train plain (plain_cfg 2) 3 (Fin (1/2)) = Ok m) /\
  exists m' t', regression_boost_train (relabel plain [[-2 * 9 + 5]; [-2 * 0 + 5]; [-2 * 0 + 5]]) (plain_cfg 2) 3 (Fin (1/2)) = Ok m' /\
    regression_tree_new (relabel plain [[-2 * 9 + 5]; [-2 * 0 + 5]; [-2 * 0 + 5]]) (plain_cfg 2) = Ok t'.
Proof.
  exact (conj (proj1 plain_wf) (conj (proj2 plain_wf) (conj eq_refl (conj (plain_trained 2 3 _) (plain_relabelled 3 (1/2) [[-2 * 9 + 5]; [-2 * 0 + 5]; [-2 * 0 + 5]] eq_refl three_rows'))))).
Qed.
