(** Properties C33-C37, C42 (structure), C44 and C49 (no iterations): the three ensembles, in
    binary64 arithmetic on every platform. *)
From Flocq Require Import IEEE754.BinarySingleNaN.
From Verif Require Import Base Num ModelCommon ModelTree ModelBoost Spec SpecTree SpecScore F64
  ProofBoost ProofBoost2 ProofLeaf ProofTight Decide Check Demo.
Local Open Scope nat_scope.

Example four_is_well_formed :
  wf_dataset 1 2 four /\ standard (four_cfg 1 true) /\ tc_number_of_classes (four_cfg 1 true) = N.of_nat 2.
Proof. split; [check_wf|split; reflexivity]. Qed.

(* ------------------------------------------------------------------ *)
(** ** C33 *)

Theorem C33_regression_shape (P : platform) (nt : nat) (d : dataset) (cfg : tree_config) (n : nat) (lr : F)
    (m : regression_boost_model) :
  rectangular nt (labels d) -> regression_boost_train d cfg n lr = Ok m ->
  length (m_trees m) = n /\ m_learning_rate m = lr /\
  length (m_initial_guess m) = nt /\
  forall j, j < nt -> nth_error (m_initial_guess m) j = Some (average_of (labels d) j).
Proof. exact (regression_shape nt d cfg n lr m). Qed.
Print Assumptions C33_regression_shape.

Theorem C33_multi_class_shape (P : platform) (nt : nat) (d : dataset) (cfg : tree_config) (n : nat) (lr : F)
    (m : multi_class_boost_model) :
  rectangular nt (labels d) -> (Z.of_nat nt <= 2 ^ 53)%Z -> multi_class_boost_train d cfg n lr = Ok m ->
  length (m_trees m) = n /\ m_learning_rate m = lr /\
  m_initial_guess m = repeat (fdiv f1 (f_of_nat nt)) nt.
Proof. exact (multi_class_shape (f64_laws P) nt d cfg n lr m). Qed.
Print Assumptions C33_multi_class_shape.

Theorem C33_amg_shape (P : platform) (nt : nat) (d : dataset) (cfg : tree_config) (n : nat) (lr : F)
    (m : amg_boost_model) :
  rectangular nt (labels d) -> (Z.of_nat nt <= 2 ^ 53)%Z -> amg_boost_train d cfg n lr = Ok m ->
  length (m_trees m) = n /\ m_learning_rate m = lr /\
  m_initial_guess m = repeat (fdiv f1 (f_of_nat nt)) nt.
Proof. exact (amg_shape (f64_laws P) nt d cfg n lr m). Qed.
Print Assumptions C33_amg_shape.

Example C33_example :
  let O := f64_ops taylor_platform in
  (m <- regression_boost_train four (four_cfg 1 true) 3 (n64 1);; Ok (m_initial_guess m)) =
    Ok [Bdiv mode_NE (n64 3) (n64 4); Bdiv mode_NE (n64 1) (n64 4)] /\
  (m <- regression_boost_train four (four_cfg 1 true) 3 (n64 1);; Ok (length (m_trees m))) = Ok 3 /\
  (m <- amg_boost_train four (four_cfg 1 true) 2 (n64 1);; Ok (m_initial_guess m)) =
    Ok [Bdiv mode_NE (n64 1) (n64 2); Bdiv mode_NE (n64 1) (n64 2)].
Proof. compute_eqs. Qed.

(* ------------------------------------------------------------------ *)
(** ** C34 *)

Theorem C34_regression_prefix (P : platform) (d : dataset) (cfg : tree_config) (n k : nat) (lr : F) (m : regression_boost_model) :
  k <= n -> regression_boost_train d cfg n lr = Ok m -> regression_boost_train d cfg k lr = Ok (first_trees k m).
Proof. exact (regression_prefix d cfg n k lr m). Qed.
Print Assumptions C34_regression_prefix.

Theorem C34_multi_class_prefix (P : platform) (d : dataset) (cfg : tree_config) (n k : nat) (lr : F) (m : multi_class_boost_model) :
  k <= n -> multi_class_boost_train d cfg n lr = Ok m -> multi_class_boost_train d cfg k lr = Ok (first_trees k m).
Proof. exact (multi_class_prefix d cfg n k lr m). Qed.
Print Assumptions C34_multi_class_prefix.

Theorem C34_amg_prefix (P : platform) (d : dataset) (cfg : tree_config) (n k : nat) (lr : F) (m : amg_boost_model) :
  k <= n -> amg_boost_train d cfg n lr = Ok m -> amg_boost_train d cfg k lr = Ok (first_trees k m).
Proof. exact (amg_prefix d cfg n k lr m). Qed.
Print Assumptions C34_amg_prefix.

Example C34_example :
  let O := f64_ops taylor_platform in
  (m3 <- multi_class_boost_train four (four_cfg 1 true) 3 (n64 1);;
   m1 <- multi_class_boost_train four (four_cfg 1 true) 1 (n64 1);;
   Ok (length (m_trees m3), length (m_trees (first_trees 1 m3)), length (m_trees m1))) = Ok (3, 1, 1).
Proof. compute_eqs. Qed.

(* ------------------------------------------------------------------ *)
(** ** C35 *)

Theorem C35_stage_fits_residuals (P : platform) (d : dataset) (cfg : tree_config) (n : nat) (lr : F)
    (m : regression_boost_model) (k : nat) :
  length (labels d) = length (feature_rows d) ->
  regression_boost_train d cfg n lr = Ok m -> k < n ->
  exists preds t,
    regression_boost_all_predictions (first_trees k m) d = Ok preds /\
    Forall2 (fun y s => length y = length s) (labels d) preds /\
    nth_error (m_trees m) k = Some t /\
    grad_boost_tree_new (mkDS (feature_rows d) (differences (labels d) preds) (feature_columns d)) cfg
      (leaf_output_calculator_new Regression) = Ok t.
Proof. exact (regression_stage d cfg n lr m k). Qed.
Print Assumptions C35_stage_fits_residuals.

(** Residuals of the first stage: label minus average. *)
Example C35_example :
  let O := f64_ops taylor_platform in
  let q k := Bdiv mode_NE (n64 k) (n64 4) in
  (m <- regression_boost_train four (four_cfg 1 true) 2 (n64 1);;
   preds <- regression_boost_all_predictions (first_trees 0 m) four;;
   Ok (differences (labels four) preds)) =
  Ok [[q 1; q (-1)]; [q 1; q (-1)]; [q (-3); q 3]; [q 1; q (-1)]]%Z.
Proof. compute_eqs. Qed.

(* ------------------------------------------------------------------ *)
(** ** C36 *)

Theorem C36_multi_class_stage_fits_residuals (P : platform) (d : dataset) (cfg : tree_config) (n : nat) (lr : F)
    (m : multi_class_boost_model) (k : nat) :
  length (labels d) = length (feature_rows d) ->
  multi_class_boost_train d cfg n lr = Ok m -> k < n ->
  exists scores t,
    mapM (multi_class_boost_raw (first_trees k m)) (feature_rows d) = Ok scores /\
    Forall2 (fun y s => length y = length s) (labels d) scores /\
    nth_error (m_trees m) k = Some t /\
    grad_boost_tree_new (mkDS (feature_rows d) (differences (labels d) (map softmax scores)) (feature_columns d)) cfg
      (leaf_output_calculator_new MultiClassClassification) = Ok t.
Proof. exact (multi_class_stage d cfg n lr m k). Qed.
Print Assumptions C36_multi_class_stage_fits_residuals.

Theorem C36_amg_stage_fits_residuals (P : platform) (d : dataset) (cfg : tree_config) (n : nat) (lr : F)
    (m : amg_boost_model) (k : nat) :
  length (labels d) = length (feature_rows d) ->
  amg_boost_train d cfg n lr = Ok m -> k < n ->
  exists scores t,
    mapM (amg_boost_raw (first_trees k m)) (feature_rows d) = Ok scores /\
    Forall2 (fun y s => length y = length s) (labels d) scores /\
    nth_error (m_trees m) k = Some t /\
    amg_boost_tree_new (mkDS (feature_rows d) (differences (labels d) (map softmax scores)) (feature_columns d)) cfg
      (leaf_output_calculator_new MultiClassClassification) = Ok t.
Proof. exact (amg_stage d cfg n lr m k). Qed.
Print Assumptions C36_amg_stage_fits_residuals.

(** Residuals of the first stage: label minus 1/2. *)
Example C36_example :
  let O := f64_ops taylor_platform in
  let h k := Bdiv mode_NE (n64 k) (n64 2) in
  (m <- amg_boost_train four (four_cfg 1 true) 2 (n64 1);;
   scores <- mapM (amg_boost_raw (first_trees 0 m)) (feature_rows four);;
   Ok (differences (labels four) (map softmax scores))) =
  Ok [[h 1; h (-1)]; [h 1; h (-1)]; [h (-1); h 1]; [h 1; h (-1)]]%Z.
Proof. compute_eqs. Qed.

(* ------------------------------------------------------------------ *)
(** ** C37 *)

Theorem C37_prediction_is_a_sum (P : platform) (m : regression_boost_model) (row : list F) (outs : list (list F)) :
  Forall2 (fun t o => find_leaf_node_for_data row t = Ok (mkGL (Some o)) /\ length (m_initial_guess m) <= length o)
    (m_trees m) outs ->
  exists p, regression_boost_predict m row = Ok p /\ length p = length (m_initial_guess m) /\
    forall j x, nth_error (m_initial_guess m) j = Some x ->
      nth_error p j = Some (fold_left (fun s o => fadd s (fmul (m_learning_rate m) (nth j o f0))) outs x).
Proof. exact (regression_predict_sum m row outs). Qed.
Print Assumptions C37_prediction_is_a_sum.

(** For trained models the leaf outputs exist and have the right length. *)
Theorem C37_trained_prediction_is_a_sum (P : platform) (nc nt : nat) (d : dataset) (cfg : tree_config) (n : nat) (lr : F)
    (m : regression_boost_model) (row : list F) :
  wf_dataset nc nt d -> regression_boost_train d cfg n lr = Ok m -> nc <= length row ->
  exists outs p,
    Forall2 (fun t o => find_leaf_node_for_data row t = Ok (mkGL (Some o)) /\ length o = nt) (m_trees m) outs /\
    regression_boost_predict m row = Ok p /\ length p = nt /\
    forall j x, nth_error (m_initial_guess m) j = Some x ->
      nth_error p j = Some (fold_left (fun s o => fadd s (fmul lr (nth j o f0))) outs x).
Proof. exact (regression_trained_sum nc nt d cfg n lr m row). Qed.
Print Assumptions C37_trained_prediction_is_a_sum.

(** The raw scores of the classification ensembles are sums of the same kind. *)
Theorem C37_multi_class_score_is_a_sum (P : platform) (m : multi_class_boost_model) (row : list F) (outs : list (list F)) :
  Forall2 (fun t o => find_leaf_node_for_data row t = Ok (mkGL (Some o)) /\ length (m_initial_guess m) <= length o)
    (m_trees m) outs ->
  exists p, multi_class_boost_raw m row = Ok p /\ length p = length (m_initial_guess m) /\
    forall j x, nth_error (m_initial_guess m) j = Some x ->
      nth_error p j = Some (fold_left (fun s o => fadd s (fmul (m_learning_rate m) (nth j o f0))) outs x).
Proof. exact (multi_class_raw_sum m row outs). Qed.
Print Assumptions C37_multi_class_score_is_a_sum.

Theorem C37_amg_score_is_a_sum (P : platform) (m : amg_boost_model) (row : list F) (outs : list (nat * F)) :
  Forall2 (fun t o => find_leaf_node_for_data row t = Ok (mkAL (Some (snd o)) (Some (fst o))) /\ fst o < length (m_initial_guess m))
    (m_trees m) outs ->
  exists p, amg_boost_raw m row = Ok p /\ length p = length (m_initial_guess m) /\
    forall j x, nth_error (m_initial_guess m) j = Some x ->
      nth_error p j = Some (fold_left (fun s o => fadd s (fmul (m_learning_rate m)
        (if j =? fst o then snd o else fdiv (fneg (snd o)) (fsub (f_of_nat (length (m_initial_guess m))) f1)))) outs x).
Proof. exact (amg_raw_sum m row outs). Qed.
Print Assumptions C37_amg_score_is_a_sum.

Example C37_example :
  let O := f64_ops taylor_platform in
  let stub o := leaf_node (@Question O 0 (n64 0)) (mkGL (Some o)) in
  let amg_stub c x := leaf_node (@Question O 0 (n64 0)) (mkAL (O := O) (Some x) (Some c)) in
  regression_boost_predict (O := O) (mkModel [stub [n64 1; n64 2]; stub [n64 3; n64 4]] [n64 10; n64 20] (n64 5)) [] =
    Ok [n64 30; n64 50] /\
  amg_boost_raw (O := O) (mkModel [amg_stub 0 (n64 4); amg_stub 2 (n64 6)] [n64 0; n64 0; n64 0] (n64 1)) [] =
    Ok [n64 1; n64 (-5); n64 4].
Proof. compute_eqs. Qed.

(* ------------------------------------------------------------------ *)
(** ** C42: what an AMG leaf stores *)

(** [x] is the part of the training data that reaches the leaf. *)
Theorem C42_leaf_stores_largest_entry (P : platform) (nc nt : nat) (d : dataset) (cfg : tree_config) (kind : leaf_output_type)
    (t : tree_node amg_leaf) (l : amg_leaf) :
  0 < nt -> wf_dataset nc nt d ->
  amg_boost_tree_new d cfg (leaf_output_calculator_new kind) = Ok t -> In l (leaves t) ->
  exists row x o m c, In row (feature_rows d) /\ find_leaf_node_for_data row t = Ok l /\
    samples x = samples_like row t d /\ wf_dataset nc nt x /\ leaf_output_calculator_new kind x = Ok o /\ length o = nt /\
    al_max l = Some m /\ al_class l = Some c /\ c < nt /\ first_largest o c /\
    (nth_error o c = Some m /\ fltb fninf m = true \/ m = fninf /\ (forall y, In y o -> fltb fninf y = false)).
Proof. exact (amg_leaf_values_reached (f64_laws P) nc nt d cfg kind t l). Qed.
Print Assumptions C42_leaf_stores_largest_entry.

Theorem C42_leaf_of_any_row (P : platform) (nc nt : nat) (d : dataset) (cfg : tree_config) (kind : leaf_output_type)
    (t : tree_node amg_leaf) (row : list F) :
  0 < nt -> wf_dataset nc nt d ->
  amg_boost_tree_new d cfg (leaf_output_calculator_new kind) = Ok t -> nc <= length row ->
  exists x o m c, samples x = samples_like row t d /\ wf_dataset nc nt x /\ leaf_output_calculator_new kind x = Ok o /\ length o = nt /\
    find_leaf_node_for_data row t = Ok (mkAL (Some m) (Some c)) /\ c < nt /\ first_largest o c /\
    (nth_error o c = Some m /\ fltb fninf m = true \/ m = fninf /\ (forall y, In y o -> fltb fninf y = false)).
Proof. exact (amg_leaf_of_row (f64_laws P) nc nt d cfg kind t row). Qed.
Print Assumptions C42_leaf_of_any_row.

Theorem C42_reconstruction (P : platform) (l : amg_leaf) (k : nat) (m : F) (c : nat) :
  al_max l = Some m -> al_class l = Some c -> c < k ->
  exists v, construct_approximate_leaf_output l k = Ok v /\ length v = k /\ nth_error v c = Some m /\
    forall j, j < k -> j <> c -> nth_error v j = Some (fdiv (fneg m) (fsub (f_of_nat k) f1)).
Proof. exact (amg_reconstruct l k m c). Qed.
Print Assumptions C42_reconstruction.

(** Predictions add the reconstructed vectors of the row's leaves, scaled by the learning rate, and so does training. *)
Theorem C42_prediction (P : platform) (m : amg_boost_model) (row : list F) (outs : list (list F)) :
  Forall2 (fun t o => exists l, find_leaf_node_for_data row t = Ok l /\
             construct_approximate_leaf_output l (length (m_initial_guess m)) = Ok o) (m_trees m) outs ->
  exists p, amg_boost_raw m row = Ok p /\ length p = length (m_initial_guess m) /\
    forall j x, nth_error (m_initial_guess m) j = Some x ->
      nth_error p j = Some (fold_left (fun s o => fadd s (fmul (m_learning_rate m) (nth j o f0))) outs x).
Proof. exact (amg_prediction_reconstructs m row outs). Qed.
Print Assumptions C42_prediction.

Theorem C42_training_update (P : platform) (td td' : training_data) (t : tree_node amg_leaf) (lr : F) (k : nat) :
  length (td_labels td) = length (feature_rows (td_data td)) -> td_size td = length (td_labels td) ->
  td_labels td <> [] -> rectangular k (td_labels td) ->
  amg_update_dataset_labels td t lr = Ok td' ->
  Forall2 (fun p s' => exists leaf o,
             find_leaf_node_for_data (fst p) t = Ok leaf /\ construct_approximate_leaf_output leaf k = Ok o /\
             s' = map (fun q => fadd (fst q) (fmul lr (snd q))) (combine (snd p) o))
    (combine (feature_rows (td_data td)) (td_labels td)) (td_labels td').
Proof. exact (amg_training_update td td' t lr k). Qed.
Print Assumptions C42_training_update.

Example C42_example :
  let O := f64_ops taylor_platform in
  construct_approximate_leaf_output (O := O) (mkAL (Some (n64 6)) (Some 1)) 3 = Ok [n64 (-3); n64 6; n64 (-3)] /\
  (t <- amg_boost_tree_new four (four_cfg 0 true) (leaf_output_calculator_new Regression);;
   Ok (map (fun l => al_class l) (leaves t))) = Ok [Some 0] /\
  (td' <- amg_update_dataset_labels (mkTD four [[n64 0; n64 0]; [n64 0; n64 0]; [n64 0; n64 0]; [n64 0; n64 0]] 4)
            (leaf_node (@Question O 0 (n64 0)) (mkAL (Some (n64 6)) (Some 1))) (n64 2);; Ok (td_labels td')) =
    Ok [[n64 (-12); n64 12]; [n64 (-12); n64 12]; [n64 (-12); n64 12]; [n64 (-12); n64 12]].
Proof. compute_eqs. Qed.

(* ------------------------------------------------------------------ *)
(** ** C44 *)

Theorem C44_regression_total (P : platform) (nc nt : nat) (d : dataset) (cfg : tree_config) (n : nat) (lr : F) :
  wf_dataset nc nt d -> standard cfg -> tc_number_of_classes cfg = N.of_nat nt -> (Z.of_nat nt <= 2 ^ 53)%Z ->
  exists m, regression_boost_train d cfg n lr = Ok m /\
    forall row, nc <= length row -> exists p, regression_boost_predict m row = Ok p /\ length p = nt.
Proof. exact (regression_total_run (f64_laws P) nc nt d cfg n lr). Qed.
Print Assumptions C44_regression_total.

Theorem C44_multi_class_total (P : platform) (nc nt : nat) (d : dataset) (cfg : tree_config) (n : nat) (lr : F) :
  wf_dataset nc nt d -> 0 < nt -> standard cfg -> tc_number_of_classes cfg = N.of_nat nt -> (Z.of_nat nt <= 2 ^ 53)%Z ->
  exists m, multi_class_boost_train d cfg n lr = Ok m /\
    forall row, nc <= length row -> exists p, multi_class_boost_predict m row = Ok p /\ length p = nt.
Proof. exact (multi_class_total_run (f64_laws P) nc nt d cfg n lr). Qed.
Print Assumptions C44_multi_class_total.

Theorem C44_amg_total (P : platform) (nc nt : nat) (d : dataset) (cfg : tree_config) (n : nat) (lr : F) :
  wf_dataset nc nt d -> 0 < nt -> standard cfg -> tc_number_of_classes cfg = N.of_nat nt -> (Z.of_nat nt <= 2 ^ 53)%Z ->
  exists m, amg_boost_train d cfg n lr = Ok m /\
    forall row, nc <= length row -> exists p, amg_boost_predict m row = Ok p /\ length p = nt.
Proof. exact (amg_total_run (f64_laws P) nc nt d cfg n lr). Qed.
Print Assumptions C44_amg_total.

Example C44_example :
  let O := f64_ops taylor_platform in
  wf_dataset 1 2 four /\
  (m <- multi_class_boost_train four (four_cfg 1 true) 2 (n64 1);; multi_class_boost_predict m [n64 3]) = Ok [n64 0; n64 1] /\
  (m <- amg_boost_train four (four_cfg 1 true) 2 (n64 1);; amg_boost_predict m [n64 3]) = Ok [n64 0; n64 1] /\
  (m <- regression_boost_train four (four_cfg 1 true) 2 (n64 1);; regression_boost_predict m []) = Panic.
Proof. split; [check_wf|compute_eqs]. Qed.

(* ------------------------------------------------------------------ *)
(** ** C49, no iterations *)

Theorem C49_no_iterations (P : platform) (d : dataset) (cfg : tree_config) (lr : F) (m : regression_boost_model) (row : list F) :
  regression_boost_train d cfg 0 lr = Ok m -> regression_boost_predict m row = Ok (m_initial_guess m).
Proof. exact (no_iterations d cfg lr m row). Qed.
Print Assumptions C49_no_iterations.

Example C49_example :
  let O := f64_ops taylor_platform in
  (m <- regression_boost_train four (four_cfg 1 true) 0 (n64 1);; regression_boost_predict m [n64 7]) =
    Ok [Bdiv mode_NE (n64 3) (n64 4); Bdiv mode_NE (n64 1) (n64 4)].
Proof. compute_eqs. Qed.

(* ------------------------------------------------------------------ *)
(** ** C53 *)

Theorem C53_regression_leaf_is_the_average (P : platform) (nc nt : nat) (d : dataset) (cfg : tree_config)
    (t : tree_node grad_boost_leaf) (row : list F) :
  wf_dataset nc nt d -> grad_boost_tree_new d cfg (leaf_output_calculator_new Regression) = Ok t -> nc <= length row ->
  find_leaf_node_for_data row t = Ok (mkGL (Some (map (average_of (map snd (samples_like row t d))) (seq 0 nt)))).
Proof. exact (gb_regression_leaf nc nt d cfg t row). Qed.
Print Assumptions C53_regression_leaf_is_the_average.

Theorem C53_classification_leaf (P : platform) (nc nt : nat) (d : dataset) (cfg : tree_config)
    (t : tree_node grad_boost_leaf) (row : list F) :
  wf_dataset nc nt d -> grad_boost_tree_new d cfg (leaf_output_calculator_new MultiClassClassification) = Ok t -> nc <= length row ->
  find_leaf_node_for_data row t = Ok (mkGL (Some (map (class_output_of nt (map snd (samples_like row t d))) (seq 0 nt)))).
Proof. exact (gb_class_leaf nc nt d cfg t row). Qed.
Print Assumptions C53_classification_leaf.

Theorem C53_amg_leaf (P : platform) (nc nt : nat) (d : dataset) (cfg : tree_config) (t : tree_node amg_leaf) (row : list F) :
  0 < nt -> wf_dataset nc nt d ->
  amg_boost_tree_new d cfg (leaf_output_calculator_new MultiClassClassification) = Ok t -> nc <= length row ->
  exists m c, find_leaf_node_for_data row t = Ok (mkAL (Some m) (Some c)) /\ c < nt /\
    first_largest (map (class_output_of nt (map snd (samples_like row t d))) (seq 0 nt)) c /\
    (m = class_output_of nt (map snd (samples_like row t d)) c /\ fltb fninf m = true \/
     m = fninf /\ (forall j, j < nt -> fltb fninf (class_output_of nt (map snd (samples_like row t d)) j) = false)).
Proof. exact (amg_class_leaf (f64_laws P) nc nt d cfg t row). Qed.
Print Assumptions C53_amg_leaf.

(** Every leaf is the one some training row is routed to, so the theorems above cover all leaves. *)
Theorem C53_every_leaf_is_reached (P : platform) (nc nt : nat) (d : dataset) (cfg : tree_config) (kind : leaf_output_type) :
  wf_dataset nc nt d ->
  (forall t l, regression_tree_new d cfg = Ok t -> In l (leaves t) ->
     exists row, In row (feature_rows d) /\ find_leaf_node_for_data row t = Ok l) /\
  (forall t l, grad_boost_tree_new d cfg (leaf_output_calculator_new kind) = Ok t -> In l (leaves t) ->
     exists row, In row (feature_rows d) /\ find_leaf_node_for_data row t = Ok l) /\
  (forall t l, amg_boost_tree_new d cfg (leaf_output_calculator_new kind) = Ok t -> In l (leaves t) ->
     exists row, In row (feature_rows d) /\ find_leaf_node_for_data row t = Ok l).
Proof.
  exact (fun W => conj (fun t l E => regression_leaves_reached nc nt d cfg t l W E)
    (conj (fun t l E => gb_leaves_reached nc nt d cfg kind t l W E) (fun t l E => amg_leaves_reached nc nt d cfg kind t l W E))).
Qed.
Print Assumptions C53_every_leaf_is_reached.

Example C53_example :
  let O := f64_ops taylor_platform in
  wf_dataset 1 2 four /\
  (t <- grad_boost_tree_new four (four_cfg 1 false) (leaf_output_calculator_new Regression);; find_leaf_node_for_data [n64 2] t) =
    Ok (mkGL (Some [n64 1; n64 0])) /\
  (t <- grad_boost_tree_new four (four_cfg 0 false) (leaf_output_calculator_new MultiClassClassification);;
   find_leaf_node_for_data [n64 2] t) = Ok (mkGL (Some [B754_infinity false; B754_infinity false])).
Proof. split; [check_wf|split; compute_eq]. Qed.
