(** Properties C73 and C74: how far rounding takes binary64 predictions and averages from their exact values. *)
From Coq Require Import Reals.
From Flocq Require Import Core.
From Flocq Require Import IEEE754.BinarySingleNaN.
From Verif Require Import Base Num F64 ModelCommon ModelTree ModelBoost Spec SpecTree SpecExact SpecScore SpecFit SpecPredict ProofPredict ProofTreeF64
  DemoPredict Decide Check Demo.
Local Open Scope R_scope.

(* ------------------------------------------------------------------ *)
(** ** C73 *)

(** For any model, trained or not; [outs] are the outputs of the leaves that the row reaches. *)
Theorem C73_regression (P : platform) (m : regression_boost_model) (row : list F) (outs : list (list F)) (p : list F)
    (j : nat) (start : F) :
  Forall2 (fun t o => find_leaf_node_for_data row t = Ok (mkGL (Some o)) /\ (length (m_initial_guess m) <= length o)%nat)
    (m_trees m) outs ->
  regression_boost_predict m row = Ok p ->
  nth_error (m_initial_guess m) j = Some start ->
  is_finite (m_learning_rate m) = true -> is_finite start = true -> Forall (fun o => is_finite (nth j o f0) = true) outs ->
  (Z.of_nat (length outs) <= 2 ^ 40)%Z ->
  let contributions := map (fun o => B2R (nth j o f0)) outs in
  let size := weighted_size (B2R start) (B2R (m_learning_rate m)) contributions in
  size <= bpow radix2 1000 ->
  exists v, nth_error p j = Some v /\ is_finite v = true /\
    Rabs (B2R v - weighted_sum (B2R start) (B2R (m_learning_rate m)) contributions) <=
      INR (length outs) * (bpow radix2 (-51) * size + bpow radix2 (-1073)).
Proof. exact (regression_error m row outs p j start). Qed.
Print Assumptions C73_regression.

Theorem C73_multi_class_score (P : platform) (m : multi_class_boost_model) (row : list F) (outs : list (list F)) (p : list F)
    (j : nat) (start : F) :
  Forall2 (fun t o => find_leaf_node_for_data row t = Ok (mkGL (Some o)) /\ (length (m_initial_guess m) <= length o)%nat)
    (m_trees m) outs ->
  multi_class_boost_raw m row = Ok p ->
  nth_error (m_initial_guess m) j = Some start ->
  is_finite (m_learning_rate m) = true -> is_finite start = true -> Forall (fun o => is_finite (nth j o f0) = true) outs ->
  (Z.of_nat (length outs) <= 2 ^ 40)%Z ->
  let contributions := map (fun o => B2R (nth j o f0)) outs in
  let size := weighted_size (B2R start) (B2R (m_learning_rate m)) contributions in
  size <= bpow radix2 1000 ->
  exists v, nth_error p j = Some v /\ is_finite v = true /\
    Rabs (B2R v - weighted_sum (B2R start) (B2R (m_learning_rate m)) contributions) <=
      INR (length outs) * (bpow radix2 (-51) * size + bpow radix2 (-1073)).
Proof. exact (multi_class_error m row outs p j start). Qed.
Print Assumptions C73_multi_class_score.

(** A leaf with value v for class c contributes v to class c and -v/(k-1) to the others. *)
Theorem C73_amg_score (P : platform) (m : amg_boost_model) (row : list F) (outs : list (nat * F)) (p : list F)
    (j : nat) (start : F) :
  let k := length (m_initial_guess m) in
  Forall2 (fun t o => find_leaf_node_for_data row t = Ok (mkAL (Some (snd o)) (Some (fst o))) /\ (fst o < k)%nat) (m_trees m) outs ->
  amg_boost_raw m row = Ok p ->
  nth_error (m_initial_guess m) j = Some start -> (2 <= k)%nat -> (Z.of_nat k <= 2 ^ 53)%Z ->
  is_finite (m_learning_rate m) = true -> is_finite start = true -> Forall (fun o => is_finite (snd o) = true) outs ->
  (Z.of_nat (length outs) <= 2 ^ 40)%Z ->
  let contributions := map (fun o => if Nat.eqb j (fst o) then B2R (snd o) else - B2R (snd o) / (INR k - 1)) outs in
  let size := weighted_size (B2R start) (B2R (m_learning_rate m)) contributions in
  size <= bpow radix2 1000 ->
  exists v, nth_error p j = Some v /\ is_finite v = true /\
    Rabs (B2R v - weighted_sum (B2R start) (B2R (m_learning_rate m)) contributions) <=
      INR (length outs) * (bpow radix2 (-50) * size + bpow radix2 (-1072) * (1 + Rabs (B2R (m_learning_rate m)))).
Proof. exact (amg_error m row outs p j start). Qed.
Print Assumptions C73_amg_score.

(** Two trees and rate 0.1, which is not a binary64 number: the hypotheses hold, and the scores exist. *)
Example C73_example :
  let O := f64_ops taylor_platform in
  Forall2 (fun t o => find_leaf_node_for_data (O := O) [] t = Ok (mkGL (Some o)) /\ (length (m_initial_guess small_model) <= length o)%nat)
    (m_trees small_model) [[n64 1; n64 2]; [n64 3; n64 4]] /\
  regression_boost_predict (O := O) small_model [] =
    Ok [@fadd O (@fadd O (n64 10) (@fmul O point_one (n64 1))) (@fmul O point_one (n64 3));
        @fadd O (@fadd O (n64 20) (@fmul O point_one (n64 2))) (@fmul O point_one (n64 4))] /\
  is_finite (m_learning_rate small_model) = true /\
  forall j start, nth_error (m_initial_guess small_model) j = Some start ->
    weighted_size (B2R start) (B2R (m_learning_rate small_model)) (map (fun o => B2R (nth j o (n64 0))) [[n64 1; n64 2]; [n64 3; n64 4]])
      <= bpow radix2 1000.
Proof.
  split; [repeat apply Forall2_cons; try apply Forall2_nil; split; (compute_eq || (cbn; auto))|].
  split; [compute_eq|]. split; [compute_eq|exact small_model_sizes].
Qed.

Example C73_amg_example :
  let O := f64_ops taylor_platform in
  Forall2 (fun t o => find_leaf_node_for_data (O := O) [] t = Ok (mkAL (Some (snd o)) (Some (fst o))) /\ (fst o < 3)%nat)
    (m_trees small_amg) [(0%nat, n64 4); (2%nat, n64 7)] /\
  (p <- amg_boost_raw (O := O) small_amg [];; Ok (length p)) = Ok 3%nat /\
  forall j, weighted_size (B2R (n64 0)) (B2R (m_learning_rate small_amg))
    (map (fun o => if Nat.eqb j (fst o) then B2R (snd o) else - B2R (snd o) / (INR 3 - 1)) [(0%nat, n64 4); (2%nat, n64 7)]) <= bpow radix2 1000.
Proof.
  split; [repeat apply Forall2_cons; try apply Forall2_nil; split; (compute_eq || (cbn; auto))|].
  split; [compute_eq|exact small_amg_sizes].
Qed.

(* ------------------------------------------------------------------ *)
(** ** C74 *)

(** [group] are the labels of the training rows that answer the tree's questions as [row] does. *)
Theorem C74_tree_prediction (P : platform) (nc nt : nat) (d : dataset) (cfg : tree_config) (t : tree_node regression_leaf)
    (row : list F) (j : nat) :
  wf_dataset nc nt d -> regression_tree_new d cfg = Ok t -> (nc <= length row)%nat -> (j < nt)%nat ->
  tame (labels d) -> (Z.of_nat (length (labels d)) <= 2 ^ 40)%Z ->
  let group := map snd (samples_like row t d) in
  let ys := target j (map (map B2R) group) in
  exists p v, tree_prediction row t = Ok p /\ nth_error p j = Some v /\ is_finite v = true /\
    Rabs (B2R v - mean ys) <= bpow radix2 (-51) * INR (length group + 1) * mean (map Rabs ys) + bpow radix2 (-1072).
Proof. exact (tree_prediction_error nc nt d cfg t row j). Qed.
Print Assumptions C74_tree_prediction.

(** The same for the outputs of the trees inside a regression ensemble; here the labels are the residuals. *)
Theorem C74_boosted_leaf_output (P : platform) (nc nt : nat) (d : dataset) (cfg : tree_config) (t : tree_node grad_boost_leaf)
    (row : list F) (j : nat) :
  wf_dataset nc nt d -> grad_boost_tree_new d cfg (leaf_output_calculator_new Regression) = Ok t ->
  (nc <= length row)%nat -> (j < nt)%nat ->
  tame (labels d) -> (Z.of_nat (length (labels d)) <= 2 ^ 40)%Z ->
  let group := map snd (samples_like row t d) in
  let ys := target j (map (map B2R) group) in
  exists p v, find_leaf_node_for_data row t = Ok (mkGL (Some p)) /\ nth_error p j = Some v /\ is_finite v = true /\
    Rabs (B2R v - mean ys) <= bpow radix2 (-51) * INR (length group + 1) * mean (map Rabs ys) + bpow radix2 (-1072).
Proof. exact (leaf_output_error nc nt d cfg t row j). Qed.
Print Assumptions C74_boosted_leaf_output.

Theorem C74_initial_guess (P : platform) (nt : nat) (d : dataset) (cfg : tree_config) (n : nat) (lr : F)
    (m : regression_boost_model) (j : nat) :
  rectangular nt (labels d) -> labels d <> [] -> regression_boost_train d cfg n lr = Ok m -> (j < nt)%nat ->
  tame (labels d) -> (Z.of_nat (length (labels d)) <= 2 ^ 40)%Z ->
  let ys := target j (map (map B2R) (labels d)) in
  exists v, nth_error (m_initial_guess m) j = Some v /\ is_finite v = true /\
    Rabs (B2R v - mean ys) <= bpow radix2 (-51) * INR (length (labels d) + 1) * mean (map Rabs ys) + bpow radix2 (-1072).
Proof. exact (initial_guess_error nt d cfg n lr m j). Qed.
Print Assumptions C74_initial_guess.

(** Three labels 0.1: the average is not 0.1, but within the bound. *)
Example C74_example :
  let O := f64_ops taylor_platform in
  let cfg := mkTC (split_finder_new Variance) false 1 1 in
  wf_dataset 1 1 tenths /\ tame (labels tenths) /\
  (t <- regression_tree_new (O := O) tenths cfg;; tree_prediction [n64 0] t) = Ok [average_of (O := O) (labels tenths) 0] /\
  @feqb O (average_of (O := O) (labels tenths) 0) point_one = false /\
  (m <- regression_boost_train (O := O) tenths cfg 2 point_one;; Ok (m_initial_guess m)) = Ok [average_of (O := O) (labels tenths) 0].
Proof.
  intros O cfg. split; [check_wf|]. split; [exact tenths_tame|]. split; [compute_eq|]. split; [vm_compute; reflexivity|compute_eq].
Qed.
