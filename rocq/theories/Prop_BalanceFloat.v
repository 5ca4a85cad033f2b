(** Property C98: in binary64, the average training prediction is the average training label up to rounding. *)
From Coq Require Import Reals ZArith.
From Flocq Require Import Core.
From Flocq Require Import IEEE754.BinarySingleNaN.
From Verif Require Import Base Num F64 ModelCommon ModelTree ModelBoost Spec SpecTree SpecExact SpecScore SpecFit SpecFitFloat SpecPredict
  ProofBalanceFloat Decide Check Demo DemoNear DemoFitFloat DemoLearnFloat DemoBalanceFloat.
Local Open Scope R_scope.
Local Existing Instance f64_ops.

(** A regression tree: target by target, over the training rows. *)
Theorem C98_tree (P : platform) (nc nt : nat) (d : @dataset (f64_ops P)) (cfg : @tree_config (f64_ops P))
    (t : tree_node (@regression_leaf (f64_ops P))) (B : R) :
  wf_dataset nc nt d -> (Z.of_nat (length (labels d)) <= 2 ^ 40)%Z -> bpow radix2 (-400) <= B <= bpow radix2 400 -> within B (labels d) ->
  regression_tree_new d cfg = Ok t ->
  exists ps : list (list f64), mapM (fun row => tree_prediction row t) (feature_rows d) = Ok ps /\
    forall j, (j < nt)%nat ->
      Rabs (mean (target j (map (map B2R) ps)) - mean (target j (map (map B2R) (labels d)))) <= bpow radix2 (-51) * INR (length (labels d) + 2) * B.
Proof. exact (tree_balance_float P nc nt d cfg t B). Qed.
Print Assumptions C98_tree.

(** The first [k] trees of a regression ensemble. *)
Theorem C98_ensemble (P : platform) (nc nt : nat) (d : @dataset (f64_ops P)) (cfg : @tree_config (f64_ops P)) (n : nat) (lr : f64)
    (m : @regression_boost_model (f64_ops P)) (B : R) (k : nat) :
  let N := length (labels d) in let B' := (1 + 4 * sqrt (INR N)) * B in let e := bpow radix2 (-48) * INR (N + 2) * B' in
  wf_dataset nc nt d -> (Z.of_nat N <= 2 ^ 40)%Z -> is_finite lr = true -> 0 <= B2R lr <= 2 ->
  bpow radix2 (-400) <= B <= bpow radix2 300 -> within B (labels d) ->
  regression_boost_train d cfg n lr = Ok m -> INR n * e <= B -> (k <= n)%nat ->
  exists ps, regression_boost_all_predictions (first_trees k m) d = Ok ps /\
    forall j, (j < nt)%nat ->
      Rabs (mean (target j (map (map B2R) ps)) - mean (target j (map (map B2R) (labels d)))) <= INR (k + 1) * e.
Proof. exact (ensemble_balance_float P nc nt d cfg n lr m B k). Qed.
Print Assumptions C98_ensemble.

(** Exact equality, which holds for real numbers, fails: three equal labels 0.1 are predicted as another number. *)
Theorem C98_allowance_needed : exists t ps,
  regression_tree_new tenths drift_cfg = Ok t /\ mapM (fun row => tree_prediction row t) (feature_rows tenths) = Ok ps /\
  mean (target 0 (map (map B2R) ps)) <> mean (target 0 (map (map B2R) (labels tenths))).
Proof. exact tenths_unbalanced. Qed.
Print Assumptions C98_allowance_needed.

(** Four rows with fractional labels and two targets, learning rate one half, a hundred iterations. *)
Example C98_example :
  @wf_dataset (f64_ops taylor_platform) 1 2 fractions /\ within 4 (labels fractions) /\ is_finite half64 = true /\ 0 <= B2R half64 <= 2 /\
  (exists m, regression_boost_train fractions stumps 100 half64 = Ok m) /\
  bpow radix2 (-400) <= 4 <= bpow radix2 300 /\
  INR 100 * (bpow radix2 (-48) * INR (length (labels fractions) + 2) * ((1 + 4 * sqrt (INR (length (labels fractions)))) * 4)) <= 4.
Proof.
  split; [check_wf|]. split; [exact fractions_within|]. split; [apply half_value|]. split; [exact half_rate|].
  split; [exact fractions_trained|]. exact fractions_sizes.
Qed.
