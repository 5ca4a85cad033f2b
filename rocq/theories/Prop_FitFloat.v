(** Property C82: the training error of a regression ensemble in binary64, one iteration after another. *)
From Coq Require Import Reals ZArith.
From Flocq Require Import Core.
From Flocq Require Import IEEE754.BinarySingleNaN.
From Verif Require Import Base Num ModelCommon ModelTree ModelBoost Spec SpecTree F64 SpecExact SpecScore SpecFitFloat
  ProofFitFloat Decide Check Demo DemoFitFloat.
Local Open Scope R_scope.
Local Existing Instance f64_ops.

(** One iteration: labels and current predictions at most [B] in absolute value. *)
Theorem C82_one_iteration (P : platform) (nc nt : nat) (d : @dataset (f64_ops P)) (cfg : @tree_config (f64_ops P)) (n : nat) (lr : f64)
    (m : regression_boost_model) (k : nat) (B : R) (ps : list (list f64)) :
  wf_dataset nc nt d -> (Z.of_nat (length (labels d)) <= 2 ^ 40)%Z -> is_finite lr = true -> 0 <= B2R lr <= 2 ->
  bpow radix2 (-400) <= B <= bpow radix2 400 -> within B (labels d) ->
  regression_boost_train d cfg n lr = Ok m -> (k < n)%nat ->
  regression_boost_all_predictions (first_trees k m) d = Ok ps -> within B ps ->
  exists ps', regression_boost_all_predictions (first_trees (S k) m) d = Ok ps' /\
    Forall (Forall (fun x : f64 => is_finite x = true)) ps' /\
    forall j, (j < nt)%nat ->
      rms (errors j (labels d) ps') <= rms (errors j (labels d) ps) + bpow radix2 (-48) * INR (length (labels d) + 2) * B.
Proof. exact (boosting_step P nc nt d cfg n lr m k B ps). Qed.
Print Assumptions C82_one_iteration.

(** A whole run, from the labels alone: predictions stay finite and bounded, no iteration increases the error of any target
    by more than [e], and the error never exceeds the standard deviation of the labels by more than that per iteration. *)
Theorem C82_whole_run (P : platform) (nc nt : nat) (d : @dataset (f64_ops P)) (cfg : @tree_config (f64_ops P)) (n : nat) (lr : f64)
    (m : regression_boost_model) (B : R) (k : nat) :
  let N := length (labels d) in
  let B' := (1 + 4 * sqrt (INR N)) * B in
  let e := bpow radix2 (-48) * INR (N + 2) * B' in
  wf_dataset nc nt d -> (Z.of_nat N <= 2 ^ 40)%Z -> is_finite lr = true -> 0 <= B2R lr <= 2 ->
  bpow radix2 (-400) <= B <= bpow radix2 300 -> within B (labels d) ->
  regression_boost_train d cfg n lr = Ok m -> INR n * e <= B -> (k <= n)%nat ->
  exists ps, regression_boost_all_predictions (first_trees k m) d = Ok ps /\ within B' ps /\
    forall j, (j < nt)%nat ->
      rms (errors j (labels d) ps) <= sqrt (variance (target j (map (map B2R) (labels d)))) + INR (k + 1) * e /\
      rms (errors j (labels d) ps) <= 3 * B + INR k * e /\
      forall k' ps', k' = S k -> (k' <= n)%nat -> regression_boost_all_predictions (first_trees k' m) d = Ok ps' ->
        rms (errors j (labels d) ps') <= rms (errors j (labels d) ps) + e.
Proof. exact (boosting_run P nc nt d cfg n lr m B k). Qed.
Print Assumptions C82_whole_run.

(** The allowance for rounding cannot be dropped: two rows that no question separates, labels 0.1 and 0.8, rate 1. *)
Theorem C82_strictly_worse : exists m ps ps',
  regression_boost_train drift drift_cfg 1 (n64 1) = Ok m /\
  regression_boost_all_predictions (first_trees 0 m) drift = Ok ps /\
  regression_boost_all_predictions (first_trees 1 m) drift = Ok ps' /\
  rms (errors 0 (labels drift) ps) < rms (errors 0 (labels drift) ps').
Proof. exact drift_increases. Qed.
Print Assumptions C82_strictly_worse.

(** These rows meet the hypotheses of both theorems. *)
Example C82_example :
  @wf_dataset (f64_ops taylor_platform) 1 1 drift /\ within 1 (labels drift) /\ is_finite (n64 1) = true /\ 0 <= B2R (n64 1) <= 2 /\
  bpow radix2 (-400) <= 1 <= bpow radix2 300 /\
  INR 1 * (bpow radix2 (-48) * INR (length (labels drift) + 2) * ((1 + 4 * sqrt (INR (length (labels drift)))) * 1)) <= 1.
Proof. split; [check_wf|]. split; [exact drift_within|]. split; [reflexivity|]. exact drift_sizes. Qed.
