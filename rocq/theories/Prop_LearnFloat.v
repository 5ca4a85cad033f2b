(** Property C97: in binary64, boosting learns a table with a feature that tells the rows apart, up to rounding. *)
From Coq Require Import Reals ZArith.
From Flocq Require Import Core.
From Flocq Require Import IEEE754.BinarySingleNaN.
From Verif Require Import Base Num ModelCommon ModelTree ModelBoost Spec SpecTree F64 XR SpecExact SpecInt SpecScore SpecFitFloat SpecPredict SpecError SpecLearn
  ProofMse ProofLearnFloat Decide Check Demo DemoNear DemoLearnFloat.
Local Open Scope R_scope.
Local Existing Instance f64_ops.

(** One iteration: labels and current predictions at most [B] in absolute value. *)
Theorem C97_one_iteration (P : platform) (nc nt : nat) (d : @dataset (f64_ops P)) (cfg : @tree_config (f64_ops P)) (n : nat) (lr : f64)
    (m : @regression_boost_model (f64_ops P)) (k : nat) (B : R) (ps : list (list f64)) (j : nat) :
  let N := length (labels d) in
  wf_dataset nc nt d -> (0 < nt)%nat -> (Z.of_nat nt <= 2 ^ 40)%Z -> (Z.of_nat N <= 2 ^ 20)%Z -> is_finite lr = true -> 0 <= B2R lr <= 2 ->
  standard cfg -> tc_number_of_classes cfg = N.of_nat nt -> tc_max_levels cfg <> 0%N ->
  (j < nc)%nat -> tells_apart j (exact_data d) -> distinct_above_minimum (exact_data d) ->
  bpow radix2 (-400) <= B <= bpow radix2 398 -> within B (labels d) ->
  regression_boost_train d cfg n lr = Ok m -> (k < n)%nat ->
  regression_boost_all_predictions (first_trees k m) d = Ok ps -> within B ps ->
  exists ps', regression_boost_all_predictions (first_trees (S k) m) d = Ok ps' /\
    mean_squared_error nt (map (map B2R) ps') (map (map B2R) (labels d)) <=
    (1 - B2R lr * (2 - B2R lr) / (INR N * INR N)) * mean_squared_error nt (map (map B2R) ps) (map (map B2R) (labels d)) +
    bpow radix2 (-39) * (INR nt + INR N) * (B * B).
Proof. exact (learn_float_step' P nc nt d cfg n lr m k B ps j). Qed.
Print Assumptions C97_one_iteration.

(** A whole run, from the labels alone. *)
Theorem C97_whole_run (P : platform) (nc nt : nat) (d : @dataset (f64_ops P)) (cfg : @tree_config (f64_ops P)) (n : nat) (lr : f64)
    (m : @regression_boost_model (f64_ops P)) (B : R) (j : nat) :
  let N := length (labels d) in
  let B' := (1 + 4 * sqrt (INR N)) * B in
  let c := B2R lr * (2 - B2R lr) / (INR N * INR N) in
  let r := bpow radix2 (-39) * (INR nt + INR N) * (B' * B') in
  wf_dataset nc nt d -> (0 < nt)%nat -> (Z.of_nat nt <= 2 ^ 40)%Z -> (Z.of_nat N <= 2 ^ 20)%Z -> is_finite lr = true -> 0 <= B2R lr <= 2 ->
  standard cfg -> tc_number_of_classes cfg = N.of_nat nt -> tc_max_levels cfg <> 0%N ->
  (j < nc)%nat -> tells_apart j (exact_data d) -> distinct_above_minimum (exact_data d) ->
  bpow radix2 (-400) <= B <= bpow radix2 300 -> within B (labels d) ->
  regression_boost_train d cfg n lr = Ok m -> INR n * (bpow radix2 (-48) * INR (N + 2) * B') <= B ->
  exists ps0, regression_boost_all_predictions (first_trees 0 m) d = Ok ps0 /\
    let e0 := mean_squared_error nt (map (map B2R) ps0) (map (map B2R) (labels d)) in
    forall k, (k <= n)%nat -> exists ps, regression_boost_all_predictions (first_trees k m) d = Ok ps /\
      let e := mean_squared_error nt (map (map B2R) ps) (map (map B2R) (labels d)) in
      e <= (1 - c) ^ k * e0 + INR k * r /\ (0 < c -> e <= (1 - c) ^ k * e0 + r / c).
Proof. exact (learn_float_run' P nc nt d cfg n lr m B j). Qed.
Print Assumptions C97_whole_run.

(** The score the code reports for the first [k] trees on the training data. *)
Theorem C97_reported_score (P : platform) (nc nt : nat) (d : @dataset (f64_ops P)) (cfg : @tree_config (f64_ops P)) (n : nat) (lr : f64)
    (m : @regression_boost_model (f64_ops P)) (B : R) (j : nat) :
  let N := length (labels d) in
  let B' := (1 + 4 * sqrt (INR N)) * B in
  let c := B2R lr * (2 - B2R lr) / (INR N * INR N) in
  let r := bpow radix2 (-39) * (INR nt + INR N) * (B' * B') in
  accurate_square P ->
  wf_dataset nc nt d -> (0 < nt)%nat -> (Z.of_nat nt <= 2 ^ 40)%Z -> (Z.of_nat N <= 2 ^ 20)%Z -> is_finite lr = true -> 0 <= B2R lr <= 2 ->
  standard cfg -> tc_number_of_classes cfg = N.of_nat nt -> tc_max_levels cfg <> 0%N ->
  (j < nc)%nat -> tells_apart j (exact_data d) -> distinct_above_minimum (exact_data d) ->
  bpow radix2 (-400) <= B <= bpow radix2 300 -> within B (labels d) ->
  regression_boost_train d cfg n lr = Ok m -> INR n * (bpow radix2 (-48) * INR (N + 2) * B') <= B ->
  exists ps0, regression_boost_all_predictions (first_trees 0 m) d = Ok ps0 /\
    let e0 := mean_squared_error nt (map (map B2R) ps0) (map (map B2R) (labels d)) in
    forall k, (k <= n)%nat -> exists e, regression_boost_score (first_trees k m) d = Ok e /\ is_finite e = true /\
      B2R e <= (1 + bpow radix2 (-51) * INR (N + nt + 3)) * ((1 - c) ^ k * e0 + INR k * r) + bpow radix2 (-600).
Proof. exact (learn_float_score P nc nt d cfg n lr m B j). Qed.
Print Assumptions C97_reported_score.

(** Four rows with fractional labels and two targets, trees of one level, learning rate one half, a hundred iterations. *)
Example C97_example :
  @wf_dataset (f64_ops taylor_platform) 1 2 fractions /\ within 4 (labels fractions) /\ is_finite half64 = true /\ 0 <= B2R half64 <= 2 /\
  accurate_square taylor_platform /\ standard stumps /\ tc_number_of_classes stumps = N.of_nat 2 /\ tc_max_levels stumps <> 0%N /\
  tells_apart 0 (exact_data fractions) /\ distinct_above_minimum (exact_data fractions) /\
  (exists m, regression_boost_train fractions stumps 100 half64 = Ok m) /\
  bpow radix2 (-400) <= 4 <= bpow radix2 300 /\
  INR 100 * (bpow radix2 (-48) * INR (length (labels fractions) + 2) * ((1 + 4 * sqrt (INR (length (labels fractions)))) * 4)) <= 4.
Proof.
  split; [check_wf|]. split; [exact fractions_within|]. split; [apply half_value|]. split; [exact half_rate|].
  split; [now apply product_is_accurate|]. split; [reflexivity|]. split; [reflexivity|]. split; [discriminate|]. split; [exact fractions_apart|]. split; [exact fractions_distinct|].
  split; [exact fractions_trained|]. exact fractions_sizes.
Qed.
