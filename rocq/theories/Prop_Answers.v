(** Property C88, and C49 (zero rate) in binary64: a regression ensemble's answers to arbitrary rows. *)
From Coq Require Import Reals ZArith.
From Flocq Require Import Core.
From Flocq Require Import IEEE754.BinarySingleNaN.
From Verif Require Import Base Num ModelCommon ModelTree ModelBoost Spec SpecTree F64 SpecExact SpecScore SpecFitFloat SpecMirror
  ProofAnswers ProofZeroRate Decide Check Demo DemoFitFloat DemoAnswers.
Local Open Scope R_scope.
Local Existing Instance f64_ops.

(* ------------------------------------------------------------------ *)
(** ** C88 *)

(** For any row, seen in training or not, and after any number [k] of the iterations: the answer is finite, and its distance
    from the mean label is at most [k * lr] times the root of the summed squared deviations of the labels, plus rounding. *)
Theorem C88_answers_stay_near_the_mean (P : platform) (nc nt : nat) (d : @dataset (f64_ops P)) (cfg : @tree_config (f64_ops P)) (n : nat)
    (lr : f64) (m : regression_boost_model) (B : R) (k : nat) (row : list f64) :
  let N := length (labels d) in
  let B' := (1 + 4 * sqrt (INR N)) * B in
  let e := bpow radix2 (-48) * INR (N + 2) * B' in
  wf_dataset nc nt d -> (Z.of_nat N <= 2 ^ 40)%Z -> is_finite lr = true -> 0 <= B2R lr <= 2 ->
  bpow radix2 (-400) <= B <= bpow radix2 300 -> within B (labels d) ->
  regression_boost_train d cfg n lr = Ok m -> INR n * e <= B -> (k <= n)%nat -> (nc <= length row)%nat ->
  exists p : list f64, regression_boost_predict (first_trees k m) row = Ok p /\ length p = nt /\
    forall j, (j < nt)%nat ->
      let ys := target j (map (map B2R) (labels d)) in
      is_finite (nth j p (B754_zero false)) = true /\
      Rabs (B2R (nth j p (B754_zero false)) - mean ys) <=
        INR k * (B2R lr * sqrt (INR N * variance ys)) + (1 + 4 * INR k * INR k * sqrt (INR N)) * e.
Proof. exact (answers_near P nc nt d cfg n lr m B k row). Qed.
Print Assumptions C88_answers_stay_near_the_mean.

(** Finite labels alone are not enough: with two rows labelled 2^1023 even the starting point is infinite. *)
Theorem C88_giant_labels_overflow : exists (m : regression_boost_model) (p : list f64),
  Forall (Forall (fun x : f64 => is_finite x = true)) (labels giant) /\
  regression_boost_train giant drift_cfg 0 (n64 1) = Ok m /\ regression_boost_predict m [n64 1] = Ok p /\
  is_finite (nth 0 p (B754_zero false)) = false.
Proof. exact giant_overflows. Qed.
Print Assumptions C88_giant_labels_overflow.

(** Labels 0.1 and 0.8, one iteration with rate 1, meet the hypotheses. *)
Example C88_example :
  @wf_dataset (f64_ops taylor_platform) 1 1 drift /\ within 1 (labels drift) /\ is_finite (n64 1) = true /\
  (exists m, regression_boost_train drift drift_cfg 1 (n64 1) = Ok m) /\ 0 <= B2R (n64 1) <= 2 /\
  bpow radix2 (-400) <= 1 <= bpow radix2 300 /\
  INR 1 * (bpow radix2 (-48) * INR (length (labels drift) + 2) * ((1 + 4 * sqrt (INR (length (labels drift)))) * 1)) <= 1.
Proof. split; [check_wf|]. split; [exact drift_within|]. split; [reflexivity|]. split; [exact drift_trained|]. exact drift_sizes. Qed.

(* ------------------------------------------------------------------ *)
(** ** C49, zero learning rate in binary64 *)

Theorem C49_zero_learning_rate_f64 (P : platform) (nc nt : nat) (d : @dataset (f64_ops P)) (cfg : @tree_config (f64_ops P)) (n : nat)
    (lr : f64) (m : regression_boost_model) (B : R) (row : list f64) :
  wf_dataset nc nt d -> (Z.of_nat (length (labels d)) <= 2 ^ 40)%Z -> is_finite lr = true -> B2R lr = 0 ->
  bpow radix2 (-400) <= B <= bpow radix2 300 -> within B (labels d) ->
  regression_boost_train d cfg n lr = Ok m -> (nc <= length row)%nat ->
  exists p : list f64, regression_boost_predict m row = Ok p /\ Forall2 same_number p (m_initial_guess m).
Proof. exact (zero_rate_same P nc nt d cfg n lr m B row). Qed.
Print Assumptions C49_zero_learning_rate_f64.

(** The same two rows, ten iterations with rate -0. *)
Example C49_zero_rate_f64_example :
  @wf_dataset (f64_ops taylor_platform) 1 1 drift /\ within 1 (labels drift) /\
  (exists m, regression_boost_train drift drift_cfg 10 (B754_zero true) = Ok m) /\ bpow radix2 (-400) <= 1 <= bpow radix2 300.
Proof. split; [check_wf|]. split; [exact drift_within|]. split; [exact drift_trained_zero|]. exact (proj1 (proj2 drift_sizes)). Qed.
