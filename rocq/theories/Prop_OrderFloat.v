(** Property C99: in binary64, the order of the test rows changes a reported mean squared error by rounding only. *)
From Coq Require Import Reals ZArith Permutation.
From Flocq Require Import Core.
From Flocq Require Import IEEE754.BinarySingleNaN.
From Verif Require Import Base Num F64 ModelCommon ModelTree ModelBoost Spec SpecTree SpecExact SpecScore SpecFit SpecFitFloat SpecPredict SpecError
  ProofMse ProofOrderFloat Decide Check Demo DemoFitFloat DemoOrderFloat.
Local Open Scope R_scope.
Local Existing Instance f64_ops.

(** The error of a regression tree on the same samples in two orders; [ps] are the predictions in the first order. *)
Theorem C99_tree (P : platform) (nt : nat) (t : tree_node (@regression_leaf (f64_ops P))) (test test' : @dataset (f64_ops P)) (ps : list (list f64)) :
  accurate_square P ->
  (0 < nt)%nat -> (Z.of_nat nt <= 2 ^ 40)%Z -> labels test <> [] -> (Z.of_nat (length (labels test)) <= 2 ^ 40)%Z ->
  rectangular nt (labels test) -> length (feature_rows test) = length (labels test) -> length (feature_rows test') = length (labels test') ->
  Forall2 (fun row p => tree_prediction row t = Ok p /\ length p = nt) (feature_rows test) ps ->
  moderate ps -> moderate (labels test) -> Permutation (samples test) (samples test') ->
  let exact := mean_squared_error nt (map (map B2R) ps) (map (map B2R) (labels test)) in
  exists e e', calculate_overall_mean_squared_error test t = Ok e /\ calculate_overall_mean_squared_error test' t = Ok e' /\
    is_finite e = true /\ is_finite e' = true /\
    Rabs (B2R e - B2R e') <= 2 * (bpow radix2 (-51) * INR (length (labels test) + nt + 3) * exact + bpow radix2 (-600)).
Proof. exact (fun H => tree_order_float P H nt t test test' ps). Qed.
Print Assumptions C99_tree.

(** The score of a regression ensemble. *)
Theorem C99_ensemble (P : platform) (nt : nat) (m : @regression_boost_model (f64_ops P)) (test test' : @dataset (f64_ops P)) (ps : list (list f64)) :
  accurate_square P ->
  (0 < nt)%nat -> (Z.of_nat nt <= 2 ^ 40)%Z -> labels test <> [] -> (Z.of_nat (length (labels test)) <= 2 ^ 40)%Z ->
  rectangular nt (labels test) -> length (feature_rows test) = length (labels test) -> length (feature_rows test') = length (labels test') ->
  Forall2 (fun row p => regression_boost_predict m row = Ok p /\ length p = nt) (feature_rows test) ps ->
  moderate ps -> moderate (labels test) -> Permutation (samples test) (samples test') ->
  let exact := mean_squared_error nt (map (map B2R) ps) (map (map B2R) (labels test)) in
  exists e e', regression_boost_score m test = Ok e /\ regression_boost_score m test' = Ok e' /\
    is_finite e = true /\ is_finite e' = true /\
    Rabs (B2R e - B2R e') <= 2 * (bpow radix2 (-51) * INR (length (labels test) + nt + 3) * exact + bpow radix2 (-600)).
Proof. exact (fun H => ensemble_order_float P H nt m test test' ps). Qed.
Print Assumptions C99_ensemble.

(** Exact equality fails: the same five test rows in two orders get different errors, from a tree and from an ensemble. *)
Theorem C99_allowance_needed :
  Permutation (samples specks) (samples specks') /\
  (exists t e e', regression_tree_new nought drift_cfg = Ok t /\
    calculate_overall_mean_squared_error specks t = Ok e /\ calculate_overall_mean_squared_error specks' t = Ok e' /\ B2R e <> B2R e') /\
  (exists m e e', regression_boost_train nought drift_cfg 1 (n64 1) = Ok m /\
    regression_boost_score m specks = Ok e /\ regression_boost_score m specks' = Ok e' /\ B2R e <> B2R e').
Proof. exact (conj specks_perm (conj specks_differ specks_differ_boost)). Qed.
Print Assumptions C99_allowance_needed.

(** The five rows meet the hypotheses. *)
Example C99_example :
  accurate_square taylor_platform /\ labels specks <> [] /\ rectangular 1 (labels specks) /\
  length (feature_rows specks) = length (labels specks) /\ length (feature_rows specks') = length (labels specks') /\
  (exists t, regression_tree_new nought drift_cfg = Ok t /\
    Forall2 (fun row p => tree_prediction row t = Ok p /\ length p = 1%nat) (feature_rows specks) [[n64 0]; [n64 0]; [n64 0]; [n64 0]; [n64 0]]) /\
  moderate (labels specks) /\ moderate [[n64 0]; [n64 0]; [n64 0]; [n64 0]; [n64 0]] /\ Permutation (samples specks) (samples specks').
Proof.
  split; [now apply product_is_accurate|]. split; [discriminate|]. split; [repeat constructor|]. split; [reflexivity|]. split; [reflexivity|].
  split; [exact specks_predictions|]. split; [apply specks_moderate|]. split; [apply specks_moderate|]. exact specks_perm.
Qed.
