(** Property C39 in binary64 arithmetic: an overflowing exponential gives a NaN residual, and without overflow residuals
    stay within [-1, 1] (the bounds of exact arithmetic, closed by rounding). *)
From Coq Require Import Reals.
From Flocq Require Import Core.Raux Core.Zaux IEEE754.BinarySingleNaN.
From Verif Require Import Base Num ModelCommon ModelTree ModelBoost Spec SpecTree SpecScore F64 ProofClassF64 DemoClassF64 Decide Check Demo.
Local Open Scope nat_scope.

Theorem C39_overflow_is_nan (P : platform) (td : training_data) (r : list (list F)) (i : nat) (y s v : list F) (j : nat) (x : F) :
  td_size td = length (labels (td_data td)) -> length (td_labels td) = length (labels (td_data td)) ->
  calculate_residuals_multi_class td = Ok r ->
  nth_error (labels (td_data td)) i = Some y -> nth_error (td_labels td) i = Some s -> nth_error r i = Some v ->
  nth_error s j = Some x -> fexp x = finf -> nth_error v j = Some B754_nan.
Proof. exact (residual_overflow P td r i y s v j x). Qed.
Print Assumptions C39_overflow_is_nan.

Theorem C39_binary64_range (P : platform) (td : training_data) (r : list (list F)) (k i : nat) (y : list F) (c : N) (s v : list F) :
  td_size td = length (labels (td_data td)) -> length (td_labels td) = length (labels (td_data td)) ->
  calculate_residuals_multi_class td = Ok r ->
  nth_error (labels (td_data td)) i = Some y -> nth_error (td_labels td) i = Some s -> nth_error r i = Some v ->
  one_hot k c y -> (forall x, In x s -> 0 <= B2R (p_exp P x))%R ->
  let total := fold_left (Bplus mode_NE) (map (p_exp P) s) (B754_zero (p_sum_from_negative_zero P)) in
  is_finite total = true -> (bpow radix2 (-1022) <= B2R total <= bpow radix2 1022)%R ->
  length v = k /\ Forall (fun x => is_finite x = true /\ (-1 <= B2R x <= 1)%R) v.
Proof. exact (residual_range P td r k i y c s v). Qed.
Print Assumptions C39_binary64_range.

(** A platform whose exponential overflows at 1 (any real one does above 709). *)
Example C39_overflow_example :
  let P := mkPlatform (fun x => if Beqb x Bone then B754_infinity false else Bone) (fun x => Bmult mode_NE x x) false in
  let O := f64_ops P in
  calculate_residuals_multi_class (mkTD (@mkDS O [[n64 0]] [[n64 1; n64 0]] [[n64 0]]) [[n64 1; n64 0]] 1) =
    Ok [[B754_nan; n64 0]].
Proof. compute_eqs. Qed.

Example C39_range_example :
  let O := f64_ops taylor_platform in
  calculate_residuals_multi_class (mkTD (@mkDS O [[n64 0]] [[n64 1; n64 0]] [[n64 0]]) [[n64 0; n64 0]] 1) =
    Ok [[Bdiv mode_NE (n64 1) (n64 2); Bdiv mode_NE (n64 (-1)) (n64 2)]] /\
  one_hot (O := O) 2 0 [n64 1; n64 0] /\
  (forall x, In x [n64 0; n64 0] -> B2R (p_exp taylor_platform x) = 1%R) /\
  let total := fold_left (Bplus mode_NE) (map (p_exp taylor_platform) [n64 0; n64 0]) (B754_zero true) in
  is_finite total = true /\ B2R total = 2%R.
Proof.
  intros O. split; [compute_eqs|]. split; [exact one_hot_pair|]. split; [exact exponential_of_zero|]. exact total_of_two.
Qed.
