(** Properties C75 and C76: how far rounding takes binary64 test errors and residuals from their exact values. *)
From Coq Require Import Reals Lia.
From Flocq Require Import Core.
From Flocq Require Import IEEE754.BinarySingleNaN.
From Verif Require Import Base Num F64 ModelCommon ModelTree ModelBoost Spec SpecTree SpecExact SpecScore SpecFit SpecError SpecClass SpecPredict
  ProofMse ProofSoftmax DemoPredict DemoAccuracy Decide Check Demo.
Local Open Scope R_scope.

(* ------------------------------------------------------------------ *)
(** ** C75 *)

(** [ps] are the model's predictions for the rows of the test set. *)
Theorem C75_tree_error (P : platform) (nt : nat) (t : tree_node regression_leaf) (test : dataset) (ps : list (list F)) :
  accurate_square P ->
  (0 < nt)%nat -> (Z.of_nat nt <= 2 ^ 40)%Z -> labels test <> [] -> (Z.of_nat (length (labels test)) <= 2 ^ 40)%Z ->
  rectangular nt (labels test) -> length (feature_rows test) = length (labels test) ->
  Forall2 (fun row p => tree_prediction row t = Ok p /\ length p = nt) (feature_rows test) ps ->
  moderate ps -> moderate (labels test) ->
  let exact := mean_squared_error nt (map (map B2R) ps) (map (map B2R) (labels test)) in
  exists e, calculate_overall_mean_squared_error test t = Ok e /\ is_finite e = true /\
    Rabs (B2R e - exact) <= bpow radix2 (-51) * INR (length (labels test) + nt + 3) * exact + bpow radix2 (-600).
Proof. exact (fun H => tree_score_float H nt t test ps). Qed.
Print Assumptions C75_tree_error.

Theorem C75_ensemble_score (P : platform) (nt : nat) (m : regression_boost_model) (test : dataset) (ps : list (list F)) :
  accurate_square P ->
  (0 < nt)%nat -> (Z.of_nat nt <= 2 ^ 40)%Z -> labels test <> [] -> (Z.of_nat (length (labels test)) <= 2 ^ 40)%Z ->
  rectangular nt (labels test) -> length (feature_rows test) = length (labels test) ->
  Forall2 (fun row p => regression_boost_predict m row = Ok p /\ length p = nt) (feature_rows test) ps ->
  moderate ps -> moderate (labels test) ->
  let exact := mean_squared_error nt (map (map B2R) ps) (map (map B2R) (labels test)) in
  exists e, regression_boost_score m test = Ok e /\ is_finite e = true /\
    Rabs (B2R e - exact) <= bpow radix2 (-51) * INR (length (labels test) + nt + 3) * exact + bpow radix2 (-600).
Proof. exact (fun H => ensemble_score_float H nt m test ps). Qed.
Print Assumptions C75_ensemble_score.

(** A tree with two leaves and an ensemble of two trees, each tested on two rows with two targets. *)
Example C75_example :
  let O := f64_ops taylor_platform in
  let half := Bdiv mode_NE (Bplus mode_NE point_one (n64 1)) (n64 2) in
  accurate_square taylor_platform /\ rectangular 2 (labels two_tests) /\
  map (fun row => tree_prediction (O := O) row half_tree) (feature_rows two_tests) = [Ok [half; n64 2]; Ok [n64 3; n64 4]] /\
  moderate [[half; n64 2]; [n64 3; n64 4]] /\ moderate (labels two_tests) /\
  exists p, map (fun row => regression_boost_predict (O := O) small_model row) (feature_rows two_tests) = [Ok p; Ok p] /\
    length p = 2%nat /\ moderate [p; p].
Proof.
  intros O half. split; [now apply product_is_accurate|]. split; [repeat constructor|]. split; [compute_eqs|].
  split; [apply small_moderate; repeat constructor; vm_compute; reflexivity|].
  split; [apply small_moderate; repeat constructor; vm_compute; reflexivity|].
  exists [Bplus mode_NE (Bplus mode_NE (n64 10) (Bmult mode_NE point_one (n64 1))) (Bmult mode_NE point_one (n64 3));
     Bplus mode_NE (Bplus mode_NE (n64 20) (Bmult mode_NE point_one (n64 2))) (Bmult mode_NE point_one (n64 4))].
  split; [compute_eqs|]. split; [reflexivity|]. apply small_moderate; repeat constructor; vm_compute; reflexivity.
Qed.

(* ------------------------------------------------------------------ *)
(** ** C76 *)

(** Row [i] has class [c] of [k] and current scores [s]; entry [j] of its residual is close to 1 or 0 minus the
    probability of class [j]. *)
Theorem C76_residual (P : platform) (td : training_data) (r : list (list F)) (k i : nat) (y : list F) (c : N) (s v : list F) (j : nat) :
  accurate_exp P ->
  td_size td = length (labels (td_data td)) -> length (td_labels td) = length (labels (td_data td)) ->
  calculate_residuals_multi_class td = Ok r ->
  nth_error (labels (td_data td)) i = Some y -> nth_error (td_labels td) i = Some s -> nth_error r i = Some v ->
  one_hot k c y -> (Z.of_nat k <= 2 ^ 40)%Z ->
  Forall (fun x => is_finite x = true /\ Rabs (B2R x) <= 300) s -> (j < k)%nat ->
  exists x, nth_error v j = Some x /\ is_finite x = true /\
    Rabs (B2R x - ((if (N.of_nat j =? c)%N then 1 else 0) - probability (map B2R s) j)) <= bpow radix2 (-51) * INR (k + 4).
Proof. exact (residual_error P td r k i y c s v j). Qed.
Print Assumptions C76_residual.

Example C76_example :
  accurate_exp rounded_platform /\
  (exists v, calculate_residuals_multi_class three_scores = Ok [v]) /\
  nth_error (labels (td_data three_scores)) 0 = Some [B754_zero false; Bone; B754_zero false] /\
  @one_hot (f64_ops rounded_platform) 3 1 [B754_zero false; Bone; B754_zero false] /\
  Forall (Forall (fun x => is_finite x = true /\ Rabs (B2R x) <= 300)) (td_labels three_scores).
Proof.
  split; [exact (proj1 rounded_accurate)|]. split; [exact three_scores_ok|]. split; [reflexivity|]. split; [exact three_scores_one_hot|].
  apply Forall_cons; [|apply Forall_nil]. apply small_scores. repeat constructor; vm_compute; reflexivity.
Qed.
