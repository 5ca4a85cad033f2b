(** Property C56: in binary64, on integer labels, the split finder's gain is accurate. *)
From Coq Require Import Reals ZArith.
From Flocq Require Import IEEE754.BinarySingleNaN.
From Verif Require Import Base Num ModelCommon ModelTree Spec SpecTree F64 XR SpecExact SpecInt ProofInt6 Decide Check Demo DemoInt.
Local Open Scope R_scope.

Theorem C56_gain_accuracy (P : platform) (M : Z) (nc nt : nat) (d : @dataset (f64_ops P)) (b : @best_split (f64_ops P)) :
  wf_dataset nc nt d -> integer_labels M d -> sums_fit M d -> (Z.of_nat nt <= 2 ^ 40)%Z ->
  find_best_split d (N.of_nat nt) = Ok b ->
  is_finite (bs_gain b) = true /\
  (forall j r i v, considered (exact_data d) j r i v ->
     cut_gain nt i (labels_in_order (real_values d) r) <= B2R (bs_gain b) + gain_error nt M) /\
  (b = @mkBS (f64_ops P) f0 (Question 0 f0) \/
   (0 < B2R (bs_gain b) /\ exists j r i v, considered (exact_data d) j r i v /\
      exact_question (bs_question b) = @Question xr_ops (N.of_nat j) v /\
      Rabs (B2R (bs_gain b) - cut_gain nt i (labels_in_order (real_values d) r)) <= gain_error nt M)).
Proof. exact (gain_accuracy P M nc nt d b). Qed.
Print Assumptions C56_gain_accuracy.

Theorem C56_gain_near_the_exact_gain (P : platform) (M : Z) (nc nt : nat) (d : @dataset (f64_ops P)) (b : @best_split (f64_ops P)) :
  wf_dataset nc nt d -> integer_labels M d -> sums_fit M d -> (Z.of_nat nt <= 2 ^ 40)%Z ->
  find_best_split d (N.of_nat nt) = Ok b ->
  exists (exact : @best_split xr_ops) (g : R),
    find_best_split (exact_data d) (N.of_nat nt) = Ok exact /\ bs_gain exact = Fin g /\
    Rabs (B2R (bs_gain b) - g) <= gain_error nt M.
Proof. exact (gain_near_exact_gain P M nc nt d b). Qed.
Print Assumptions C56_gain_near_the_exact_gain.

Theorem C56_gain_bounds_every_question (P : platform) (M : Z) (nc nt : nat) (d : @dataset (f64_ops P)) (b : @best_split (f64_ops P))
    (q : @question (f64_ops P)) :
  wf_dataset nc nt d -> integer_labels M d -> sums_fit M d -> (Z.of_nat nt <= 2 ^ 40)%Z ->
  find_best_split d (N.of_nat nt) = Ok b ->
  question_gain nt (exact_question q) (feature_rows (exact_data d)) (real_values d) <= B2R (bs_gain b) + gain_error nt M.
Proof. exact (gain_bounds_every_question_int P M nc nt d b q). Qed.
Print Assumptions C56_gain_bounds_every_question.

Theorem C56_reported_question_nearly_best (P : platform) (M : Z) (nc nt : nat) (d : @dataset (f64_ops P)) (b : @best_split (f64_ops P))
    (q : @question (f64_ops P)) :
  wf_dataset nc nt d -> integer_labels M d -> sums_fit M d -> (Z.of_nat nt <= 2 ^ 40)%Z ->
  find_best_split d (N.of_nat nt) = Ok b -> occurs_once (exact_data d) (exact_question (bs_question b)) ->
  question_gain nt (exact_question q) (feature_rows (exact_data d)) (real_values d) <=
  question_gain nt (exact_question (bs_question b)) (feature_rows (exact_data d)) (real_values d) + 2 * gain_error nt M.
Proof. exact (question_near_optimal_int P M nc nt d b q). Qed.
Print Assumptions C56_reported_question_nearly_best.

Example C56_example :
  let O := f64_ops taylor_platform in
  @wf_dataset O 1 2 four /\ integer_labels 1 four /\ sums_fit 1 four /\
  (b <- @find_best_split O four 2;; Ok (bs_question b, @fltb O f0 (bs_gain b))) = Ok (Question 0 (n64 3), true) /\
  occurs_once (exact_data four) (exact_question (@Question O 0 (n64 3))) /\
  gain_error 2 1 = 144 / 2 ^ 53.
Proof.
  split; [check_wf|]. split; [exact four_integer|]. split; [exact four_fits|]. split; [compute_eq|].
  exact (conj four_once four_gain_error).
Qed.
