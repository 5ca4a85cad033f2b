(** Property C77: in binary64, on any finite labels of bounded size, the split finder's gain is accurate. *)
From Coq Require Import Reals ZArith.
From Flocq Require Import IEEE754.BinarySingleNaN.
From Verif Require Import Base Num ModelCommon ModelTree Spec F64 XR SpecExact SpecInt SpecNear ProofNear3 Decide Check Demo DemoNear.
Local Open Scope R_scope.

Theorem C77_gain_accuracy (P : platform) (B : R) (nc nt : nat) (d : @dataset (f64_ops P)) (b : @best_split (f64_ops P)) :
  wf_dataset nc nt d -> bounded_labels B d -> ordinary_table B d -> (Z.of_nat nt <= 2 ^ 40)%Z ->
  find_best_split d (N.of_nat nt) = Ok b ->
  is_finite (bs_gain b) = true /\
  (forall j r i v, considered (exact_data d) j r i v ->
     cut_gain nt i (labels_in_order (real_values d) r) <= B2R (bs_gain b) + real_gain_error nt (length (labels d)) B) /\
  (b = @mkBS (f64_ops P) f0 (Question 0 f0) \/
   (0 < B2R (bs_gain b) /\ exists j r i v, considered (exact_data d) j r i v /\
      exact_question (bs_question b) = @Question xr_ops (N.of_nat j) v /\
      Rabs (B2R (bs_gain b) - cut_gain nt i (labels_in_order (real_values d) r)) <= real_gain_error nt (length (labels d)) B)).
Proof. exact (fun W Hb Ho Hk => split_near P B nc nt d W Hb Ho Hk b). Qed.
Print Assumptions C77_gain_accuracy.

Theorem C77_gain_near_the_exact_gain (P : platform) (B : R) (nc nt : nat) (d : @dataset (f64_ops P)) (b : @best_split (f64_ops P)) :
  wf_dataset nc nt d -> bounded_labels B d -> ordinary_table B d -> (Z.of_nat nt <= 2 ^ 40)%Z ->
  find_best_split d (N.of_nat nt) = Ok b ->
  exists (exact : @best_split xr_ops) (g : R),
    find_best_split (exact_data d) (N.of_nat nt) = Ok exact /\ bs_gain exact = Fin g /\
    Rabs (B2R (bs_gain b) - g) <= real_gain_error nt (length (labels d)) B.
Proof. exact (fun W Hb Ho Hk => near_exact P B nc nt d W Hb Ho Hk b). Qed.
Print Assumptions C77_gain_near_the_exact_gain.

Theorem C77_gain_bounds_every_question (P : platform) (B : R) (nc nt : nat) (d : @dataset (f64_ops P)) (b : @best_split (f64_ops P))
    (q : @question (f64_ops P)) :
  wf_dataset nc nt d -> bounded_labels B d -> ordinary_table B d -> (Z.of_nat nt <= 2 ^ 40)%Z ->
  find_best_split d (N.of_nat nt) = Ok b ->
  question_gain nt (exact_question q) (feature_rows (exact_data d)) (real_values d) <=
  B2R (bs_gain b) + real_gain_error nt (length (labels d)) B.
Proof. exact (fun W Hb Ho Hk => near_bounds_questions P B nc nt d W Hb Ho Hk b q). Qed.
Print Assumptions C77_gain_bounds_every_question.

Theorem C77_reported_question_nearly_best (P : platform) (B : R) (nc nt : nat) (d : @dataset (f64_ops P)) (b : @best_split (f64_ops P))
    (q : @question (f64_ops P)) :
  wf_dataset nc nt d -> bounded_labels B d -> ordinary_table B d -> (Z.of_nat nt <= 2 ^ 40)%Z ->
  find_best_split d (N.of_nat nt) = Ok b -> occurs_once (exact_data d) (exact_question (bs_question b)) ->
  question_gain nt (exact_question q) (feature_rows (exact_data d)) (real_values d) <=
  question_gain nt (exact_question (bs_question b)) (feature_rows (exact_data d)) (real_values d) +
  2 * real_gain_error nt (length (labels d)) B.
Proof. exact (fun W Hb Ho Hk => near_optimal P B nc nt d W Hb Ho Hk b q). Qed.
Print Assumptions C77_reported_question_nearly_best.

Example C77_example :
  let O := f64_ops taylor_platform in
  @wf_dataset O 1 2 fractions /\ bounded_labels 4 fractions /\ ordinary_table 4 fractions /\
  (b <- @find_best_split O fractions 2;; Ok (bs_question b, @fltb O (n64 4) (bs_gain b))) = Ok (Question 0 (n64 3), true) /\
  occurs_once (exact_data fractions) (exact_question (@Question O 0 (n64 3))) /\
  real_gain_error 2 4 4 = 92160 / 2 ^ 53.
Proof.
  split; [check_wf|]. split; [exact fractions_bounded|]. split; [exact fractions_ordinary|]. split; [compute_eq|].
  exact (conj fractions_once fractions_error).
Qed.
