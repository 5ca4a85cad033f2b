(** Property C93: a little noise in the labels does not change the questions of a clear regression ensemble. *)
From Coq Require Import Reals ZArith.
From Flocq Require Import Core.
From Flocq Require Import IEEE754.BinarySingleNaN.
From Verif Require Import Base Num ModelCommon ModelTree ModelBoost Spec SpecTree F64 XR SpecExact SpecInt SpecNear SpecScore SpecFitFloat SpecClear SpecNoise
  ProofNoise2 Demo DemoClear DemoNoise2.
Local Open Scope R_scope.

(** [d'] is [d] with every label entry moved by at most [nu]; [m] and [m'] are the ensembles trained on them in binary64.
    All decisions of the exact ensemble of [d], for the training rows and for [row], are clear by [margin]. *)
Theorem C93_noise_does_not_change_clear_ensembles (P : platform) (nc nt : nat) (d d' : @dataset (f64_ops P)) (cfg : @tree_config (f64_ops P))
    (cfg' : @tree_config xr_ops) (n : nat) (lr : f64) (m m' : @regression_boost_model (f64_ops P)) (me : @regression_boost_model xr_ops) (B nu : R) (row : list f64) :
  let N := length (labels d) in
  let B' := (1 + 4 * sqrt (INR N)) * B in
  let e := bpow radix2 (-48) * INR (N + 2) * B' in
  let margin := 2 * real_gain_error nt N (4 * B') + 128 * INR nt * B' * (sqrt (INR N) * (2 * nu + INR (n + 2) * e)) in
  wf_dataset nc nt d -> wf_dataset nc nt d' -> 0 <= nu <= B -> noisy_copy nu d d' ->
  (Z.of_nat N <= 2 ^ 20)%Z -> is_finite lr = true -> 0 <= B2R lr <= 2 ->
  bpow radix2 (-400) <= B <= bpow radix2 300 -> within B (labels d) -> within B (labels d') -> (Z.of_nat nt <= 2 ^ 40)%Z ->
  standard cfg -> standard cfg' -> tc_number_of_classes cfg = N.of_nat nt -> tc_number_of_classes cfg' = N.of_nat nt ->
  tc_max_levels cfg' = tc_max_levels cfg ->
  regression_boost_train d cfg n lr = Ok m -> regression_boost_train d' cfg n lr = Ok m' ->
  regression_boost_train (exact_data d) cfg' n (Fin (B2R lr)) = Ok me ->
  INR n * e <= B -> (nc <= length row)%nat ->
  (forall x k, In x (row :: feature_rows d) -> (k < n)%nat ->
     clear_stage margin nc nt (tc_max_levels cfg) (exact_data d) me k (map exact_value x)) ->
  (forall k t t' te, nth_error (m_trees m) k = Some t -> nth_error (m_trees m') k = Some t' -> nth_error (m_trees me) k = Some te ->
     exists ps, regression_boost_all_predictions (first_trees k me) (exact_data d) = Ok ps /\
       same_questions row t (mkDS (feature_rows (exact_data d)) (differences (labels (exact_data d)) ps) (feature_columns (exact_data d))) te /\
       same_questions row t' (mkDS (feature_rows (exact_data d)) (differences (labels (exact_data d)) ps) (feature_columns (exact_data d))) te) /\
  exists p p' : list f64, @regression_boost_predict (f64_ops P) m row = Ok p /\ @regression_boost_predict (f64_ops P) m' row = Ok p' /\
    length p = nt /\ length p' = nt /\
    forall j, (j < nt)%nat -> is_finite (nth j p (B754_zero false)) = true /\ is_finite (nth j p' (B754_zero false)) = true /\
      Rabs (B2R (nth j p' (B754_zero false)) - B2R (nth j p (B754_zero false))) <=
        INR (4 * n + 1) * sqrt (INR N) * nu + 4 * sqrt (INR N) * INR ((n + 1) * (n + 1)) * e.
Proof. exact (noise_ensembles P nc nt d d' cfg cfg' n lr m m' me B nu row). Qed.
Print Assumptions C93_noise_does_not_change_clear_ensembles.

(** Five rows, two label entries moved by 2^-20, two trees with rate 1/2: every decision is still clear. *)
Example C93_example :
  let N := length (labels blocks) in
  let B' := (1 + 4 * sqrt (INR N)) * 16 in
  let e := bpow radix2 (-48) * INR (N + 2) * B' in
  let margin := 2 * real_gain_error 2 N (4 * B') + 128 * INR 2 * B' * (sqrt (INR N) * (2 * bpow radix2 (-20) + INR (2 + 2) * e)) in
  wf_dataset 1 2 blocks /\ wf_dataset 1 2 blocks_hazy /\ noisy_copy (bpow radix2 (-20)) blocks blocks_hazy /\
  within 16 (labels blocks) /\ within 16 (labels blocks_hazy) /\ exists m m' me,
  @regression_boost_train (f64_ops taylor_platform) blocks blocks_cfg 2 half = Ok m /\
  @regression_boost_train (f64_ops taylor_platform) blocks_hazy blocks_cfg 2 half = Ok m' /\
  @regression_boost_train xr_ops (exact_data blocks) blocks_cfg_exact 2 (Fin (B2R half)) = Ok me /\
  INR 2 * e <= 16 /\
  forall x k, In x ([n64 1] :: feature_rows blocks) -> (k < 2)%nat ->
    clear_stage margin 1 2 (tc_max_levels blocks_cfg) (exact_data blocks) me k (map exact_value x).
Proof. exact (conj blocks_wf (conj hazy_wf (conj hazy_copy (conj blocks_within (conj hazy_within hazy_ensembles_clear))))). Qed.
