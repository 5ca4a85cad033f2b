(** Property C92: a little noise in the labels does not change the questions of a clear regression tree. *)
From Coq Require Import Reals ZArith.
From Flocq Require Import Core.
From Flocq Require Import IEEE754.BinarySingleNaN.
From Verif Require Import Base Num ModelCommon ModelTree Spec SpecTree F64 XR SpecExact SpecInt SpecNear SpecFit SpecClear SpecNoise
  ProofNoise Demo DemoClear DemoNoise.
Local Open Scope R_scope.

(** [d'] is [d] with every label entry moved by at most [e]; [t] and [t'] are the trees trained on them in binary64. *)
Theorem C92_noise_does_not_change_clear_questions (P : platform) (nc nt : nat) (B e : R) (d d' : @dataset (f64_ops P)) (cfg : @tree_config (f64_ops P))
    (cfg' : @tree_config xr_ops) (t t' : @tree_node (f64_ops P) (@regression_leaf (f64_ops P))) (te : @tree_node xr_ops (@regression_leaf xr_ops)) (row : list f64) :
  wf_dataset nc nt d -> wf_dataset nc nt d' -> bounded_labels B d -> bounded_labels B d' -> ordinary_table B d -> (Z.of_nat nt <= 2 ^ 40)%Z ->
  0 <= e -> noisy_copy e d d' ->
  standard cfg -> standard cfg' -> tc_number_of_classes cfg = N.of_nat nt -> tc_number_of_classes cfg' = N.of_nat nt ->
  tc_max_levels cfg' = tc_max_levels cfg ->
  regression_tree_new d cfg = Ok t -> regression_tree_new d' cfg = Ok t' -> regression_tree_new (exact_data d) cfg' = Ok te -> (nc <= length row)%nat ->
  clear_path (2 * real_gain_error nt (length (labels d)) B + 32 * INR nt * B * e) nc nt (tc_max_levels cfg) (exact_data d) te (map exact_value row) ->
  same_questions row t (exact_data d) te /\ same_questions row t' (exact_data d) te /\
  exists p p' : list f64, @tree_prediction (f64_ops P) row t = Ok p /\ @tree_prediction (f64_ops P) row t' = Ok p' /\ length p = nt /\ length p' = nt /\
    forall j, (j < nt)%nat -> is_finite (nth j p (B754_zero false)) = true /\ is_finite (nth j p' (B754_zero false)) = true /\
      Rabs (B2R (nth j p' (B754_zero false)) - B2R (nth j p (B754_zero false))) <=
        e + (bpow radix2 (-50) * INR (length (labels d) + 1) * B + bpow radix2 (-1071)).
Proof. exact (noise_trees P nc nt B e d d' cfg cfg' t t' te row). Qed.
Print Assumptions C92_noise_does_not_change_clear_questions.

(** Five rows, two label entries moved by 1/256: the question of the tree is still clear. *)
Example C92_example : wf_dataset 1 2 blocks /\ wf_dataset 1 2 blocks_noisy /\ bounded_labels 16 blocks /\ bounded_labels 16 blocks_noisy /\
  ordinary_table 16 blocks /\ noisy_copy (/ 256) blocks blocks_noisy /\ exists t t' te,
  @regression_tree_new (f64_ops taylor_platform) blocks blocks_cfg = Ok t /\ @regression_tree_new (f64_ops taylor_platform) blocks_noisy blocks_cfg = Ok t' /\
  @regression_tree_new xr_ops (exact_data blocks) blocks_cfg_exact = Ok te /\
  clear_path (2 * real_gain_error 2 (length (labels blocks)) 16 + 32 * INR 2 * 16 * / 256) 1 2 (tc_max_levels blocks_cfg) (exact_data blocks) te (map exact_value [n64 1]).
Proof.
  exact (conj blocks_wf (conj blocks_noisy_wf (conj blocks_bounded (conj blocks_noisy_bounded (conj blocks_ordinary (conj blocks_copy blocks_noisy_clear)))))).
Qed.
