(** Property C91: where exact arithmetic decides clearly, binary64 decides the same way and its answers are the exact ones up to rounding. *)
From Coq Require Import Reals ZArith.
From Flocq Require Import Core.
From Flocq Require Import IEEE754.BinarySingleNaN.
From Verif Require Import Base Num ModelCommon ModelTree ModelBoost Spec SpecTree F64 XR SpecExact SpecInt SpecNear SpecScore SpecFit SpecFitFloat SpecClear
  ProofClear3 ProofClear5 Demo DemoClear.
Local Open Scope R_scope.

(** One regression tree: [te] is the tree that exact arithmetic builds from the same table. *)
Theorem C91_clear_tree_is_the_exact_tree (P : platform) (nc nt : nat) (B : R) (d : @dataset (f64_ops P)) (cfg : @tree_config (f64_ops P))
    (cfg' : @tree_config xr_ops) (t : @tree_node (f64_ops P) (@regression_leaf (f64_ops P))) (te : @tree_node xr_ops (@regression_leaf xr_ops)) (row : list f64) :
  wf_dataset nc nt d -> bounded_labels B d -> ordinary_table B d -> (Z.of_nat nt <= 2 ^ 40)%Z ->
  standard cfg -> standard cfg' -> tc_number_of_classes cfg = N.of_nat nt -> tc_number_of_classes cfg' = N.of_nat nt ->
  tc_max_levels cfg' = tc_max_levels cfg ->
  regression_tree_new d cfg = Ok t -> regression_tree_new (exact_data d) cfg' = Ok te -> (nc <= length row)%nat ->
  clear_path (2 * real_gain_error nt (length (labels d)) B) nc nt (tc_max_levels cfg) (exact_data d) te (map exact_value row) ->
  same_questions row t (exact_data d) te /\
  exists (p : list f64) (q : list R), @tree_prediction (f64_ops P) row t = Ok p /\ @tree_prediction xr_ops (map exact_value row) te = Ok (map Fin q) /\
    length p = nt /\ length q = nt /\
    forall j, (j < nt)%nat -> is_finite (nth j p (B754_zero false)) = true /\
      Rabs (B2R (nth j p (B754_zero false)) - nth j q 0) <= bpow radix2 (-51) * INR (length (labels d) + 1) * B + bpow radix2 (-1072).
Proof. exact (clear_tree_same P nc nt B d cfg cfg' t te row). Qed.
Print Assumptions C91_clear_tree_is_the_exact_tree.

(** A whole regression ensemble of [n] trees: [me] is what exact arithmetic trains from the same table with the same rate. *)
Theorem C91_clear_ensemble_is_the_exact_ensemble (P : platform) (nc nt : nat) (d : @dataset (f64_ops P)) (cfg : @tree_config (f64_ops P))
    (cfg' : @tree_config xr_ops) (n : nat) (lr : f64) (m : @regression_boost_model (f64_ops P)) (me : @regression_boost_model xr_ops)
    (B : R) (row : list f64) :
  let N := length (labels d) in
  let B' := (1 + 4 * sqrt (INR N)) * B in
  let e := bpow radix2 (-48) * INR (N + 2) * B' in
  let margin := 2 * real_gain_error nt N (4 * B') + 128 * INR nt * B' * (sqrt (INR N) * INR (n + 2) * e) in
  wf_dataset nc nt d -> (Z.of_nat N <= 2 ^ 20)%Z -> is_finite lr = true -> 0 <= B2R lr <= 2 ->
  bpow radix2 (-400) <= B <= bpow radix2 300 -> within B (labels d) -> (Z.of_nat nt <= 2 ^ 40)%Z ->
  standard cfg -> standard cfg' -> tc_number_of_classes cfg = N.of_nat nt -> tc_number_of_classes cfg' = N.of_nat nt ->
  tc_max_levels cfg' = tc_max_levels cfg ->
  regression_boost_train d cfg n lr = Ok m -> regression_boost_train (exact_data d) cfg' n (Fin (B2R lr)) = Ok me ->
  INR n * e <= B -> (nc <= length row)%nat ->
  (forall x k, In x (row :: feature_rows d) -> (k < n)%nat ->
     clear_stage margin nc nt (tc_max_levels cfg) (exact_data d) me k (map exact_value x)) ->
  (forall k t te, nth_error (m_trees m) k = Some t -> nth_error (m_trees me) k = Some te ->
     exists ps, regression_boost_all_predictions (first_trees k me) (exact_data d) = Ok ps /\
       same_questions row t (mkDS (feature_rows (exact_data d)) (differences (labels (exact_data d)) ps) (feature_columns (exact_data d))) te) /\
  exists (p : list f64) (q : list R), @regression_boost_predict (f64_ops P) m row = Ok p /\
    @regression_boost_predict xr_ops me (map exact_value row) = Ok (map Fin q) /\ length p = nt /\ length q = nt /\
    forall j, (j < nt)%nat -> is_finite (nth j p (B754_zero false)) = true /\
      Rabs (B2R (nth j p (B754_zero false)) - nth j q 0) <= 2 * sqrt (INR N) * INR ((n + 1) * (n + 1)) * e.
Proof. exact (clear_ensemble P nc nt d cfg cfg' n lr m me B row). Qed.
Print Assumptions C91_clear_ensemble_is_the_exact_ensemble.

(** Five rows in two blocks, two targets: both blocks meet one question, clear by more than the margin. *)
Example C91_tree_example : exists t te,
  wf_dataset 1 2 blocks /\ bounded_labels 16 blocks /\ ordinary_table 16 blocks /\
  @regression_tree_new (f64_ops taylor_platform) blocks blocks_cfg = Ok t /\ @regression_tree_new xr_ops (exact_data blocks) blocks_cfg_exact = Ok te /\
  forall row, In row [[n64 0]; [n64 1]] ->
    clear_path (2 * real_gain_error 2 (length (labels blocks)) 16) 1 2 (tc_max_levels blocks_cfg) (exact_data blocks) te (map exact_value row) /\
    @path xr_ops _ (map exact_value row) te = [Question 0 (Fin 1)].
Proof.
  destruct blocks_tree_clear as (t & te & H1 & H2 & H3). exists t, te.
  exact (conj blocks_wf (conj blocks_bounded (conj blocks_ordinary (conj H1 (conj H2 H3))))).
Qed.

(** The same table, two iterations with rate 1/2. *)
Example C91_ensemble_example :
  let N := length (labels blocks) in
  let B' := (1 + 4 * sqrt (INR N)) * 16 in
  let e := bpow radix2 (-48) * INR (N + 2) * B' in
  let margin := 2 * real_gain_error 2 N (4 * B') + 128 * INR 2 * B' * (sqrt (INR N) * INR (2 + 2) * e) in
  within 16 (labels blocks) /\ exists m me,
  @regression_boost_train (f64_ops taylor_platform) blocks blocks_cfg 2 half = Ok m /\
  @regression_boost_train xr_ops (exact_data blocks) blocks_cfg_exact 2 (Fin (B2R half)) = Ok me /\
  INR 2 * e <= 16 /\
  forall x k, In x ([n64 1] :: feature_rows blocks) -> (k < 2)%nat -> clear_stage margin 1 2 (tc_max_levels blocks_cfg) (exact_data blocks) me k (map exact_value x).
Proof. exact (conj blocks_within blocks_ensemble_clear). Qed.
