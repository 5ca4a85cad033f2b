(** Properties C57 and C58: trees grown in binary64 on integer labels. *)
From Coq Require Import Reals ZArith.
From Flocq Require Import IEEE754.BinarySingleNaN.
From Verif Require Import Base Num ModelCommon ModelTree Spec SpecTree SpecScore SpecFit F64 XR SpecExact SpecInt ProofInt5 ProofInt6
  Decide Check Demo DemoInt.
Local Open Scope R_scope.

(* ------------------------------------------------------------------ *)
(** ** C57 *)

Theorem C57_pure_node_has_no_gain (P : platform) (M : Z) (nc nt : nat) (d : @dataset (f64_ops P)) (l : list (@F (f64_ops P)))
    (b : @best_split (f64_ops P)) :
  wf_dataset nc nt d -> integer_labels M d -> sums_fit M d -> (forall x, In x (labels d) -> x = l) ->
  find_best_split d (N.of_nat nt) = Ok b -> bs_gain b = f0.
Proof. exact (pure_no_gain_int P M nc nt d l b). Qed.
Print Assumptions C57_pure_node_has_no_gain.

Theorem C57_pure_node_is_a_leaf (P : platform) (M : Z) (nc nt : nat) (d : @dataset (f64_ops P)) (l : list (@F (f64_ops P)))
    (cfg : @tree_config (f64_ops P)) :
  wf_dataset nc nt d -> integer_labels M d -> sums_fit M d -> (forall x, In x (labels d) -> x = l) ->
  standard cfg -> tc_number_of_classes cfg = N.of_nat nt ->
  exists q, regression_tree_new d cfg = Ok (leaf_node q (mkRL (Some d))).
Proof. exact (pure_leaf_int P M nc nt d l cfg). Qed.
Print Assumptions C57_pure_node_is_a_leaf.

Theorem C57_zero_gain_means_nothing_to_gain (P : platform) (M : Z) (nc nt : nat) (d : @dataset (f64_ops P)) (b : @best_split (f64_ops P))
    (q : @question (f64_ops P)) :
  wf_dataset nc nt d -> integer_labels M d -> small_table M nt d ->
  find_best_split d (N.of_nat nt) = Ok b -> feqb (bs_gain b) f0 = true ->
  question_gain nt (exact_question q) (feature_rows (exact_data d)) (real_values d) = 0.
Proof. exact (zero_gain_nothing_int P M nc nt d b q). Qed.
Print Assumptions C57_zero_gain_means_nothing_to_gain.

Theorem C57_leaf_above_the_limit_has_one_label (P : platform) (M : Z) (nc nt : nat) (d : @dataset (f64_ops P)) (cfg : @tree_config (f64_ops P))
    (t : @tree_node (f64_ops P) (@regression_leaf (f64_ops P))) (row : list (@F (f64_ops P))) (ld : @dataset (f64_ops P)) :
  wf_dataset nc nt d -> integer_labels M d -> small_table M nt d -> consistent_rows d ->
  standard cfg -> tc_number_of_classes cfg = N.of_nat nt ->
  regression_tree_new d cfg = Ok t -> (nc <= length row)%nat -> (N.of_nat (length (path row t)) < tc_max_levels cfg)%N ->
  find_leaf_node_for_data row t = Ok (mkRL (Some ld)) ->
  exists l, forall l', In l' (labels ld) -> l' = l.
Proof. exact (fun W I T => leaf_above_limit_int P M (proj1 T) nc nt d cfg t row ld W I T). Qed.
Print Assumptions C57_leaf_above_the_limit_has_one_label.

Theorem C57_deep_tree_predicts_training_labels (P : platform) (M : Z) (nc nt : nat) (d : @dataset (f64_ops P)) (cfg : @tree_config (f64_ops P))
    (t : @tree_node (f64_ops P) (@regression_leaf (f64_ops P))) (row label : list (@F (f64_ops P))) :
  wf_dataset nc nt d -> integer_labels M d -> small_table M nt d -> consistent_rows d ->
  standard cfg -> tc_number_of_classes cfg = N.of_nat nt ->
  regression_tree_new d cfg = Ok t -> (N.of_nat (length (feature_rows d)) <= tc_max_levels cfg + 1)%N ->
  In (row, label) (samples d) -> tree_prediction row t = Ok label.
Proof. exact (fun W I T => deep_tree_fits_int P M (proj1 T) nc nt d cfg t row label W I T). Qed.
Print Assumptions C57_deep_tree_predicts_training_labels.

Theorem C57_deep_tree_has_no_training_error (P : platform) (M : Z) (nc nt : nat) (d : @dataset (f64_ops P)) (cfg : @tree_config (f64_ops P))
    (t : @tree_node (f64_ops P) (@regression_leaf (f64_ops P))) :
  @fsqr (f64_ops P) f0 = f0 ->
  wf_dataset nc nt d -> integer_labels M d -> small_table M nt d -> consistent_rows d -> (0 < nt)%nat ->
  standard cfg -> tc_number_of_classes cfg = N.of_nat nt ->
  regression_tree_new d cfg = Ok t -> (N.of_nat (length (feature_rows d)) <= tc_max_levels cfg + 1)%N ->
  calculate_overall_mean_squared_error d t = Ok f0.
Proof. exact (fun S W I T => deep_tree_zero_error_int P M (proj1 T) nc nt d cfg t S W I T). Qed.
Print Assumptions C57_deep_tree_has_no_training_error.

Example C57_example :
  let O := f64_ops taylor_platform in
  @wf_dataset O 1 2 four /\ integer_labels 1 four /\ sums_fit 1 four /\ small_table 1 2 four /\ consistent_rows four /\
  @standard O (four_cfg 3 false) /\ @fsqr O f0 = f0 /\
  (t <- @regression_tree_new O four (four_cfg 3 false);; tree_prediction [n64 4] t) = Ok [n64 1; n64 0] /\
  (t <- @regression_tree_new O four (four_cfg 3 false);; calculate_overall_mean_squared_error four t) = Ok f0.
Proof.
  split; [check_wf|]. split; [exact four_integer|]. split; [exact four_fits|]. split; [exact four_small|]. split; [exact four_consistent|].
  split; [reflexivity|]. split; [reflexivity|]. split; compute_eq.
Qed.

(* ------------------------------------------------------------------ *)
(** ** C58 *)

Theorem C58_prediction_is_the_rounded_mean (P : platform) (M : Z) (nc nt : nat) (d : @dataset (f64_ops P)) (cfg : @tree_config (f64_ops P))
    (t : @tree_node (f64_ops P) (@regression_leaf (f64_ops P))) (row : list (@F (f64_ops P))) :
  wf_dataset nc nt d -> integer_labels M d -> sums_fit M d -> regression_tree_new d cfg = Ok t -> (nc <= length row)%nat ->
  exists prediction, tree_prediction row t = Ok prediction /\ length prediction = nt /\
    let group := map (map B2R) (map snd (samples_like row t d)) in
    group <> [] /\
    forall j v, nth_error prediction j = Some v ->
      is_finite v = true /\ B2R v = nearest (mean (target j group)) /\
      forall lo hi : f64, is_finite lo = true -> is_finite hi = true ->
        (forall l x, In l (labels d) -> nth_error l j = Some x -> @fleb (f64_ops P) lo x = true /\ @fleb (f64_ops P) x hi = true) ->
        @fleb (f64_ops P) lo v = true /\ @fleb (f64_ops P) v hi = true.
Proof. exact (fun W I S => prediction_rounds_the_mean P M (proj1 S) nc nt d cfg t row W I S). Qed.
Print Assumptions C58_prediction_is_the_rounded_mean.

Example C58_example :
  let O := f64_ops taylor_platform in
  @wf_dataset O 1 2 four /\ integer_labels 1 four /\ sums_fit 1 four /\
  (t <- @regression_tree_new O four (four_cfg 0 false);; tree_prediction [n64 4] t) = Ok [Bdiv mode_NE (n64 3) (n64 4); Bdiv mode_NE (n64 1) (n64 4)].
Proof.
  split; [check_wf|]. split; [exact four_integer|]. split; [exact four_fits|]. compute_eq.
Qed.
