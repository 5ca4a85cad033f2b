(** Property C27 in binary64 arithmetic: the prediction is the leaf's mean in the code's summation order,
    and the range bound of exact arithmetic does not survive rounding. *)
From Flocq Require Import IEEE754.BinarySingleNaN.
From Verif Require Import Base Num ModelCommon ModelTree ModelBoost Spec SpecTree SpecScore SpecFit F64 ProofScore3 ProofTreeF64 Decide Check Demo.
Local Open Scope nat_scope.

Theorem C27_prediction_is_the_leaf_average (P : platform) (nc nt : nat) (d : dataset) (cfg : tree_config)
    (t : tree_node regression_leaf) (row : list F) :
  wf_dataset nc nt d -> regression_tree_new d cfg = Ok t -> nc <= length row ->
  tree_prediction row t = Ok (map (average_of (map snd (samples_like row t d))) (seq 0 nt)).
Proof. exact (prediction_average nc nt d cfg t row). Qed.
Print Assumptions C27_prediction_is_the_leaf_average.

Example C27_average_example :
  let O := f64_ops taylor_platform in
  wf_dataset 1 2 four /\
  (t <- regression_tree_new four (four_cfg 1 false);; tree_prediction [n64 2] t) = Ok [n64 1; n64 0].
Proof. split; [check_wf|compute_eq]. Qed.

(** Every label is at most [hi], the prediction is above [hi]. *)
Theorem C27_float_range_counterexample :
  exists (P : platform) (d : @dataset (f64_ops P)) (cfg : @tree_config (f64_ops P)) (hi v : @F (f64_ops P)),
    let O := f64_ops P in
    wf_dataset 1 1 d /\ (forall l x, In l (labels d) -> In x l -> fleb x hi = true) /\
    (t <- regression_tree_new d cfg;; tree_prediction [f0] t) = Ok [v] /\ fltb hi v = true.
Proof. exact mean_above_labels. Qed.
Print Assumptions C27_float_range_counterexample.
