(** Property C84: in binary64, a deeper regression tree fits the training data no worse, up to rounding. *)
From Coq Require Import Reals ZArith.
From Flocq Require Import Core.
From Flocq Require Import IEEE754.BinarySingleNaN.
From Verif Require Import Base Num ModelCommon ModelTree Spec SpecTree F64 SpecExact SpecFit SpecFitFloat ProofDeepFloat Decide Check Demo DemoDeepFloat.
Local Open Scope R_scope.
Local Existing Instance f64_ops.

(** [ps] and [ps'] are the predictions of the shallower and the deeper tree for all training rows. *)
Theorem C84_deeper_fits_no_worse (P : platform) (nc nt : nat) (d : @dataset (f64_ops P)) (cfg : @tree_config (f64_ops P)) (m m' : N)
    (t t' : tree_node regression_leaf) (B : R) :
  wf_dataset nc nt d -> (Z.of_nat (length (labels d)) <= 2 ^ 40)%Z ->
  bpow radix2 (-400) <= B <= bpow radix2 400 -> within B (labels d) -> (m <= m')%N ->
  regression_tree_new d (with_levels m cfg) = Ok t -> regression_tree_new d (with_levels m' cfg) = Ok t' ->
  exists ps ps' : list (list f64),
    mapM (fun row => tree_prediction row t) (feature_rows d) = Ok ps /\
    mapM (fun row => tree_prediction row t') (feature_rows d) = Ok ps' /\
    Forall (Forall (fun x : f64 => is_finite x = true)) ps' /\
    forall j, (j < nt)%nat ->
      rms (errors j (labels d) ps') <= rms (errors j (labels d) ps) + bpow radix2 (-50) * INR (length (labels d) + 2) * B.
Proof. exact (deeper_float P nc nt d cfg m m' t t' B). Qed.
Print Assumptions C84_deeper_fits_no_worse.

(** Whatever its depth and however it was split, a tree fits no worse than the average label does. *)
Theorem C84_no_worse_than_the_average (P : platform) (nc nt : nat) (d : @dataset (f64_ops P)) (cfg : @tree_config (f64_ops P))
    (t : tree_node regression_leaf) (B : R) :
  wf_dataset nc nt d -> (Z.of_nat (length (labels d)) <= 2 ^ 40)%Z ->
  bpow radix2 (-400) <= B <= bpow radix2 400 -> within B (labels d) ->
  regression_tree_new d cfg = Ok t ->
  exists ps : list (list f64), mapM (fun row => tree_prediction row t) (feature_rows d) = Ok ps /\
    Forall (Forall (fun x : f64 => is_finite x = true)) ps /\
    forall j, (j < nt)%nat ->
      rms (errors j (labels d) ps) <=
        sqrt (variance (target j (map (map B2R) (labels d)))) + bpow radix2 (-51) * INR (length (labels d) + 2) * B.
Proof. exact (tree_beats_average P nc nt d cfg t B). Qed.
Print Assumptions C84_no_worse_than_the_average.

(** The allowance for rounding cannot be dropped: one question more makes the fit of the first target strictly worse. *)
Theorem C84_strictly_worse : exists t t' (ps ps' : list (list f64)),
  regression_tree_new uneven (with_levels 0 uneven_cfg) = Ok t /\ regression_tree_new uneven (with_levels 1 uneven_cfg) = Ok t' /\
  mapM (fun row => tree_prediction row t) (feature_rows uneven) = Ok ps /\
  mapM (fun row => tree_prediction row t') (feature_rows uneven) = Ok ps' /\
  rms (errors 0 (labels uneven) ps) < rms (errors 0 (labels uneven) ps').
Proof. exact uneven_worse. Qed.
Print Assumptions C84_strictly_worse.

(** These rows meet the hypotheses of both theorems. *)
Example C84_example :
  @wf_dataset (f64_ops taylor_platform) 1 2 uneven /\ within 1 (labels uneven) /\ bpow radix2 (-400) <= 1 <= bpow radix2 400.
Proof. split; [check_wf|]. split; [exact uneven_within|]. change 1 with (bpow radix2 0). split; apply bpow_le; discriminate. Qed.
