(** Property C83: in binary64 a deep enough tree nearly fits consistent data, and no more than nearly. *)
From Coq Require Import Reals ZArith.
From Flocq Require Import Core.
From Flocq Require Import IEEE754.BinarySingleNaN.
From Verif Require Import Base Num ModelCommon ModelTree ModelBoost Spec SpecTree SpecScore F64 SpecExact SpecInt SpecNear SpecFit SpecNearFit ProofNearFit
  Decide Check Demo DemoNear DemoNearFit.
Local Open Scope R_scope.

Theorem C83_leaves_above_the_limit_are_nearly_pure (P : platform) (B : R) (nc nt : nat) (d : @dataset (f64_ops P))
    (cfg : @tree_config (f64_ops P)) (calc : @leaf_output_calculator (f64_ops P)) :
  wf_dataset nc nt d -> bounded_labels B d -> ordinary_table B d -> (Z.of_nat nt <= 2 ^ 40)%Z -> consistent_rows d ->
  standard cfg -> tc_number_of_classes cfg = N.of_nat nt ->
  (forall t, regression_tree_new d cfg = Ok t -> close_leaves B nt (tc_max_levels cfg) d t) /\
  (forall t, grad_boost_tree_new d cfg calc = Ok t -> close_leaves B nt (tc_max_levels cfg) d t) /\
  (forall t, amg_boost_tree_new d cfg calc = Ok t -> close_leaves B nt (tc_max_levels cfg) d t).
Proof. exact (leaves_close P B nc nt d cfg calc). Qed.
Print Assumptions C83_leaves_above_the_limit_are_nearly_pure.

(** [n] is the number of training rows in the leaf of [row]. *)
Theorem C83_deep_tree_nearly_fits (P : platform) (B : R) (nc nt : nat) (d : @dataset (f64_ops P)) (cfg : @tree_config (f64_ops P))
    (t : tree_node regression_leaf) (row label : list (@F (f64_ops P))) (j : nat) :
  wf_dataset nc nt d -> bounded_labels B d -> ordinary_table B d -> (Z.of_nat nt <= 2 ^ 40)%Z -> consistent_rows d ->
  standard cfg -> tc_number_of_classes cfg = N.of_nat nt ->
  regression_tree_new d cfg = Ok t -> (N.of_nat (length (labels d)) <= tc_max_levels cfg + 1)%N ->
  In (row, label) (samples d) -> (j < nt)%nat ->
  let n := length (samples_like row t d) in
  exists (p : list f64) (v : f64), tree_prediction row t = Ok p /\ nth_error p j = Some v /\ is_finite v = true /\
    Rabs (B2R v - nth j (map B2R label) 0) <=
      2 * (INR n * INR n) * sqrt (real_gain_error nt n B) + bpow radix2 (-51) * (INR n + 1) * B + bpow radix2 (-1072).
Proof. exact (fun W Hb Ho Hk HC Hs HK => deep_tree_nearly_fits P B nc nt d W Hb Ho Hk HC cfg Hs HK t row label j). Qed.
Print Assumptions C83_deep_tree_nearly_fits.

(** An exact fit, which exact arithmetic would give (C29), cannot be had: labels 1 and 1 + 2^-30 in distinguishable
    rows end up in one leaf, whatever the depth limit. *)
Theorem C83_close_labels_share_a_leaf :
  let O := f64_ops taylor_platform in
  exists (d : @dataset O) (row label : list (@F O)),
    wf_dataset 1 1 d /\ bounded_labels 4 d /\ ordinary_table 4 d /\ consistent_rows d /\ In (row, label) (samples d) /\
    forall (threads : bool) (levels : N),
      (t <- regression_tree_new d (mkTC (split_finder_new Variance) threads 1 levels);; p <- tree_prediction row t;;
       Ok (equal_vectors p label)) = Ok false.
Proof. exact close_pair_not_fitted. Qed.
Print Assumptions C83_close_labels_share_a_leaf.

Example C83_example :
  let O := f64_ops taylor_platform in
  let cfg := @mkTC O (split_finder_new Variance) false 2 3 in
  @wf_dataset O 1 2 fractions /\ bounded_labels 4 fractions /\ ordinary_table 4 fractions /\ consistent_rows fractions /\
  standard cfg /\ tc_number_of_classes cfg = 2%N /\ (N.of_nat (length (labels fractions)) <= tc_max_levels cfg + 1)%N /\
  (t <- regression_tree_new fractions cfg;; tree_prediction [n64 3] t) = Ok [tenths_of 31; tenths_of (-22)] /\
  real_gain_error 2 4 4 = 92160 / 2 ^ 53.
Proof.
  intros O cfg. split; [check_wf|]. split; [exact fractions_bounded|]. split; [exact fractions_ordinary|]. split; [exact fractions_consistent|].
  split; [reflexivity|]. split; [reflexivity|]. split; [discriminate|]. split; [compute_eq|exact fractions_error].
Qed.
