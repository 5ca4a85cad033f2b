(** Property C95: how many training rows a classification tree gets right, in binary64 on every platform. *)
From Coq Require Import Reals.
From Flocq Require Import IEEE754.BinarySingleNaN.
From Verif Require Import Base Num ModelCommon ModelTree Spec SpecTree SpecScore SpecFit SpecF64 SpecInt SpecVote F64 ProofVote Decide Check Demo DemoInt.
Local Open Scope nat_scope.

(* ------------------------------------------------------------------ *)
(** ** C95 *)

Theorem C95_training_accuracy_is_the_share_of_the_leaf_majorities (P : platform) (nc nt : nat) (d : @dataset (f64_ops P))
    (cfg : @tree_config (f64_ops P)) (t : @tree_node (f64_ops P) (@regression_leaf (f64_ops P))) :
  0 < nt -> (Z.of_nat nt <= 2 ^ 53)%Z ->
  wf_dataset nc nt d -> class_labels nt d -> (Z.of_nat (length (feature_rows d)) <= 2 ^ 53)%Z -> regression_tree_new d cfg = Ok t ->
  exists a, calculate_accuracy d t = Ok a /\ is_fraction (hits d t) (length (feature_rows d)) a /\
    hits d t = list_sum (map (fun l => match rl_data l with Some ld => largest_class nt (labels ld) | None => 0 end) (leaves t)) /\
    largest_class nt (labels d) <= hits d t.
Proof. exact (fun Hk Hk2 => training_accuracy P nc nt Hk Hk2 d cfg t). Qed.
Print Assumptions C95_training_accuracy_is_the_share_of_the_leaf_majorities.

Theorem C95_deeper_trees_classify_no_worse (P : platform) (nc nt : nat) (d : @dataset (f64_ops P)) (cfg : @tree_config (f64_ops P)) (m m' : N)
    (t t' : @tree_node (f64_ops P) (@regression_leaf (f64_ops P))) :
  0 < nt -> (Z.of_nat nt <= 2 ^ 53)%Z ->
  wf_dataset nc nt d -> class_labels nt d -> (Z.of_nat (length (feature_rows d)) <= 2 ^ 53)%Z -> (m <= m')%N ->
  regression_tree_new d (with_levels m cfg) = Ok t -> regression_tree_new d (with_levels m' cfg) = Ok t' ->
  hits d t <= hits d t' /\
  exists a a', calculate_accuracy d t = Ok a /\ calculate_accuracy d t' = Ok a' /\ (B2R a <= B2R a')%R.
Proof. exact (fun Hk Hk2 => deeper_classifies_no_worse P nc nt Hk Hk2 d cfg m m' t t'). Qed.
Print Assumptions C95_deeper_trees_classify_no_worse.

Theorem C95_deep_tree_classifies_everything (P : platform) (nc nt : nat) (d : @dataset (f64_ops P)) (cfg : @tree_config (f64_ops P))
    (t : @tree_node (f64_ops P) (@regression_leaf (f64_ops P))) :
  0 < nt -> (Z.of_nat nt <= 2 ^ 53)%Z ->
  wf_dataset nc nt d -> class_labels nt d -> (Z.of_nat (length (feature_rows d)) <= 2 ^ 53)%Z ->
  small_table 1 nt d -> consistent_rows d -> standard cfg -> tc_number_of_classes cfg = N.of_nat nt ->
  regression_tree_new d cfg = Ok t -> (N.of_nat (length (feature_rows d)) <= tc_max_levels cfg + 1)%N ->
  exists a, calculate_accuracy d t = Ok a /\ B2R a = 1%R /\ is_finite a = true /\
    forall row l, In (row, l) (samples d) -> predict_class row t = Ok l.
Proof. exact (fun Hk Hk2 => deep_tree_classifies P nc nt Hk Hk2 d cfg t). Qed.
Print Assumptions C95_deep_tree_classifies_everything.

(** Three rows of class 0 and one of class 1: a single leaf gets three right, a deep tree all four. *)
Example C95_example :
  let O := f64_ops taylor_platform in
  @wf_dataset O 1 2 four /\ @class_labels O 2 four /\ small_table 1 2 four /\ consistent_rows four /\
  @standard O (four_cfg 3 false) /\ @largest_class O 2 (labels four) = 3 /\
  (t <- @regression_tree_new O four (with_levels 0 (four_cfg 3 false));; calculate_accuracy four t) = Ok (Bdiv mode_NE (n64 3) (n64 4)) /\
  (t <- @regression_tree_new O four (with_levels 3 (four_cfg 3 false));; calculate_accuracy four t) = Ok (n64 1).
Proof.
  split; [check_wf|]. split; [|split; [exact four_small|split; [exact four_consistent|]]].
  { repeat apply Forall_cons; try apply Forall_nil; [exists 0%N|exists 0%N|exists 1%N|exists 0%N];
      (split; [reflexivity|split; [reflexivity|]]); intros [|[|i]] Hi; try reflexivity; exfalso; do 2 apply le_S_n in Hi; inversion Hi. }
  split; [reflexivity|]. split; [vm_compute; reflexivity|]. split; compute_eq.
Qed.
