(** Property C85: in binary64, negating every label negates every answer of a regression model. *)
From Coq Require Import List ZArith.
From Flocq Require Import IEEE754.BinarySingleNaN.
From Verif Require Import Base Num ModelCommon ModelTree ModelBoost Spec SpecTree SpecFit SpecMirror F64 ProofMirror2 Decide Check Demo DemoDeepFloat.
Import ListNotations.
Local Existing Instance f64_ops.

(** The tree asks the same questions and answers the opposite numbers. No bound on the labels: they may be infinite or NaN. *)
Theorem C85_negated_tree (P : platform) (nc nt : nat) (d : @dataset (f64_ops P)) (cfg : @tree_config (f64_ops P)) (t t' : tree_node regression_leaf) :
  wf_dataset nc nt d -> standard cfg -> tc_number_of_classes cfg = N.of_nat nt ->
  regression_tree_new d cfg = Ok t -> regression_tree_new (negated d) cfg = Ok t' ->
  tree_map (fun _ => tt) t' = tree_map (fun _ => tt) t /\
  forall row, answers_related opposite (tree_prediction row t) (tree_prediction row t').
Proof. exact (negated_tree P nc nt d cfg t t'). Qed.
Print Assumptions C85_negated_tree.

(** The same for a regression ensemble of any length and learning rate. *)
Theorem C85_negated_ensemble (P : platform) (nc nt : nat) (d : @dataset (f64_ops P)) (cfg : @tree_config (f64_ops P)) (n : nat) (lr : f64)
    (m m' : @regression_boost_model (f64_ops P)) :
  wf_dataset nc nt d -> standard cfg -> tc_number_of_classes cfg = N.of_nat nt ->
  regression_boost_train d cfg n lr = Ok m -> regression_boost_train (negated d) cfg n lr = Ok m' ->
  Forall2 (fun t t' => tree_map (fun _ => tt) t' = tree_map (fun _ => tt) t) (m_trees m) (m_trees m') /\
  forall row, answers_related opposite (regression_boost_predict m row) (regression_boost_predict m' row).
Proof. exact (negated_ensemble P nc nt d cfg n lr m m'). Qed.
Print Assumptions C85_negated_ensemble.

(** Changing the signs of zero labels changes no question, and no answer except for the sign of zeros. *)
Theorem C85_zero_signs_tree (P : platform) (nc nt : nat) (d : @dataset (f64_ops P)) (ls : list (list f64)) (cfg : @tree_config (f64_ops P))
    (t t' : tree_node regression_leaf) :
  wf_dataset nc nt d -> Forall2 (Forall2 same_number) (labels d) ls -> standard cfg -> tc_number_of_classes cfg = N.of_nat nt ->
  regression_tree_new d cfg = Ok t -> regression_tree_new (with_other_labels d ls) cfg = Ok t' ->
  tree_map (fun _ => tt) t' = tree_map (fun _ => tt) t /\
  forall row, answers_related same_number (tree_prediction row t) (tree_prediction row t').
Proof. exact (tree_mirror P false nc nt d ls cfg t t'). Qed.
Print Assumptions C85_zero_signs_tree.

Theorem C85_zero_signs_ensemble (P : platform) (nc nt : nat) (d : @dataset (f64_ops P)) (ls : list (list f64)) (cfg : @tree_config (f64_ops P))
    (n : nat) (lr : f64) (m m' : @regression_boost_model (f64_ops P)) :
  wf_dataset nc nt d -> Forall2 (Forall2 same_number) (labels d) ls -> standard cfg -> tc_number_of_classes cfg = N.of_nat nt ->
  regression_boost_train d cfg n lr = Ok m -> regression_boost_train (with_other_labels d ls) cfg n lr = Ok m' ->
  Forall2 (fun t t' => tree_map (fun _ => tt) t' = tree_map (fun _ => tt) t) (m_trees m) (m_trees m') /\
  forall row, answers_related same_number (regression_boost_predict m row) (regression_boost_predict m' row).
Proof. exact (boost_mirror P false nc nt d ls cfg n lr m m'). Qed.
Print Assumptions C85_zero_signs_ensemble.

(** Rows with labels such as 0.1 and 0.3 that meet the hypotheses; both models are trained. *)
Example C85_example :
  @wf_dataset (f64_ops taylor_platform) 1 2 uneven /\ standard uneven_cfg /\ tc_number_of_classes uneven_cfg = 2%N /\
  match regression_tree_new uneven uneven_cfg, regression_tree_new (negated uneven) uneven_cfg with Ok t, Ok t' => true | _, _ => false end = true /\
  match regression_boost_train uneven uneven_cfg 2 (tenth 3), regression_boost_train (negated uneven) uneven_cfg 2 (tenth 3) with
  | Ok m, Ok m' => match @regression_boost_predict (f64_ops taylor_platform) m [n64 2], @regression_boost_predict (f64_ops taylor_platform) m' [n64 2] with
                   | Ok [a; b], Ok [c; d] => (Beqb c (Bopp a) && Beqb d (Bopp b) && negb (Beqb c a) && negb (Beqb d b))%bool
                   | _, _ => false end
  | _, _ => false end = true.
Proof. split; [check_wf|]. split; [reflexivity|]. split; [reflexivity|]. split; vm_compute; reflexivity. Qed.

(** The sign of zeros has to be left open: a row labelled 0 and a row labelled -0 are both answered 0, not -0. *)
Example C85_zero_is_answered_zero :
  let d := @mkDS (f64_ops taylor_platform) [[n64 1]] [[n64 0]] [[n64 1]] in
  let cfg := @mkTC (f64_ops taylor_platform) (split_finder_new Variance) false 1 1 in
  match regression_tree_new d cfg, regression_tree_new (negated d) cfg with
  | Ok t, Ok t' => match @tree_prediction (f64_ops taylor_platform) [n64 1] t, @tree_prediction (f64_ops taylor_platform) [n64 1] t' with
                   | Ok [a], Ok [b] => (Beqb a (n64 0) && Beqb b (n64 0) && negb (Bsign a) && negb (Bsign b))%bool
                   | _, _ => false end
  | _, _ => false end = true.
Proof. vm_compute. reflexivity. Qed.
