(** Property C87: in binary64, multiplying every label by the same power of two multiplies every answer of a regression model by it, exactly. *)
From Coq Require Import List ZArith.
From Flocq Require Import IEEE754.BinarySingleNaN.
From Verif Require Import Base Num ModelCommon ModelTree ModelBoost Spec SpecTree SpecScore SpecFit SpecMirror SpecScale F64 ProofScale2 Decide Check Demo DemoDeepFloat DemoScale.
Import ListNotations.
Local Existing Instance f64_ops.

(** The tree asks the same questions and every answer is 2^k times as large, with no rounding. *)
Theorem C87_scaled_tree (P : platform) (k : Z) (nc nt : nat) (d : @dataset (f64_ops P)) (ls : list (list f64)) (cfg : @tree_config (f64_ops P))
    (t t' : tree_node regression_leaf) :
  wf_dataset nc nt d -> standard cfg -> tc_number_of_classes cfg = N.of_nat nt -> (-100 <= k <= 100)%Z ->
  (Z.of_nat (length (feature_rows d)) <= 2 ^ 40)%Z -> (Z.of_nat nt <= 2 ^ 40)%Z ->
  Forall (Forall (moderate 150)) (labels d) -> Forall2 (Forall2 (scaled_by k)) (labels d) ls ->
  regression_tree_new d cfg = Ok t -> regression_tree_new (with_other_labels d ls) cfg = Ok t' ->
  tree_map (fun _ => tt) t' = tree_map (fun _ => tt) t /\
  forall row, answers_related (scaled_by k) (tree_prediction row t) (tree_prediction row t').
Proof. exact (scaled_tree P k nc nt d ls cfg t t'). Qed.
Print Assumptions C87_scaled_tree.

(** The same for a regression ensemble whose residuals are moderate too while it is trained on the original labels. *)
Theorem C87_scaled_ensemble (P : platform) (k : Z) (nc nt : nat) (d : @dataset (f64_ops P)) (ls : list (list f64)) (cfg : @tree_config (f64_ops P))
    (n : nat) (lr : f64) (m m' : @regression_boost_model (f64_ops P)) :
  wf_dataset nc nt d -> standard cfg -> tc_number_of_classes cfg = N.of_nat nt -> (-100 <= k <= 100)%Z ->
  (Z.of_nat (length (feature_rows d)) <= 2 ^ 40)%Z -> (Z.of_nat nt <= 2 ^ 40)%Z -> (Z.of_nat n <= 2 ^ 40)%Z -> moderate 100 lr ->
  Forall (Forall (moderate 150)) (labels d) -> Forall2 (Forall2 (scaled_by k)) (labels d) ls ->
  regression_boost_train d cfg n (lr : @F (f64_ops P)) = Ok m -> regression_boost_train (with_other_labels d ls) cfg n (lr : @F (f64_ops P)) = Ok m' ->
  (forall j preds, j < n -> regression_boost_all_predictions (first_trees j m) d = Ok preds ->
     Forall (Forall (moderate 150)) (differences (O := f64_ops P) (labels d) preds)) ->
  Forall2 (fun t t' => tree_map (fun _ => tt) t' = tree_map (fun _ => tt) t) (m_trees m) (m_trees m') /\
  forall row, answers_related (scaled_by k) (regression_boost_predict m row) (regression_boost_predict m' row).
Proof. exact (scaled_ensemble P k nc nt d ls cfg n lr m m'). Qed.
Print Assumptions C87_scaled_ensemble.

(** Rows with labels such as 0.1 and 0.3, and the same labels times 8: the hypotheses hold, for a tree that asks a question and for an ensemble of 3 trees. *)
Example C87_example :
  @wf_dataset (f64_ops taylor_platform) 1 2 uneven /\ standard uneven_cfg /\ tc_number_of_classes uneven_cfg = 2%N /\
  Forall (Forall (moderate 150)) (labels uneven) /\ Forall2 (Forall2 (scaled_by 3)) (labels uneven) (eight_times (labels uneven)) /\ moderate 100 (tenth 3) /\
  match regression_tree_new uneven uneven_cfg, regression_tree_new (with_other_labels uneven (eight_times (labels uneven))) uneven_cfg with
  | Ok t, Ok t' => match nd_leaf t, nd_leaf t' with None, None => true | _, _ => false end
  | _, _ => false end = true /\
  exists m m',
    regression_boost_train uneven uneven_cfg 3 (tenth 3 : @F (f64_ops taylor_platform)) = Ok m /\
    regression_boost_train (with_other_labels uneven (eight_times (labels uneven))) uneven_cfg 3 (tenth 3 : @F (f64_ops taylor_platform)) = Ok m' /\
    (forall j preds, j < 3 -> regression_boost_all_predictions (first_trees j m) uneven = Ok preds ->
       Forall (Forall (moderate 150)) (differences (O := f64_ops taylor_platform) (labels uneven) preds)) /\
    match regression_boost_predict m [n64 2 : @F (f64_ops taylor_platform)], regression_boost_predict m' [n64 2 : @F (f64_ops taylor_platform)] with
    | Ok [a; b], Ok [c; d] => (Beqb c (Bmult mode_NE (n64 8) a) && Beqb d (Bmult mode_NE (n64 8) b) && negb (Beqb a (n64 0)) && negb (Beqb b (n64 0)))%bool
    | _, _ => false end = true.
Proof.
  split; [check_wf|]. split; [reflexivity|]. split; [reflexivity|]. split; [exact uneven_moderate|]. split; [exact uneven_scaled|].
  split; [apply moderateb_ok; vm_compute; reflexivity|]. split; [vm_compute; reflexivity|]. exact uneven_trained.
Qed.

(** Without the bound on the labels it fails: labels 0 and 2^-540 give a single leaf, because their squares are rounded to 0; labels 0 and 2^-440 give a question. *)
Example C87_tiny_labels_are_not_split :
  @wf_dataset (f64_ops taylor_platform) 1 1 tiny /\ standard tiny_cfg /\ Forall2 (Forall2 (scaled_by 100)) (labels tiny) less_tiny /\
  match regression_tree_new tiny tiny_cfg, regression_tree_new (with_other_labels tiny less_tiny) tiny_cfg with
  | Ok t, Ok t' => match nd_leaf t, nd_leaf t' with Some _, None => true | _, _ => false end
  | _, _ => false end = true.
Proof. split; [check_wf|]. split; [reflexivity|]. split; [exact tiny_scaled|]. vm_compute. reflexivity. Qed.
