(** Property C86: a target with the same label in every row does not influence a regression model. *)
From Coq Require Import Reals List ZArith.
From Flocq Require Import IEEE754.BinarySingleNaN.
From Verif Require Import Base Num F64 XR ModelCommon ModelTree ModelBoost Spec SpecTree SpecFit SpecMirror SpecInsert ProofTree ProofBoost ProofNull2 Decide Check Demo DemoDeepFloat.
Import ListNotations.

(** In exact arithmetic, for any constant label. *)
Theorem C86_constant_target_tree (nc nt p : nat) (c : R) (d : @dataset xr_ops) (cfg : @tree_config xr_ops) (t t' : tree_node regression_leaf) :
  wf_dataset nc nt d -> p <= nt -> standard cfg -> tc_number_of_classes cfg = N.of_nat nt ->
  regression_tree_new d cfg = Ok t -> regression_tree_new (with_constant_target p (Fin c : @F xr_ops) d) (one_more_target cfg) = Ok t' ->
  tree_map (fun _ => tt) t' = tree_map (fun _ => tt) t /\
  forall row, (tree_prediction row t = Panic /\ tree_prediction row t' = Panic) \/
    exists q, tree_prediction row t = Ok q /\ tree_prediction row t' = Ok (insert_at p (Fin c : @F xr_ops) q).
Proof. exact (exact_tree_constant nc nt p c d cfg t t'). Qed.
Print Assumptions C86_constant_target_tree.

Theorem C86_constant_target_ensemble (nc nt p : nat) (c : R) (d : @dataset xr_ops) (cfg : @tree_config xr_ops) (n : nat) (lr : R)
    (m m' : @regression_boost_model xr_ops) :
  wf_dataset nc nt d -> p <= nt -> standard cfg -> tc_number_of_classes cfg = N.of_nat nt ->
  regression_boost_train d cfg n (Fin lr : @F xr_ops) = Ok m ->
  regression_boost_train (with_constant_target p (Fin c : @F xr_ops) d) (one_more_target cfg) n (Fin lr : @F xr_ops) = Ok m' ->
  Forall2 (fun t t' => tree_map (fun _ => tt) t' = tree_map (fun _ => tt) t) (m_trees m) (m_trees m') /\
  forall row, (regression_boost_predict m row = Panic /\ regression_boost_predict m' row = Panic) \/
    exists q, regression_boost_predict m row = Ok q /\ regression_boost_predict m' row = Ok (insert_at p (Fin c : @F xr_ops) q).
Proof. exact (exact_boost_constant nc nt p c d cfg n lr m m'). Qed.
Print Assumptions C86_constant_target_ensemble.

Local Existing Instance f64_ops.
Local Remove Hints xr_ops : typeclass_instances.

(** In binary64, for a target labelled 0 (or -0) in every row. *)
Theorem C86_zero_target_tree (P : platform) (nc nt p : nat) (s : bool) (d : @dataset (f64_ops P)) (cfg : @tree_config (f64_ops P)) (t t' : tree_node regression_leaf) :
  wf_dataset nc nt d -> (Z.of_nat (length (labels d)) <= 2 ^ 53)%Z -> p <= nt -> standard cfg -> tc_number_of_classes cfg = N.of_nat nt ->
  regression_tree_new d cfg = Ok t -> regression_tree_new (with_constant_target p (B754_zero s : @F (f64_ops P)) d) (one_more_target cfg) = Ok t' ->
  tree_map (fun _ => tt) t' = tree_map (fun _ => tt) t /\
  forall row, (tree_prediction row t = Panic /\ tree_prediction row t' = Panic) \/
    exists (q q' : list f64) (z : f64), tree_prediction row t = Ok q /\ tree_prediction row t' = Ok (insert_at p z q') /\
      Forall2 same_number q q' /\ same_number (B754_zero false) z.
Proof. exact (f64_tree_zero P nc nt p s d cfg t t'). Qed.
Print Assumptions C86_zero_target_tree.

Theorem C86_zero_target_ensemble (P : platform) (nc nt p : nat) (s : bool) (d : @dataset (f64_ops P)) (cfg : @tree_config (f64_ops P)) (n : nat) (lr : f64)
    (m m' : @regression_boost_model (f64_ops P)) :
  wf_dataset nc nt d -> (Z.of_nat (length (labels d)) <= 2 ^ 53)%Z -> p <= nt -> standard cfg -> tc_number_of_classes cfg = N.of_nat nt ->
  is_finite lr = true ->
  regression_boost_train d cfg n (lr : @F (f64_ops P)) = Ok m ->
  regression_boost_train (with_constant_target p (B754_zero s : @F (f64_ops P)) d) (one_more_target cfg) n (lr : @F (f64_ops P)) = Ok m' ->
  Forall2 (fun t t' => tree_map (fun _ => tt) t' = tree_map (fun _ => tt) t) (m_trees m) (m_trees m') /\
  forall row, (regression_boost_predict m row = Panic /\ regression_boost_predict m' row = Panic) \/
    exists (q q' : list f64) (z : f64), regression_boost_predict m row = Ok q /\ regression_boost_predict m' row = Ok (insert_at p z q') /\
      Forall2 same_number q q' /\ same_number (B754_zero false) z.
Proof. exact (f64_boost_zero P nc nt p s d cfg n lr m m'). Qed.
Print Assumptions C86_zero_target_ensemble.

(** Rows with labels such as 0.1 and 0.3, with a target 0 inserted between the two: all models are trained, and ask questions. *)
Example C86_example :
  @wf_dataset (f64_ops taylor_platform) 1 2 uneven /\ standard uneven_cfg /\ tc_number_of_classes uneven_cfg = 2%N /\
  match regression_tree_new uneven uneven_cfg, regression_tree_new (@with_constant_target (f64_ops taylor_platform) 1 (n64 0) uneven) (one_more_target uneven_cfg) with
  | Ok t, Ok t' => match nd_leaf t, nd_leaf t' with None, None => true | _, _ => false end
  | _, _ => false end = true /\
  match regression_boost_train uneven uneven_cfg 2 (tenth 3),
        regression_boost_train (@with_constant_target (f64_ops taylor_platform) 1 (n64 0) uneven) (one_more_target uneven_cfg) 2 (tenth 3) with
  | Ok m, Ok m' => match @regression_boost_predict (f64_ops taylor_platform) m [n64 2], @regression_boost_predict (f64_ops taylor_platform) m' [n64 2] with
                   | Ok [a; b], Ok [c; z; d] => (Beqb c a && Beqb z (n64 0) && Beqb d b)%bool
                   | _, _ => false end
  | _, _ => false end = true.
Proof. split; [check_wf|]. split; [reflexivity|]. split; [reflexivity|]. split; vm_compute; reflexivity. Qed.

(** For other constants rounding matters in binary64: four rows that all carry the label 5 give a single leaf; with a second target, 0.1 in every row,
    the rounded variances differ from 0 and the tree asks a question. *)
Example C86_constant_tenth_changes_the_tree :
  let d := @mkDS (f64_ops taylor_platform) [[n64 1]; [n64 2]; [n64 3]; [n64 4]] [[n64 5]; [n64 5]; [n64 5]; [n64 5]] [[n64 1; n64 2; n64 3; n64 4]] in
  let cfg := @mkTC (f64_ops taylor_platform) (split_finder_new Variance) false 1 1 in
  @wf_dataset (f64_ops taylor_platform) 1 1 d /\ standard cfg /\
  match regression_tree_new d cfg, regression_tree_new (@with_constant_target (f64_ops taylor_platform) 1 (tenth 1) d) (one_more_target cfg) with
  | Ok t, Ok t' => match nd_leaf t, nd_leaf t' with Some _, None => true | _, _ => false end
  | _, _ => false end = true.
Proof. cbv zeta. split; [check_wf|]. split; [reflexivity|]. vm_compute. reflexivity. Qed.
