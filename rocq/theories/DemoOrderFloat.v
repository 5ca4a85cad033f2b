(** Data for the examples about the order of test rows in binary64. *)
From Coq Require Import Reals Lra Lia ZArith Permutation.
From Flocq Require Import Core.
From Flocq Require Import IEEE754.BinarySingleNaN.
From Verif Require Import Base Num F64 ModelCommon ModelTree ModelBoost Lib Spec SpecTree SpecExact SpecScore SpecPredict SpecFit SpecFitFloat
  ProofReal ProofTreeF64 ProofMse Decide Check Demo DemoFitFloat DemoPredict DemoAccuracy.
Local Open Scope R_scope.
Local Notation O := (f64_ops taylor_platform).

(** A training row with the label 0, so that every prediction is 0. *)
Definition nought : @dataset O := @mkDS O [[n64 1]] [[n64 0]] [[n64 1]].

(** Five test rows with the labels 1 and four times 2^-27; in the second set the label 1 comes last. *)
Definition speck : f64 := Bdiv mode_NE (n64 1) (n64 134217728).
Definition specks : @dataset O := @mkDS O [[n64 1]; [n64 2]; [n64 2]; [n64 2]; [n64 2]] [[n64 1]; [speck]; [speck]; [speck]; [speck]] [].
Definition specks' : @dataset O := @mkDS O [[n64 2]; [n64 2]; [n64 2]; [n64 2]; [n64 1]] [[speck]; [speck]; [speck]; [speck]; [n64 1]] [].

Lemma specks_perm : Permutation (samples specks) (samples specks').
Proof. exact (Permutation_cons_append [([n64 2], [speck]); ([n64 2], [speck]); ([n64 2], [speck]); ([n64 2], [speck])] ([n64 1], [n64 1])). Qed.

Definition differ (a b : res f64) : bool :=
  match a, b with Ok x, Ok y => scalable x && scalable y && negb (scaled x =? scaled y)%Z | _, _ => false end.

Lemma differ_ok a b : differ a b = true -> exists x y, a = Ok x /\ b = Ok y /\ B2R x <> B2R y.
Proof.
  destruct a as [x| |], b as [y| |]; try discriminate. cbn. intros H. apply andb_true_iff in H as [H H3]. apply andb_true_iff in H as [H1 H2].
  apply negb_true_iff, Z.eqb_neq in H3. exists x, y. repeat split. rewrite (scaled_ok _ H1), (scaled_ok _ H2). intros E. apply H3, eq_IZR.
  apply (Rmult_eq_reg_r (bpow radix2 (-100))); [exact E|]. pose proof (bpow_gt_0 radix2 (-100)). lra.
Qed.

Lemma specks_differ : exists t e e', regression_tree_new nought drift_cfg = Ok t /\
  calculate_overall_mean_squared_error specks t = Ok e /\ calculate_overall_mean_squared_error specks' t = Ok e' /\ B2R e <> B2R e'.
Proof.
  assert (H : match regression_tree_new nought drift_cfg with
    | Ok t => differ (calculate_overall_mean_squared_error specks t) (calculate_overall_mean_squared_error specks' t) | _ => false end = true) by (vm_compute; reflexivity).
  destruct (regression_tree_new nought drift_cfg) as [t| |] eqn:E; [|discriminate H|discriminate H]. apply differ_ok in H as (e & e' & H1 & H2 & H3).
  exists t, e, e'. auto.
Qed.

Lemma specks_differ_boost : exists m e e', regression_boost_train nought drift_cfg 1 (n64 1) = Ok m /\
  regression_boost_score m specks = Ok e /\ regression_boost_score m specks' = Ok e' /\ B2R e <> B2R e'.
Proof.
  assert (H : match regression_boost_train nought drift_cfg 1 (n64 1) with
    | Ok m => differ (regression_boost_score m specks) (regression_boost_score m specks') | _ => false end = true) by (vm_compute; reflexivity).
  destruct (regression_boost_train nought drift_cfg 1 (n64 1)) as [m| |] eqn:E; [|discriminate H|discriminate H]. apply differ_ok in H as (e & e' & H1 & H2 & H3).
  exists m, e, e'. auto.
Qed.

Lemma specks_predictions : exists t, regression_tree_new nought drift_cfg = Ok t /\
  Forall2 (fun row p => tree_prediction row t = Ok p /\ length p = 1%nat) (feature_rows specks) [[n64 0]; [n64 0]; [n64 0]; [n64 0]; [n64 0]].
Proof.
  set (z := fun r : res (list f64) => match r with Ok [B754_zero false] => true | _ => false end).
  assert (Z : forall r, z r = true -> r = Ok [n64 0] /\ length [n64 0] = 1%nat).
  { intros r H. destruct r as [[|x [|y l]]| |]; try discriminate H; cbn in H; destruct x as [[]| | |]; try discriminate H. split; reflexivity. }
  assert (H : match regression_tree_new nought drift_cfg with
    | Ok t => forallb (fun row => z (tree_prediction row t)) (feature_rows specks) | _ => false end = true) by (vm_compute; reflexivity).
  destruct (regression_tree_new nought drift_cfg) as [t| |] eqn:E; [|discriminate H|discriminate H]. exists t. split; [reflexivity|].
  rewrite forallb_forall in H. cbn [feature_rows specks] in *. repeat (constructor; [apply Z, H; cbn [In]; tauto|]). constructor.
Qed.

Lemma specks_moderate : moderate (labels specks) /\ moderate [[n64 0]; [n64 0]; [n64 0]; [n64 0]; [n64 0]].
Proof. split; apply small_moderate; repeat constructor; vm_compute; reflexivity. Qed.
