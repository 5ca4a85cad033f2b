(** Concrete cases for the accuracy of test errors and residuals. *)
From Coq Require Import Reals Lra Lia.
From Flocq Require Import Core.
From Flocq Require Import IEEE754.BinarySingleNaN.
From Verif Require Import Base Num F64 ModelCommon ModelTree ModelBoost Spec SpecTree SpecExact SpecPredict ProofBoost ProofMse ProofSoftmax DemoPredict Decide Check Demo.
Local Open Scope R_scope.

Lemma small_moderate (vs : list (list f64)) :
  Forall (Forall (fun x => is_finite x = true /\ Bleb (Babs x) (n64 1000) = true)) vs -> moderate vs.
Proof.
  intros H. unfold moderate. eapply Forall_impl; [|exact H]. intros v Hv. eapply Forall_impl; [|exact Hv]. intros x [Fx Hx].
  split; [exact Fx|]. eapply Rle_trans; [apply small_value; assumption|]. apply thousand_small. lia.
Qed.

Lemma small_scores (s : list f64) : Forall (fun x => is_finite x = true /\ Bleb (Babs x) (n64 2) = true) s ->
  Forall (fun x : f64 => is_finite x = true /\ Rabs (B2R x) <= 300) s.
Proof.
  intros H. eapply Forall_impl; [|exact H]. intros x [Fx Hx]. split; [exact Fx|].
  rewrite <- B2R_Babs. destruct (ProofError.of_Z_exact 2) as (V & F1 & _); [lia|].
  apply Rle_trans with (IZR 2); [|apply IZR_le; lia]. rewrite <- V. apply ProofInt.finite_leb; auto. now rewrite is_finite_Babs.
Qed.

(** One row of class 1 of three, with scores 1, 0 and -1. *)
Definition three_scores : @training_data (f64_ops rounded_platform) :=
  mkTD (@mkDS (f64_ops rounded_platform) [[n64 0]] [[B754_zero false; Bone; B754_zero false]] [[n64 0]]) [[n64 1; n64 0; n64 (-1)]] 1.

Lemma three_scores_ok : exists v, calculate_residuals_multi_class three_scores = Ok [v].
Proof.
  set (y := [B754_zero false; Bone; B754_zero false]). set (s := [n64 1; n64 0; n64 (-1)]).
  exists (map (fun q => @fsub (f64_ops rounded_platform) (fst q) (snd q)) (combine y (@SpecScore.softmax (f64_ops rounded_platform) s))).
  apply calculate_residuals_multi_class_eq; [reflexivity|reflexivity|].
  split; [constructor; [reflexivity|constructor]|reflexivity].
Qed.

Lemma three_scores_one_hot : @one_hot (f64_ops rounded_platform) 3 1 [B754_zero false; Bone; B754_zero false].
Proof.
  split; [reflexivity|]. split; [reflexivity|]. intros [|[|[|j]]] Hj; [reflexivity..|lia].
Qed.

(** Two leaves; tests on two rows. *)
Definition half_tree : tree_node (@regression_leaf (f64_ops taylor_platform)) :=
  node_new (@Question (f64_ops taylor_platform) 0 (n64 5))
    (leaf_node (@Question (f64_ops taylor_platform) 0 (n64 0)) (mkRL (O := f64_ops taylor_platform) (Some (@mkDS (f64_ops taylor_platform) [[n64 7]; [n64 8]] [[point_one; n64 2]; [n64 1; n64 2]] []))))
    (leaf_node (@Question (f64_ops taylor_platform) 0 (n64 0)) (mkRL (O := f64_ops taylor_platform) (Some (@mkDS (f64_ops taylor_platform) [[n64 1]] [[n64 3; n64 4]] [])))).
Definition two_tests : @dataset (f64_ops taylor_platform) :=
  @mkDS (f64_ops taylor_platform) [[n64 7]; [n64 1]] [[n64 1; n64 2]; [n64 3; n64 (-5)]] [].
