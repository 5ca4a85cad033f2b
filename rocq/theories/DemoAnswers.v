(** Data for the examples about answers of regression ensembles in binary64. *)
From Coq Require Import Reals Lra Lia ZArith.
From Flocq Require Import Core.
From Flocq Require Import IEEE754.BinarySingleNaN.
From Verif Require Import Base Num F64 ModelCommon ModelTree ModelBoost Lib Spec SpecTree SpecExact SpecScore SpecPredict SpecFitFloat
  Decide Check Demo DemoScale DemoFitFloat.
Local Open Scope R_scope.

Lemma drift_trained : exists m, regression_boost_train drift drift_cfg 1 (n64 1) = Ok m.
Proof. destruct drift_increases as (m & _ & _ & E & _). exists m. exact E. Qed.

(** Two rows with the finite label [2 ^ 1023]. *)
Definition giant : @dataset (f64_ops taylor_platform) :=
  @mkDS (f64_ops taylor_platform) [[n64 1]; [n64 2]] [[two_to 1023]; [two_to 1023]] [[n64 1; n64 2]].

Lemma giant_overflows : exists m p,
  Forall (Forall (fun x : f64 => is_finite x = true)) (labels giant) /\
  regression_boost_train giant drift_cfg 0 (n64 1) = Ok m /\ regression_boost_predict m [n64 1] = Ok p /\
  is_finite (nth 0 p (B754_zero false) : f64) = false.
Proof.
  assert (H : match regression_boost_train giant drift_cfg 0 (n64 1) with
    | Ok m => match regression_boost_predict m [n64 1] with Ok p => negb (is_finite (nth 0 p (B754_zero false) : f64)) | _ => false end
    | _ => false end = true) by (vm_compute; reflexivity).
  destruct (regression_boost_train giant drift_cfg 0 (n64 1)) as [m| |] eqn:E; [|discriminate H|discriminate H].
  destruct (regression_boost_predict m [n64 1]) as [p| |] eqn:Ep; [|discriminate H|discriminate H].
  exists m, p. split; [repeat constructor|]. split; [exact eq_refl|]. split; [exact Ep|]. now apply negb_true_iff.
Qed.

Lemma drift_trained_zero : exists m, regression_boost_train drift drift_cfg 10 (B754_zero true : f64) = Ok m.
Proof.
  assert (H : match regression_boost_train drift drift_cfg 10 (B754_zero true : f64) with Ok _ => true | _ => false end = true) by (vm_compute; reflexivity).
  destruct (regression_boost_train drift drift_cfg 10 (B754_zero true : f64)) as [m| |] eqn:E; [|discriminate H|discriminate H]. exists m. reflexivity.
Qed.
