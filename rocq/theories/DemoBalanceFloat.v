(** Data for the examples about the average prediction in binary64. *)
From Coq Require Import Reals Lra Lia ZArith.
From Flocq Require Import Core.
From Flocq Require Import IEEE754.BinarySingleNaN.
From Verif Require Import Base Num F64 ModelCommon ModelTree ModelBoost Lib Spec SpecTree SpecExact SpecScore SpecPredict SpecFit SpecFitFloat
  ProofReal ProofTreeF64 Decide Check Demo DemoFitFloat.
Local Open Scope R_scope.
Local Notation O := (f64_ops taylor_platform).

(** Three rows that no question separates, all with the label 0.1. *)
Definition tenth : f64 := Bdiv mode_NE (n64 1) (n64 10).
Definition tenths : @dataset O := @mkDS O [[n64 1]; [n64 1]; [n64 1]] [[tenth]; [tenth]; [tenth]] [[n64 1; n64 1; n64 1]].

Definition scaled_sum (l : list (list f64)) : Z := fold_right (fun p s => scaled (nth 0 p (B754_zero false)) + s)%Z 0%Z l.

Lemma scaled_mean (l : list (list f64)) : forallb (fun p => scalable (nth 0 p (B754_zero false))) l = true ->
  mean (target 0 (map (map B2R) l)) = IZR (scaled_sum l) * bpow radix2 (-100) / INR (length l).
Proof.
  intros H. unfold mean. unfold target at 2. rewrite !map_length. f_equal.
  induction l as [|p l IH]; [cbn; lra|]. cbn [forallb] in H. apply andb_true_iff in H as [H1 H2]. unfold target in *. cbn [map]. rewrite Rsum_cons, (IH H2).
  change (scaled_sum (p :: l)) with (scaled (nth 0 p (B754_zero false)) + scaled_sum l)%Z. rewrite plus_IZR, Rmult_plus_distr_r.
  assert (X : nth 0 (map B2R p) 0 = IZR (scaled (nth 0 p (B754_zero false))) * bpow radix2 (-100)).
  { exact (eq_trans (map_nth (B2R : f64 -> R) p (B754_zero false) 0%nat) (scaled_ok _ H1)). }
  now rewrite X.
Qed.

Lemma tenths_unbalanced : exists t ps,
  regression_tree_new tenths drift_cfg = Ok t /\ mapM (fun row => tree_prediction row t) (feature_rows tenths) = Ok ps /\
  mean (target 0 (map (map B2R) ps)) <> mean (target 0 (map (map B2R) (labels tenths))).
Proof.
  set (good := fun t => match mapM (fun row => @tree_prediction O row t) (feature_rows tenths) with
    | Ok ps => forallb (fun p : list f64 => scalable (nth 0 p (B754_zero false))) ps && Nat.eqb (length ps) 3 && negb (scaled_sum ps =? scaled_sum (labels tenths))%Z
    | _ => false end).
  assert (H : match regression_tree_new tenths drift_cfg with Ok t => good t | _ => false end = true) by (vm_compute; reflexivity).
  destruct (regression_tree_new tenths drift_cfg) as [t| |] eqn:E; [|discriminate H|discriminate H]. unfold good in H. clear good.
  destruct (mapM (fun row => @tree_prediction O row t) (feature_rows tenths)) as [ps| |] eqn:E'; [|discriminate H|discriminate H].
  apply andb_true_iff in H as [H H3]. apply andb_true_iff in H as [H1 H2]. apply Nat.eqb_eq in H2. apply negb_true_iff, Z.eqb_neq in H3.
  exists t, ps. split; [reflexivity|]. split; [exact E'|]. change (@F O) with f64 in *.
  rewrite (scaled_mean ps H1), (scaled_mean (labels tenths)) by (vm_compute; reflexivity). rewrite H2. change (length (labels tenths)) with 3%nat.
  intros Q. apply H3, eq_IZR. pose proof (bpow_gt_0 radix2 (-100)) as Hb.
  apply (Rmult_eq_reg_r (bpow radix2 (-100))); [|lra]. apply (Rmult_eq_reg_r (/ INR 3)); [exact Q|]. apply Rinv_neq_0_compat. cbn; lra.
Qed.
