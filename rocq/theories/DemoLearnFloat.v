(** The four rows of [fractions] meet the hypotheses of C97. *)
From Coq Require Import Reals Lra Lia ZArith.
From Flocq Require Import Core.
From Flocq Require Import IEEE754.BinarySingleNaN.
From Verif Require Import Base Num F64 XR ModelCommon ModelTree ModelBoost Lib Spec SpecTree SpecExact SpecScore SpecFitFloat SpecInt SpecNear SpecLearn
  ProofReal ProofTreeExact ProofError ProofInt ProofBoost ProofTreeF64 Decide Check Demo DemoNear DemoFitFloat.
Local Open Scope R_scope.
Local Notation O := (f64_ops taylor_platform).

Definition stumps : @tree_config O := @mkTC O (split_finder_new Variance) false 2 1.
Definition half64 : f64 := Bdiv mode_NE (n64 1) (n64 2).

Lemma fractions_features : feature_rows (exact_data fractions) = [[Fin 1]; [Fin 2]; [Fin 3]; [Fin 4]].
Proof.
  assert (V : forall z, (Z.abs z <= 2 ^ 53)%Z -> exact_value (n64 z) = Fin (IZR z)).
  { intros z Hz. destruct (of_Z_exact z Hz) as (V & F & _). unfold n64. rewrite <- V. destruct (f64_of_Z z) as [s|s| |s m e H]; try discriminate; reflexivity. }
  unfold exact_data, fractions. cbn [feature_rows map]. now rewrite !V by lia.
Qed.

Lemma counting i r v : @nth_error (list xr) [[Fin 1]; [Fin 2]; [Fin 3]; [Fin 4]] i = Some r -> nth_error r 0 = Some v -> v = Fin (INR (S i)).
Proof.
  intros H Hv. destruct i as [|[|[|[|[|i]]]]]; cbn in H; try discriminate; injection H as <-; cbn in Hv; injection Hv as <-; f_equal; cbn; lra.
Qed.

Lemma fractions_apart : tells_apart 0 (exact_data fractions).
Proof.
  intros i i' r r' v H H' Hv Hv'. rewrite fractions_features in H, H'.
  pose proof (counting _ _ _ H Hv) as E1. pose proof (counting _ _ _ H' Hv') as E2. rewrite E1 in E2. apply (f_equal xval) in E2. change (INR (S i) = INR (S i')) in E2. apply INR_eq in E2. congruence.
Qed.

Lemma fractions_distinct : distinct_above_minimum (exact_data fractions).
Proof.
  intros j i i' r r' v v' m rm H H' Hv Hv' Hne _ _ _ E. subst v'.
  assert (j = 0)%nat as ->.
  { rewrite fractions_features in H. destruct j as [|j]; auto. exfalso.
    destruct i as [|[|[|[|[|i]]]]]; cbn in H; try discriminate; injection H as <-; cbn in Hv; destruct j; discriminate. }
  exact (Hne (fractions_apart i i' r r' v H H' Hv Hv')).
Qed.

Lemma half_value : is_finite half64 = true /\ B2R half64 = / 2.
Proof.
  split; [vm_compute; reflexivity|]. 
  rewrite (scaled_ok half64) by (vm_compute; reflexivity).
  assert (E : scaled half64 = (2 ^ 99)%Z) by (vm_compute; reflexivity). rewrite E.
  change (2 ^ 99)%Z with (Zpower radix2 99). rewrite IZR_Zpower, <- bpow_plus by lia. reflexivity.
Qed.

Lemma fractions_sizes : bpow radix2 (-400) <= 4 <= bpow radix2 300 /\
  INR 100 * (bpow radix2 (-48) * INR (length (labels fractions) + 2) * ((1 + 4 * sqrt (INR (length (labels fractions)))) * 4)) <= 4.
Proof.
  split. { change 4 with (bpow radix2 2). split; apply bpow_le; lia. }
  change (length (labels fractions)) with 4%nat. change (4 + 2)%nat with 6%nat.
  replace (sqrt (INR 4)) with 2 by (replace (INR 4) with (2 * 2) by (cbn; lra); rewrite sqrt_square; lra).
  replace (INR 6) with 6 by (cbn; lra). replace (INR 100) with 100 by (cbn; lra).
  change (bpow radix2 (-48)) with (/ 281474976710656). lra.
Qed.

Lemma half_rate : 0 <= B2R half64 <= 2.
Proof. rewrite (proj2 half_value). lra. Qed.

Lemma fractions_within : within 4 (labels fractions).
Proof. apply Forall_forall. intros l Hl. apply Forall_forall. intros x Hx. exact (fractions_bounded l x Hl Hx). Qed.

Lemma fractions_trained : exists m, regression_boost_train fractions stumps 100 half64 = Ok m.
Proof.
  assert (W : @wf_dataset O 1 2 fractions) by check_wf.
  destruct (regression_train_total (f64_laws taylor_platform) 1 2 fractions stumps 100 half64 W eq_refl eq_refl) as (m & E & _); [cbn; lia|eauto].
Qed.
