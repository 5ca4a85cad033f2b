(** A zero learning rate in binary64: every answer is the starting point, whatever the number of iterations. *)
From Coq Require Import Reals Lra Lia ZArith.
From Flocq Require Import Core.
From Flocq Require Import IEEE754.BinarySingleNaN.
From Verif Require Import Base Num F64 ModelCommon ModelTree ModelBoost Lib Spec SpecTree SpecExact SpecScore SpecPredict SpecFitFloat SpecMirror
  ProofReal ProofRound ProofError ProofData ProofSort ProofTree ProofTree3 ProofScore ProofBoost ProofBoost2 ProofLeaf ProofPredict ProofFitFloat ProofAnswers.
Local Open Scope R_scope.

Section Zero.
Context (P : platform).
Local Existing Instance f64_ops.

Lemma round_self (x : f64) : is_finite x = true -> rnd (B2R x) = B2R x.
Proof. intros Fx. unfold rnd. apply round_generic; [apply valid_rnd_N|]. apply generic_format_B2R. Qed.

Lemma add_nothing (p lr v : f64) : is_finite p = true -> is_finite lr = true -> is_finite v = true -> B2R lr = 0 ->
  is_finite (Bplus mode_NE p (Bmult mode_NE lr v)) = true /\ B2R (Bplus mode_NE p (Bmult mode_NE lr v)) = B2R p.
Proof.
  intros Fp Fl Fv Hlr. assert (R0 : rnd 0 = 0) by exact (round_self (B754_zero false) eq_refl).
  destruct (mult_value lr v Fl Fv) as [Fw Vw]; [rewrite Hlr, Rmult_0_l, R0, Rabs_R0; apply bpow_gt_0|].
  rewrite Hlr, Rmult_0_l, R0 in Vw.
  destruct (plus_value p (Bmult mode_NE lr v) Fp Fw) as [Fq Vq]; [rewrite Vw, Rplus_0_r, (round_self p Fp); apply abs_B2R_lt_emax|].
  split; [exact Fq|]. now rewrite Vq, Vw, Rplus_0_r, round_self.
Qed.

Theorem zero_rate nc nt (d : @dataset (f64_ops P)) cfg n (lr : f64) (m : regression_boost_model) B k row :
  wf_dataset nc nt d -> (Z.of_nat (length (labels d)) <= 2 ^ 40)%Z -> is_finite lr = true -> B2R lr = 0 ->
  bpow radix2 (-400) <= B <= bpow radix2 300 -> within B (labels d) ->
  regression_boost_train d cfg n lr = Ok m -> (k <= n)%nat -> (nc <= length row)%nat ->
  exists p, regression_boost_predict (first_trees k m) row = Ok p /\ length p = nt /\
    forall j, (j < nt)%nat -> is_finite (nth j p (B754_zero false) : f64) = true /\
      B2R (nth j p (B754_zero false) : f64) = B2R (nth j (m_initial_guess m) (B754_zero false) : f64).
Proof.
  intros W HN Fl Hlr HB HL E. revert row.
  assert (B0 : 0 < B) by (pose proof (bpow_gt_0 radix2 (-400)); lra). set (N := length (labels d)) in *.
  assert (HB2 : bpow radix2 (-400) <= B <= bpow radix2 400) by (split; [lra|]; eapply Rle_trans; [apply HB|apply bpow_le; lia]).
  assert (HB' : bpow radix2 (-400) <= 2 * B <= bpow radix2 400).
  { split; [lra|]. apply Rle_trans with (bpow radix2 1 * bpow radix2 300); [change (bpow radix2 1) with 2; lra|rewrite <- bpow_plus; apply bpow_le; lia]. }
  assert (HL' : within (2 * B) (labels d)).
  { eapply Forall_impl; [|exact HL]. intros v Hv. eapply Forall_impl; [|exact Hv]. intros x [Fx Bx]. split; [exact Fx|lra]. }
  assert (T : tame (labels d)).
  { eapply Forall_impl; [|exact HL]. intros v Hv. eapply Forall_impl; [|exact Hv]. intros x [Fx Bx]. split; [exact Fx|].
    eapply Rle_trans; [exact Bx|]. eapply Rle_trans; [apply HB|]. apply bpow_le. lia. }
  assert (Hne : labels d <> []).
  { intros E0. pose proof (wf_lengths _ _ _ W) as HLen. pose proof (wf_nonempty _ _ _ W) as H. rewrite E0 in HLen. destruct (feature_rows d); [now contradiction H|discriminate HLen]. }
  (* the starting point *)
  assert (Start : forall j, (j < nt)%nat -> is_finite (nth j (m_initial_guess m) (B754_zero false) : f64) = true /\
    Rabs (B2R (nth j (m_initial_guess m) (B754_zero false) : f64)) <= 2 * B).
  { intros j Hj. destruct (initial_guess_error nt d cfg n lr m j (wf_labels _ _ _ W) Hne E Hj T HN) as (v & Ev & Fv & Herr).
    assert (Hv : nth j (m_initial_guess m) (B754_zero false : f64) = v) by exact (nth_error_nth _ _ _ Ev).
    rewrite Hv. split; [exact Fv|]. set (ys := target j (map (map B2R) (labels d))) in *.
    assert (Hma : mean (map Rabs ys) <= B).
    { apply mean_le; [lra|]. intros x Hx. unfold ys, target in Hx. rewrite !map_map in Hx. apply in_map_iff in Hx as (y & <- & Hin).
      change 0 with (B2R (B754_zero false : f64)). rewrite map_nth. exact (proj2 (within_nth B (labels d) y j (Rlt_le _ _ B0) HL Hin)). }
    pose proof (eta_B B HB2) as He. pose proof (uB_small B HB2) as [U1 U2]. pose proof ulp1_pos as U0. pose proof (count_small N HN) as Hcs.
    assert (N0 : 0 <= INR N) by apply pos_INR.
    assert (Hee : bpow radix2 (-51) * INR (N + 1) * mean (map Rabs ys) + bpow radix2 (-1072) <= B).
    { replace (bpow radix2 (-51)) with (4 * ulp1) by (unfold ulp1; change 4 with (bpow radix2 2); rewrite <- bpow_plus; reflexivity).
      rewrite plus_INR. cbn [INR].
      assert (4 * ulp1 * (INR N + 1) * mean (map Rabs ys) <= 4 * ulp1 * (INR N + 1) * B) by (apply Rmult_le_compat_l; [apply Rmult_le_pos; lra|exact Hma]).
      replace (4 * ulp1 * (INR N + 1) * B) with (4 * (ulp1 * INR N) * B + 4 * (ulp1 * B)) in * by ring.
      assert (4 * (ulp1 * INR N) * B <= 4 * / 8192 * B) by (apply Rmult_le_compat_r; lra). lra. }
    pose proof (mean_abs ys) as Hab. fold N in Herr.
    replace (B2R v) with ((B2R v - mean ys) + mean ys) by ring. eapply Rle_trans; [apply Rabs_triang|]. lra. }
  induction k as [|k IH]; intros row Hk Hrow.
  - destruct (regression_prefix_ok nc nt d cfg n lr m row 0 W E Hrow) as (q & Eq & Lq). exists q. split; [exact Eq|]. split; [exact Lq|].
    assert (Hg : q = m_initial_guess m).
    { unfold regression_boost_predict in Eq. rewrite predict_instance_raw in Eq. cbn in Eq. now injection Eq as <-. }
    subst q. intros j Hj. split; [exact (proj1 (Start j Hj))|reflexivity].
  - destruct (IH row) as (p & Ep & Lp & Hp); [lia|exact Hrow|].
    destruct (regression_prefix_ok nc nt d cfg n lr m row (S k) W E Hrow) as (q & Eq & Lq). exists q. split; [exact Eq|]. split; [exact Lq|].
    destruct (regression_stage d cfg n lr m k (wf_lengths _ _ _ W) E ltac:(lia)) as (ps & t & Eps & _ & Ht & _).
    assert (HF : Forall2 (fun row p => regression_boost_predict (first_trees k m) row = Ok p) (feature_rows d) ps).
    { unfold regression_boost_all_predictions in Eps. rewrite all_predictions_eq in Eps. now apply mapM_Forall2 in Eps. }
    assert (Hps : within (2 * B) ps).
    { apply Forall_forall. intros u Hu. apply In_nth_error in Hu as [i Hi].
      assert (HiN : (i < length (feature_rows d))%nat) by (rewrite (Forall2_length _ _ _ HF); exact (nth_lt _ _ _ Hi)).
      destruct (some_nth (feature_rows d) i HiN) as (r & Hr).
      assert (Hrl : (nc <= length r)%nat) by (apply (row_long nc nt d); [exact W|exact (nth_error_In _ _ Hr)]).
      assert (Eu : regression_boost_predict (first_trees k m) r = Ok u) by exact (proj2 (proj1 (Forall2_nth _ _ _) HF) i r u Hr Hi).
      destruct (IH r ltac:(lia) Hrl) as (u' & Eu' & Lu & Hu). assert (u' = u) by exact (ok_inj _ _ _ Eu' Eu). subst u'.
      apply Forall_forall. intros x Hx. apply In_nth with (d := B754_zero false : f64) in Hx as (j & Hj & <-).
      assert (Hjn : (j < nt)%nat) by (rewrite <- Lu; exact Hj).
      destruct (Hu j Hjn) as [Fx Vx]. split; [exact Fx|]. pose proof (proj2 (Start j Hjn)) as Hsz. rewrite <- Vx in Hsz. exact Hsz. }
    intros j Hj. destruct (Hp j Hj) as [Fp Vp].
    destruct (stage_output P nc nt d cfg n lr m k (2 * B) ps row j t W HN HB' HL' E ltac:(lia) Eps Hps Hrow Hj Ht) as (o & Eo & Fo & _ & _).
    destruct (regression_step nc nt d cfg n lr m k t row p q o j W E Hrow Ht Ep Eq Eo Hj) as (_ & _ & Estep).
    assert (Estep' : (nth j q (B754_zero false) : f64) = Bplus mode_NE (nth j p (B754_zero false) : f64) (Bmult mode_NE lr (nth j o (B754_zero false) : f64))) by exact Estep.
    rewrite Estep'. destruct (add_nothing _ lr _ Fp Fl Fo Hlr) as [Fz Vz]. split; [exact Fz|]. rewrite Vz. exact Vp.
Qed.

(** The same with the comparison of floats. *)
Theorem zero_rate_same nc nt (d : @dataset (f64_ops P)) cfg n (lr : f64) (m : regression_boost_model) B row :
  wf_dataset nc nt d -> (Z.of_nat (length (labels d)) <= 2 ^ 40)%Z -> is_finite lr = true -> B2R lr = 0 ->
  bpow radix2 (-400) <= B <= bpow radix2 300 -> within B (labels d) ->
  regression_boost_train d cfg n lr = Ok m -> (nc <= length row)%nat ->
  exists p, regression_boost_predict m row = Ok p /\ Forall2 same_number p (m_initial_guess m).
Proof.
  intros W HN Fl Hlr HB HL E Hrow.
  destruct (regression_shape nt d cfg n lr m (wf_labels _ _ _ W) E) as (Lt & _ & Lg & _).
  destruct (zero_rate nc nt d cfg n lr m B n row W HN Fl Hlr HB HL E (Nat.le_refl _) Hrow) as (p & Ep & Lp & Hp).
  destruct (zero_rate nc nt d cfg n lr m B 0 row W HN Fl Hlr HB HL E (Nat.le_0_l _) Hrow) as (g & Eg & Lg' & Hg).
  assert (Hg0 : g = m_initial_guess m).
  { unfold regression_boost_predict in Eg. rewrite predict_instance_raw in Eg. cbn in Eg. now injection Eg as <-. }
  subst g.
  exists p. split.
  - assert (Em : first_trees n m = m) by (destruct m as [ts lr0 g0]; unfold first_trees; cbn in *; rewrite <- Lt, firstn_all; reflexivity).
    rewrite Em in Ep. exact Ep.
  - apply Forall2_nth. split; [etransitivity; [exact Lp|symmetry; exact Lg]|]. intros j x y Hx Hy.
    assert (Hj : (j < nt)%nat) by (rewrite <- Lp; exact (nth_lt _ _ _ Hx)). destruct (Hp j Hj) as [F1 V1]. destruct (Hg j Hj) as [F2 _].
    assert (Ex : (nth j p (B754_zero false) : f64) = x) by exact (nth_error_nth _ _ _ Hx).
    assert (Ey : (nth j (m_initial_guess m) (B754_zero false) : f64) = y) by exact (nth_error_nth _ _ _ Hy).
    subst x y.
    right. refine (eq_trans (Beqb_correct _ _ _ _ F2 F1) _). apply Req_bool_true. symmetry. exact V1.
Qed.
End Zero.
