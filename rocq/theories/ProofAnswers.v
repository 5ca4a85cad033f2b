(** Answers of a regression ensemble in binary64 for rows it has not seen. *)
From Coq Require Import Reals Lra Lia ZArith.
From Flocq Require Import Core.
From Flocq Require Import IEEE754.BinarySingleNaN.
From Verif Require Import Base Num F64 ModelCommon ModelTree ModelBoost Lib Spec SpecTree SpecExact SpecScore SpecPredict SpecFitFloat
  ProofReal ProofRound ProofError ProofData ProofSort ProofTree ProofTree3 ProofScore ProofBoost ProofBoost2 ProofLeaf ProofPredict ProofFitFloat.
Local Open Scope R_scope.

Section Near.
Context (P : platform).
Local Existing Instance f64_ops.

(** The output of a tree that was fitted to residuals, for any row: it is an average of residuals of training rows. *)
Lemma stage_output nc nt (d : @dataset (f64_ops P)) cfg n (lr : f64) (m : regression_boost_model) k B ps row j t :
  wf_dataset nc nt d -> (Z.of_nat (length (labels d)) <= 2 ^ 40)%Z ->
  bpow radix2 (-400) <= B <= bpow radix2 400 -> within B (labels d) ->
  regression_boost_train d cfg n lr = Ok m -> (k < n)%nat ->
  regression_boost_all_predictions (first_trees k m) d = Ok ps -> within B ps ->
  (nc <= length row)%nat -> (j < nt)%nat -> nth_error (m_trees m) k = Some t ->
  let N := length (labels d) in
  exists o, find_leaf_node_for_data row t = Ok (mkGL (Some o)) /\ is_finite (nth j o (B754_zero false) : f64) = true /\
    Rabs (B2R (nth j o (B754_zero false) : f64)) <= sqrt (INR N) * rms (errors j (labels d) ps) + (12 * INR N + 16) * (ulp1 * B) /\
    Rabs (B2R (nth j o (B754_zero false) : f64)) <= 4 * B.
Proof.
  intros W HN HB HL E Hk Eps Hps Hrl Hj Ht' N.
  destruct (regression_stage d cfg n lr m k (wf_lengths _ _ _ W) E Hk) as (ps0 & t0 & Eps0 & Hs & Ht & Eb).
  rewrite Eps in Eps0. injection Eps0 as <-. rewrite Ht in Ht'. injection Ht' as ->.
  assert (HF : Forall2 (fun row p => regression_boost_predict (first_trees k m) row = Ok p) (feature_rows d) ps).
  { unfold regression_boost_all_predictions in Eps. rewrite all_predictions_eq in Eps. now apply mapM_Forall2 in Eps. }
  set (D := mkDS (feature_rows d) (differences (labels d) ps) (feature_columns d)) in *.
  assert (Rp : rectangular nt ps).
  { pose proof (wf_labels _ _ _ W) as R. clear -Hs R. unfold rectangular in *. induction Hs; constructor; inversion R; subst; auto; congruence. }
  assert (WD : wf_dataset nc nt D).
  { destruct (differences_rect nt (labels d) ps) as [Q1 Q2]; [exact (Forall2_length _ _ _ Hs)|apply (wf_labels _ _ _ W)|exact Rp|].
    apply (with_labels_wf nc nt d (differences (labels d) ps) W); auto. rewrite Q1. apply (wf_lengths _ _ _ W). }
  pose proof (B_pos B HB) as B0. pose proof (uB_small B HB) as [U1 U2].
  assert (HD : within (3 * B) (labels D)) by exact (differences_within P B (labels d) ps HB HL Hps).
  assert (TD : tame (labels D)).
  { eapply Forall_impl; [|exact HD]. intros v Hv. eapply Forall_impl; [|exact Hv]. intros x [Fx Bx]. split; [exact Fx|].
    eapply Rle_trans; [exact Bx|]. apply Rle_trans with (bpow radix2 2 * bpow radix2 400); [change (bpow radix2 2) with 4; lra|].
    rewrite <- bpow_plus. apply bpow_le. lia. }
  assert (LD : length (labels D) = length (labels d)).
  { cbn. unfold differences. rewrite map_length, combine_length, <- (Forall2_length _ _ _ Hs). apply Nat.min_id. }
  assert (HND : (Z.of_nat (length (labels D)) <= 2 ^ 40)%Z) by (rewrite LD; exact HN).
  assert (Lps : length ps = N) by (symmetry; exact (Forall2_length _ _ _ Hs)).
  destruct (leaf_output_error nc nt D cfg t row j WD Eb Hrl Hj TD HND) as (o & v & Eo & Ev & Fv & Herr).
  assert (Hv : nth j o (B754_zero false : f64) = v) by exact (nth_error_nth _ _ _ Ev).
  exists o. split; [exact Eo|]. rewrite Hv. split; [exact Fv|].
  set (g := fun s : list (@F (f64_ops P)) * list (@F (f64_ops P)) => B2R (nth j (snd s) (B754_zero false) : f64)) in *.
  assert (Emean : target j (map (map B2R) (map snd (samples_like row t D))) = map g (samples_like row t D)).
  { unfold target. rewrite !map_map. apply map_ext. intros s. unfold g. change 0 with (B2R (B754_zero false : f64)). apply map_nth. }
  rewrite Emean in Herr. set (G := samples_like row t D) in *.
  set (R := sqrt (INR N) * rms (errors j (labels d) ps)) in *.
  assert (HR : 0 <= R) by (apply Rmult_le_pos; [apply sqrt_pos|apply rms_nonneg]).
  assert (HG : forall s, In s G -> Rabs (g s) <= R + 3 * (ulp1 * B) /\ Rabs (g s) <= 3 * B).
  { intros s HsG. unfold G, samples_like in HsG. apply filter_In in HsG as [HsG _]. destruct s as [a b]. unfold samples in HsG. apply in_combine_r in HsG.
    split; [|unfold g; exact (proj2 (within_nth (3 * B) (labels D) b j ltac:(lra) HD HsG))].
    change (labels D) with (differences (labels d) ps) in HsG. unfold differences in HsG. apply in_map_iff in HsG as ([y p] & <- & Hin). cbn [fst snd] in *.
    assert (Ly : length y = nt) by (pose proof (wf_labels _ _ _ W) as Rl; unfold rectangular in Rl; rewrite Forall_forall in Rl; exact (Rl _ (in_combine_l _ _ _ _ Hin))).
    assert (Lp : length p = nt) by (unfold rectangular in Rp; rewrite Forall_forall in Rp; exact (Rp _ (in_combine_r _ _ _ _ Hin))).
    destruct (within_nth B (labels d) y j (Rlt_le _ _ B0) HL (in_combine_l _ _ _ _ Hin)) as [Fy By].
    destruct (within_nth B ps p j (Rlt_le _ _ B0) Hps (in_combine_r _ _ _ _ Hin)) as [Fp Bp].
    assert (Gr : g (a, map (fun q => fsub (fst q) (snd q)) (combine y p)) = B2R (Bminus mode_NE (nth j y (B754_zero false) : f64) (nth j p (B754_zero false) : f64))).
    { unfold g. cbn [snd]. f_equal.
      transitivity ((fun q : f64 * f64 => Bminus mode_NE (fst q) (snd q)) (nth j (combine y p) (B754_zero false, B754_zero false))).
      - change (B754_zero false : f64) with ((fun q : f64 * f64 => Bminus mode_NE (fst q) (snd q)) (B754_zero false, B754_zero false)) at 1. apply map_nth.
      - cbv beta. rewrite combine_nth by (etransitivity; [exact Ly|symmetry; exact Lp]). reflexivity. }
    rewrite Gr. destruct (residual_step B HB _ _ Fy Fp By Bp) as (_ & Er & _).
    assert (Hie : In (B2R (nth j (y : list f64) (B754_zero false)) - B2R (nth j (p : list f64) (B754_zero false))) (errors j (labels d) ps)).
    { unfold errors. apply in_map_iff. exists (y, p). split; [reflexivity|exact Hin]. }
    apply entry_le_rms in Hie.
    assert (Lerr : length (errors j (labels d) ps) = N).
    { unfold errors. rewrite map_length, combine_length. change (Nat.min N (length ps) = N). rewrite Lps. apply Nat.min_id. }
    rewrite Lerr in Hie. fold R in Hie.
    set (z := B2R (nth j (y : list f64) (B754_zero false)) - B2R (nth j (p : list f64) (B754_zero false))) in *.
    match goal with |- Rabs ?w <= _ => replace w with ((w - z) + z) by ring end. eapply Rle_trans; [apply Rabs_triang|]. rewrite Rplus_comm.
    apply Rplus_le_compat; [exact Hie|exact Er]. }
  assert (HLG : (length G <= N)%nat).
  { unfold G, samples_like. eapply Nat.le_trans; [apply ProofScoreF64.filter_le|]. unfold samples. rewrite combine_length, LD. lia. }
  assert (Hma : mean (map Rabs (map g G)) <= 3 * B).
  { apply mean_le; [lra|]. intros x Hx. rewrite map_map in Hx. apply in_map_iff in Hx as (s & <- & HsG). exact (proj2 (HG s HsG)). }
  assert (Hmr : mean (map Rabs (map g G)) <= R + 3 * (ulp1 * B)).
  { apply mean_le; [lra|]. intros x Hx. rewrite map_map in Hx. apply in_map_iff in Hx as (s & <- & HsG). exact (proj1 (HG s HsG)). }
  rewrite map_length in Herr. pose proof (pos_INR N) as N0.
  assert (Hc : Rabs (B2R v - mean (map g G)) <= (12 * (INR N + 1) + 1) * (ulp1 * B)).
  { eapply Rle_trans; [exact Herr|]. pose proof (eta_B B HB) as He.
    replace (bpow radix2 (-51)) with (4 * ulp1) by (unfold ulp1; change 4 with (bpow radix2 2); rewrite <- bpow_plus; reflexivity).
    assert (INR (length G + 1) <= INR N + 1) by (rewrite plus_INR; cbn [INR]; apply le_INR in HLG; lra).
    assert (4 * ulp1 * INR (length G + 1) * mean (map Rabs (map g G)) <= 4 * ulp1 * (INR N + 1) * (3 * B)).
    { pose proof ulp1_pos. pose proof (pos_INR (length G + 1)).
      apply Rmult_le_compat; [apply Rmult_le_pos; lra| |apply Rmult_le_compat_l; lra|exact Hma].
      apply mean_nonneg. intros x Hx. apply in_map_iff in Hx as (z & <- & _). apply Rabs_pos. }
    lra. }
  assert (Hc1 : (12 * (INR N + 1) + 1) * (ulp1 * B) <= B).
  { pose proof (count_small N HN) as Hcs. replace ((12 * (INR N + 1) + 1) * (ulp1 * B)) with (12 * (ulp1 * INR N) * B + 13 * (ulp1 * B)) by ring.
    assert (12 * (ulp1 * INR N) * B <= 12 * / 8192 * B) by (apply Rmult_le_compat_r; lra). lra. }
  pose proof (mean_abs (map g G)) as Hab. set (M := mean (map g G)) in *.
  assert (Hvm : Rabs (B2R v) <= Rabs (B2R v - M) + Rabs M) by (replace (B2R v) with ((B2R v - M) + M) at 1 by ring; apply Rabs_triang).
  split; lra.
Qed.

(** Adding the weighted output of one more tree. *)
Lemma add_output B (a : R) (p lr v : f64) :
  bpow radix2 (-400) <= B <= bpow radix2 400 -> is_finite p = true -> is_finite lr = true -> is_finite v = true -> 0 <= B2R lr <= 2 ->
  0 <= a <= bpow radix2 60 -> Rabs (B2R p) <= a * B -> Rabs (B2R v) <= 4 * B ->
  let p' := Bplus mode_NE p (Bmult mode_NE lr v) in
  is_finite p' = true /\ Rabs (B2R p' - (B2R p + B2R lr * B2R v)) <= (a + 19) * (ulp1 * B).
Proof.
  intros HB Fp Fl Fv Hlr Ha Hp Hv p'. pose proof (B_pos B HB) as B0. pose proof (uB_small B HB) as [U1 U2]. pose proof (eta1_B B HB) as Heta.
  assert (P60 : 1000 <= bpow radix2 60) by (change (bpow radix2 60) with (IZR (2 ^ 60)); apply IZR_le; lia).
  assert (Big : forall x, Rabs x <= (bpow radix2 60 + 100) * B -> Rabs (rnd x) < bpow radix2 1024).
  { intros x Hx. apply (pow_le_emax x 461); [lia| |lia]. eapply Rle_trans; [exact Hx|]. change 461%Z with (61 + 400)%Z. rewrite bpow_plus.
    apply Rmult_le_compat; try lra. change 61%Z with (1 + 60)%Z. rewrite bpow_plus. change (bpow radix2 1) with 2. lra. }
  assert (Hlo : Rabs (B2R lr * B2R v) <= 8 * B).
  { rewrite Rabs_mult, (Rabs_pos_eq (B2R lr)) by lra. apply Rle_trans with (2 * (4 * B)); [|lra]. apply Rmult_le_compat; try lra. apply Rabs_pos. }
  assert (K : forall c, 0 <= c <= 100 -> c * B <= (bpow radix2 60 + 100) * B) by (intros c Hc; apply Rmult_le_compat_r; lra).
  destruct (mult_value lr v Fl Fv) as [Fw Vw]; [apply Big; eapply Rle_trans; [exact Hlo|apply K; lra]|]. pose proof (step_self _ _ _ Hlo Vw) as Ew.
  set (w := Bmult mode_NE lr v) in *.
  assert (Hw : Rabs (B2R w) <= 9 * B).
  { replace (B2R w) with ((B2R w - B2R lr * B2R v) + B2R lr * B2R v) by ring. eapply Rle_trans; [apply Rabs_triang|]. lra. }
  assert (Hpw : Rabs (B2R p + B2R w) <= (a + 9) * B) by (eapply Rle_trans; [apply Rabs_triang|]; lra).
  destruct (plus_value p w Fp Fw) as [Fq Vq].
  { apply Big. eapply Rle_trans; [exact Hpw|]. apply Rmult_le_compat_r; lra. }
  pose proof (step_self _ _ _ Hpw Vq) as Eq. fold p' in Fq, Eq |- *. split; [exact Fq|].
  replace (B2R p' - (B2R p + B2R lr * B2R v)) with ((B2R p' - (B2R p + B2R w)) + (B2R w - B2R lr * B2R v)) by ring.
  eapply Rle_trans; [apply Rabs_triang|]. lra.
Qed.

Lemma answers_near_run nc nt (d : @dataset (f64_ops P)) cfg n (lr : f64) (m : regression_boost_model) B k row :
  let N := length (labels d) in let B' := (1 + 4 * sqrt (INR N)) * B in let e := bpow radix2 (-48) * INR (N + 2) * B' in
  wf_dataset nc nt d -> (Z.of_nat N <= 2 ^ 40)%Z -> is_finite lr = true -> 0 <= B2R lr <= 2 ->
  bpow radix2 (-400) <= B <= bpow radix2 300 -> within B (labels d) ->
  regression_boost_train d cfg n lr = Ok m -> INR n * e <= B -> (k <= n)%nat -> (nc <= length row)%nat ->
  exists p, regression_boost_predict (first_trees k m) row = Ok p /\ length p = nt /\
    forall j, (j < nt)%nat -> let ys := target j (map (map B2R) (labels d)) in
      is_finite (nth j p (B754_zero false) : f64) = true /\
      Rabs (B2R (nth j p (B754_zero false) : f64) - mean ys) <=
        INR k * (B2R lr * sqrt (INR N * variance ys)) + (1 + 4 * INR k * INR k * sqrt (INR N)) * e /\
      Rabs (B2R (nth j p (B754_zero false) : f64)) <= (9 * INR k + 2) * B'.
Proof.
  intros N B' e W HN Fl Hlr HB HL E Hn.
  assert (N1 : (1 <= N)%nat).
  { unfold N. rewrite (wf_lengths _ _ _ W). pose proof (wf_nonempty _ _ _ W) as H. destruct (feature_rows d); [now contradiction H|cbn; lia]. }
  destruct (sqrt_count N N1 HN) as [Q1 Q2].
  assert (B0 : 0 < B) by (pose proof (bpow_gt_0 radix2 (-400)); lra).
  assert (HBB : 5 * B <= B') by (unfold B'; apply Rmult_le_compat_r; lra).
  assert (HB' : bpow radix2 (-400) <= B' <= bpow radix2 400).
  { split; [lra|]. unfold B'. apply Rle_trans with (bpow radix2 23 * bpow radix2 300); [|rewrite <- bpow_plus; apply bpow_le; lia].
    apply Rmult_le_compat; try lra. replace (bpow radix2 23) with (8 * bpow radix2 20) by (change 23%Z with (3 + 20)%Z; rewrite bpow_plus; reflexivity). lra. }
  assert (HL' : within B' (labels d)).
  { eapply Forall_impl; [|exact HL]. intros v Hv. eapply Forall_impl; [|exact Hv]. intros x [Fx Bx]. split; [exact Fx|lra]. }
  assert (HB2 : bpow radix2 (-400) <= B <= bpow radix2 400) by (split; [lra|]; eapply Rle_trans; [apply HB|apply bpow_le; lia]).
  pose proof (uB_small B' HB') as [U1 U2]. assert (N0 : 1 <= INR N) by (apply (le_INR 1); exact N1).
  assert (Ee : e = (32 * INR N + 64) * (ulp1 * B')).
  { unfold e. replace (bpow radix2 (-48)) with (32 * ulp1) by (unfold ulp1; change 32 with (bpow radix2 5); rewrite <- bpow_plus; reflexivity).
    rewrite plus_INR. cbn [INR]. ring. }
  assert (e96 : 96 * (ulp1 * B') <= e) by (rewrite Ee; apply Rmult_le_compat_r; lra).
  (* the number of iterations *)
  assert (Hnb : INR n * ulp1 <= / 96).
  { assert (H : INR n * (96 * (ulp1 * B')) <= INR n * e) by (apply Rmult_le_compat_l; [apply pos_INR|exact e96]).
    apply Rmult_le_reg_r with (96 * B'); [lra|]. replace (/ 96 * (96 * B')) with B' by field. apply Rle_trans with (INR n * e); [|lra]. eapply Rle_trans; [|exact H]. right. ring. }
  assert (Hn60 : 9 * INR n + 3 <= bpow radix2 60).
  { pose proof ulp1_53 as U. assert (INR n <= bpow radix2 53 / 96).
    { apply Rmult_le_reg_r with ulp1; [exact ulp1_pos|]. replace (bpow radix2 53 / 96 * ulp1) with (/ 96) by (rewrite <- (Rmult_1_l (/ 96)), <- U; field). exact Hnb. }
    replace (bpow radix2 60) with (128 * bpow radix2 53) by (change 60%Z with (7 + 53)%Z; rewrite bpow_plus; reflexivity).
    assert (1 <= bpow radix2 53) by (change 1 with (bpow radix2 0); apply bpow_le; lia). lra. }
  intros Hk Hrow. induction k as [|k IH].
  - destruct (regression_prefix_ok nc nt d cfg n lr m row 0 W E Hrow) as (q & Eq & Lq). exists q. split; [exact Eq|]. split; [exact Lq|].
    assert (Hg : q = m_initial_guess m).
    { unfold regression_boost_predict in Eq. rewrite predict_instance_raw in Eq. cbn in Eq. now injection Eq as <-. }
    intros j Hj ys.
    assert (Hne : labels d <> []) by (intros E0; unfold N in N1; rewrite E0 in N1; cbn in N1; lia).
    assert (T : tame (labels d)).
    { eapply Forall_impl; [|exact HL]. intros v Hv. eapply Forall_impl; [|exact Hv]. intros x [Fx Bx]. split; [exact Fx|].
      eapply Rle_trans; [exact Bx|]. eapply Rle_trans; [apply HB|]. apply bpow_le. lia. }
    destruct (initial_guess_error nt d cfg n lr m j (wf_labels _ _ _ W) Hne E Hj T HN) as (v & Ev & Fv & Herr). fold ys in Herr.
    assert (Hv : nth j q (B754_zero false : f64) = v) by (rewrite Hg; exact (nth_error_nth _ _ _ Ev)).
    rewrite Hv. split; [exact Fv|]. cbn [INR]. rewrite !Rmult_0_l, Rmult_0_r, Rmult_0_l, Rplus_0_r, Rplus_0_l, Rmult_1_l.
    assert (Hma : mean (map Rabs ys) <= B).
    { apply mean_le; [lra|]. intros x Hx. unfold ys, target in Hx. rewrite !map_map in Hx. apply in_map_iff in Hx as (y & <- & Hin).
      change 0 with (B2R (B754_zero false : f64)). rewrite map_nth. exact (proj2 (within_nth B (labels d) y j (Rlt_le _ _ B0) HL Hin)). }
    pose proof (eta_B B HB2) as He. pose proof ulp1_pos as U0.
    assert (4 * ulp1 * (INR N + 1) * mean (map Rabs ys) <= 4 * ulp1 * (INR N + 1) * B) by (apply Rmult_le_compat_l; [apply Rmult_le_pos; lra|exact Hma]).
    assert ((4 * INR N + 5) * (ulp1 * B) <= (4 * INR N + 5) * (ulp1 * B')) by (apply Rmult_le_compat_l; [lra|]; apply Rmult_le_compat_l; lra).
    assert (0 <= (28 * INR N + 59) * (ulp1 * B')) by (apply Rmult_le_pos; lra).
    assert (Hee : bpow radix2 (-51) * INR (N + 1) * mean (map Rabs ys) + bpow radix2 (-1072) <= (4 * INR N + 5) * (ulp1 * B')).
    { replace (bpow radix2 (-51)) with (4 * ulp1) by (unfold ulp1; change 4 with (bpow radix2 2); rewrite <- bpow_plus; reflexivity).
      rewrite plus_INR. cbn [INR]. lra. }
    assert (Hsm : (4 * INR N + 5) * (ulp1 * B') <= B').
    { pose proof (count_small N HN) as Hcs. replace ((4 * INR N + 5) * (ulp1 * B')) with (4 * (ulp1 * INR N) * B' + 5 * (ulp1 * B')) by ring.
      assert (4 * (ulp1 * INR N) * B' <= 4 * / 8192 * B') by (apply Rmult_le_compat_r; lra). lra. }
    split; [fold N in Herr; lra|]. pose proof (mean_abs ys) as Hab.
    replace (B2R v) with ((B2R v - mean ys) + mean ys) by ring. eapply Rle_trans; [apply Rabs_triang|]. fold N in Herr. lra.
  - destruct IH as (p & Ep & Lp & IH); [lia|].
    destruct (regression_prefix_ok nc nt d cfg n lr m row (S k) W E Hrow) as (q & Eq & Lq). exists q. split; [exact Eq|]. split; [exact Lq|].
    destruct (boosting_run P nc nt d cfg n lr m B k W HN Fl Hlr HB HL E Hn ltac:(lia)) as (ps & Eps & Hps & Hrun). fold N in Hps, Hrun. fold B' in Hps, Hrun. fold e in Hrun.
    destruct (regression_stage d cfg n lr m k (wf_lengths _ _ _ W) E ltac:(lia)) as (_ & t & _ & _ & Ht & _).
    intros j Hj ys. destruct (IH j Hj) as (Fp & Hdev & Hp). fold ys in Hdev. destruct (Hrun j Hj) as (Hrms & _ & _). fold ys in Hrms.
    destruct (stage_output nc nt d cfg n lr m k B' ps row j t W HN HB' HL' E ltac:(lia) Eps Hps Hrow Hj Ht) as (o & Eo & Fo & Ho & Ho4). fold N in Ho.
    destruct (regression_step nc nt d cfg n lr m k t row p q o j W E Hrow Ht Ep Eq Eo Hj) as (_ & _ & Estep).
    assert (Estep' : (nth j q (B754_zero false) : f64) = Bplus mode_NE (nth j p (B754_zero false) : f64) (Bmult mode_NE lr (nth j o (B754_zero false) : f64))) by exact Estep.
    rewrite Estep'. set (v := nth j o (B754_zero false) : f64) in *. set (x := nth j p (B754_zero false) : f64) in *.
    assert (K0 : 0 <= INR k) by apply pos_INR. assert (KN : INR k <= INR n) by (apply le_INR; lia).
    destruct (add_output B' (9 * INR k + 2) x lr v HB' Fp Fl Fo Hlr ltac:(lra) Hp Ho4) as [Fx Hx]. split; [exact Fx|].
    set (z := B2R (Bplus mode_NE x (Bmult mode_NE lr v))) in *. rewrite S_INR.
    set (A := sqrt (INR N)) in *. set (V := sqrt (variance ys)) in *.
    assert (EV : sqrt (INR N * variance ys) = A * V) by (unfold A, V; apply sqrt_mult_alt; lra). rewrite EV in *.
    rewrite plus_INR in Hrms. cbn [INR] in Hrms.
    assert (B0' : 0 < B') by lra. assert (E0 : 0 <= e) by lra.
    assert (Hlv : Rabs (B2R lr * B2R v) <= B2R lr * (A * V) + 2 * (A * ((INR k + 1) * e)) + e).
    { rewrite Rabs_mult, (Rabs_pos_eq (B2R lr)) by lra.
      assert (H1 : A * rms (errors j (labels d) ps) <= A * V + A * ((INR k + 1) * e)) by (rewrite <- Rmult_plus_distr_l; apply Rmult_le_compat_l; lra).
      assert (H2 : Rabs (B2R v) <= A * V + (A * ((INR k + 1) * e) + (12 * INR N + 16) * (ulp1 * B'))) by lra.
      assert (H3 : 0 <= A * ((INR k + 1) * e)) by (apply Rmult_le_pos; [lra|apply Rmult_le_pos; lra]).
      assert (H4 : 0 <= (12 * INR N + 16) * (ulp1 * B')) by (apply Rmult_le_pos; lra).
      assert (H5 : 2 * ((12 * INR N + 16) * (ulp1 * B')) <= e).
      { rewrite Ee. replace (2 * ((12 * INR N + 16) * (ulp1 * B'))) with ((24 * INR N + 32) * (ulp1 * B')) by ring. apply Rmult_le_compat_r; lra. }
      apply Rle_trans with (B2R lr * (A * V + (A * ((INR k + 1) * e) + (12 * INR N + 16) * (ulp1 * B')))); [apply Rmult_le_compat_l; lra|].
      rewrite Rmult_plus_distr_l.
      assert (B2R lr * (A * ((INR k + 1) * e) + (12 * INR N + 16) * (ulp1 * B')) <= 2 * (A * ((INR k + 1) * e) + (12 * INR N + 16) * (ulp1 * B'))) by (apply Rmult_le_compat_r; lra).
      lra. }
    assert (Hr : (9 * INR k + 2 + 19) * (ulp1 * B') <= (INR k + 1) * e).
    { apply Rle_trans with ((INR k + 1) * (96 * (ulp1 * B'))); [|apply Rmult_le_compat_l; lra].
      replace ((INR k + 1) * (96 * (ulp1 * B'))) with (((INR k + 1) * 96) * (ulp1 * B')) by ring. apply Rmult_le_compat_r; lra. }
    split.
    + replace (z - mean ys) with ((z - (B2R x + B2R lr * B2R v)) + ((B2R x - mean ys) + B2R lr * B2R v)) by ring.
      eapply Rle_trans; [apply Rabs_triang|]. pose proof (Rabs_triang (B2R x - mean ys) (B2R lr * B2R v)) as Htri.
      assert (Hm : (2 * (INR k + 1) + (INR k + 2)) * e <= (8 * INR k + 4) * e) by (apply Rmult_le_compat_r; lra).
      assert (HA : (INR k + 2) * e <= A * ((6 * INR k + 2) * e)).
      { apply Rle_trans with (1 * ((6 * INR k + 2) * e)); [rewrite Rmult_1_l; apply Rmult_le_compat_r; lra|].
        apply Rmult_le_compat_r; [apply Rmult_le_pos; lra|lra]. }
      replace ((INR k + 1) * (B2R lr * (A * V)) + (1 + 4 * (INR k + 1) * (INR k + 1) * A) * e)
        with ((INR k * (B2R lr * (A * V)) + (1 + 4 * INR k * INR k * A) * e) + (B2R lr * (A * V) + 2 * (A * ((INR k + 1) * e)) + A * ((6 * INR k + 2) * e))) by ring.
      lra.
    + assert (Hlv8 : Rabs (B2R lr * B2R v) <= 8 * B').
      { rewrite Rabs_mult, (Rabs_pos_eq (B2R lr)) by lra. apply Rle_trans with (2 * (4 * B')); [|lra]. apply Rmult_le_compat; try lra. apply Rabs_pos. }
      assert (H1 : (9 * INR k + 2 + 19) * (ulp1 * B') <= B').
      { replace ((9 * INR k + 2 + 19) * (ulp1 * B')) with (9 * (INR k * ulp1) * B' + 21 * (ulp1 * B')) by ring.
        assert (INR k * ulp1 <= / 96) by (eapply Rle_trans; [|exact Hnb]; apply Rmult_le_compat_r; [left; exact ulp1_pos|exact KN]).
        assert (9 * (INR k * ulp1) * B' <= 9 * / 96 * B') by (apply Rmult_le_compat_r; lra). lra. }
      replace z with ((z - (B2R x + B2R lr * B2R v)) + (B2R x + B2R lr * B2R v)) by ring.
      eapply Rle_trans; [apply Rabs_triang|]. pose proof (Rabs_triang (B2R x) (B2R lr * B2R v)) as Htri. lra.
Qed.

Theorem answers_near nc nt (d : @dataset (f64_ops P)) cfg n (lr : f64) (m : regression_boost_model) B k row :
  let N := length (labels d) in let B' := (1 + 4 * sqrt (INR N)) * B in let e := bpow radix2 (-48) * INR (N + 2) * B' in
  wf_dataset nc nt d -> (Z.of_nat N <= 2 ^ 40)%Z -> is_finite lr = true -> 0 <= B2R lr <= 2 ->
  bpow radix2 (-400) <= B <= bpow radix2 300 -> within B (labels d) ->
  regression_boost_train d cfg n lr = Ok m -> INR n * e <= B -> (k <= n)%nat -> (nc <= length row)%nat ->
  exists p, regression_boost_predict (first_trees k m) row = Ok p /\ length p = nt /\
    forall j, (j < nt)%nat -> let ys := target j (map (map B2R) (labels d)) in
      is_finite (nth j p (B754_zero false) : f64) = true /\
      Rabs (B2R (nth j p (B754_zero false) : f64) - mean ys) <=
        INR k * (B2R lr * sqrt (INR N * variance ys)) + (1 + 4 * INR k * INR k * sqrt (INR N)) * e.
Proof.
  intros N B' e W HN Fl Hlr HB HL E Hn Hk Hrow.
  destruct (answers_near_run nc nt d cfg n lr m B k row W HN Fl Hlr HB HL E Hn Hk Hrow) as (p & Ep & Lp & H).
  exists p. split; [exact Ep|]. split; [exact Lp|]. intros j Hj ys. destruct (H j Hj) as (F1 & F2 & _). split; [exact F1|exact F2].
Qed.
End Near.
