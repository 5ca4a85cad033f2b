(** Training predictions average to the training labels up to rounding in binary64 (C98). *)
From Coq Require Import Reals Lra Lia ZArith Permutation.
From Flocq Require Import Core.
From Flocq Require Import IEEE754.BinarySingleNaN.
From Verif Require Import Base Num F64 ModelCommon ModelTree ModelBoost SpecFit Lib Spec SpecTree SpecExact SpecScore SpecPredict SpecFitFloat
  ProofReal ProofRound ProofError ProofData ProofSort ProofTree ProofTree3 ProofScore ProofBoost ProofBoost2 ProofLeaf ProofPredict ProofFitFloat
  ProofClear ProofDeepFloat ProofLearnFloat.
Local Open Scope R_scope.

Section Sums.
Context {O : NumOps}.

Lemma leaf_means_sum {L} (mk : dataset -> res L) cfg nc nt (g : list F * list F -> R) level d t :
  built mk cfg level d t -> wf_dataset nc nt d ->
  Rsum (map (fun s => mean (map g (samples_like (fst s) t d))) (samples d)) = Rsum (map g (samples d)).
Proof.
  induction 1 as [level d s l Es Est El|level d s fd td t f Es Est Ep Bt IHt Bf IHf]; intros W.
  - rewrite (Rsum_map_ext _ (fun _ => mean (map g (samples d)))) by (intros x _; now rewrite leaf_like).
    rewrite Rsum_map_const. pose proof (mean_map g (samples d)) as M. rewrite M.
    destruct (samples d) as [|x l0]; [cbn; lra|]. field. apply not_0_INR. discriminate.
  - destruct (partition_wf nc nt d _ fd td W Ep) as (Hq & Wf & Wt & St & Sf).
    rewrite (node_sum (fun _ l => mean (map g l)) _ t f d fd td St Sf), (IHt Wt), (IHf Wf).
    rewrite (Rsum_split g (fun p => answers (bs_question s) (fst p)) (samples d)), <- St, <- Sf. reflexivity.
Qed.
End Sums.

Section Balance.
Context (P : platform).
Local Existing Instance f64_ops.
Notation FO := (f64_ops P).

Lemma mean_minus {A} (f g : A -> R) l : mean (map (fun x => f x - g x) l) = mean (map f l) - mean (map g l).
Proof. rewrite !mean_map, (Rsum_map_minus f g). unfold Rdiv. ring. Qed.

Lemma errors_mean j (ls ps : list (list f64)) : length ls = length ps ->
  mean (errors j ls ps) = mean (target j (map (map B2R) ls)) - mean (target j (map (map B2R) ps)).
Proof.
  intros HL. unfold errors.
  rewrite (mean_minus (fun q : list f64 * list f64 => B2R (nth j (fst q) (B754_zero false))) (fun q => B2R (nth j (snd q) (B754_zero false)))).
  assert (G : forall y : list f64, nth j (map B2R y) 0 = B2R (nth j y (B754_zero false))) by (intros y; exact (map_nth (fun v : f64 => B2R v) y (B754_zero false) j)).
  unfold target. rewrite !map_map, !(map_ext _ _ G).
  assert (E1 : map (fun q : list f64 * list f64 => B2R (nth j (fst q) (B754_zero false))) (combine ls ps) = map (fun y => B2R (nth j y (B754_zero false))) ls).
  { revert ps HL. induction ls as [|x l IH]; intros [|p ps] HL; try discriminate; [reflexivity|]. cbn. f_equal. apply IH. now injection HL. }
  assert (E2 : map (fun q : list f64 * list f64 => B2R (nth j (snd q) (B754_zero false))) (combine ls ps) = map (fun y => B2R (nth j y (B754_zero false))) ps).
  { revert ps HL E1. induction ls as [|x l IH]; intros [|p ps] HL E1; try discriminate; [reflexivity|]. cbn. f_equal. apply IH; [now injection HL|now injection E1]. }
  rewrite E1, E2. reflexivity.
Qed.

Lemma balance_step nc nt (d : @dataset FO) cfg n (lr : f64) (m : regression_boost_model) k B ps :
  wf_dataset nc nt d -> (Z.of_nat (length (labels d)) <= 2 ^ 40)%Z -> is_finite lr = true -> 0 <= B2R lr <= 2 ->
  bpow radix2 (-400) <= B <= bpow radix2 400 -> within B (labels d) ->
  regression_boost_train d cfg n lr = Ok m -> (k < n)%nat ->
  regression_boost_all_predictions (first_trees k m) d = Ok ps -> within B ps ->
  exists ps', regression_boost_all_predictions (first_trees (S k) m) d = Ok ps' /\ length ps' = length (labels d) /\ length ps = length (labels d) /\
    forall j, (j < nt)%nat ->
      Rabs (mean (errors j (labels d) ps')) <= Rabs (mean (errors j (labels d) ps)) + bpow radix2 (-48) * INR (length (labels d) + 2) * B.
Proof.
  intros W HN Fl Hlr HB HL E Hk Eps Hps.
  destruct (step_near P nc nt d cfg n lr m k B ps W HN Fl Hlr HB HL E Hk Eps Hps) as (ps' & t & Eps' & Eb & WD & _ & _ & L1 & L2 & Ff & HE).
  exists ps'. split; [exact Eps'|]. split; [exact L2|]. split; [exact L1|]. intros j Hj. destruct (HE j Hj) as [E1 E2]. clear HE.
  pose proof (uB_small B HB) as [U1 U2]. set (N := length (labels d)) in *. pose proof (pos_INR N) as HN0.
  set (D := mkDS (feature_rows d) (differences (labels d) ps) (feature_columns d)) in *.
  apply near_mean in E1; [|apply Rmult_le_pos; lra]. apply near_mean in E2; [|lra].
  rewrite grad_boost_tree_new_eq in Eb. apply build_with_built in Eb.
  pose proof (@leaf_means_sum FO _ _ cfg nc nt (entry j) 0%N D t Eb WD) as SM.
  assert (MM : mean (map (fun s => entry j s - B2R lr * mean (map (entry j) (@samples_like FO _ (fst s) t D))) (samples D)) = (1 - B2R lr) * mean (map (entry j) (samples D))).
  { rewrite (mean_minus (entry j)). rewrite !mean_map, (Rsum_map_mult (B2R lr)).
    match goal with |- _ - _ * ?z / _ = _ => replace z with (Rsum (map (entry j) (samples D))) by (symmetry; exact SM) end. unfold Rdiv. ring. }
  change (Rabs (mean (errors j (labels d) ps') - mean (map (fun s => entry j s - B2R lr * mean (map (entry j) (@samples_like FO _ (fst s) t D))) (samples D))) <= (24 * INR N + 49) * (ulp1 * B)) in E1.
  rewrite MM in E1. change (Rabs (mean (map (entry j) (samples D)) - mean (errors j (labels d) ps)) <= 3 * (ulp1 * B)) in E2.
  set (x := mean (errors j (labels d) ps')) in *. set (y := mean (map (entry j) (samples D))) in *. set (z := mean (errors j (labels d) ps)) in *.
  assert (E48 : bpow radix2 (-48) * INR (N + 2) * B = (32 * INR N + 64) * (ulp1 * B)).
  { replace (bpow radix2 (-48)) with (32 * ulp1) by (unfold ulp1; change 32 with (bpow radix2 5); rewrite <- bpow_plus; reflexivity).
    rewrite plus_INR. cbn [INR]. ring. }
  rewrite E48.
  assert (A1 : Rabs ((1 - B2R lr) * y) <= Rabs y).
  { rewrite Rabs_mult. rewrite <- (Rmult_1_l (Rabs y)) at 2. apply Rmult_le_compat_r; [apply Rabs_pos|]. apply Rabs_le. lra. }
  pose proof (Rabs_triang (x - (1 - B2R lr) * y) ((1 - B2R lr) * y)) as T1. replace (x - (1 - B2R lr) * y + (1 - B2R lr) * y) with x in T1 by ring.
  pose proof (Rabs_triang (y - z) z) as T2. replace (y - z + z) with y in T2 by ring.
  assert (0 <= (8 * INR N + 12) * (ulp1 * B)) by (apply Rmult_le_pos; lra). lra.
Qed.

Notation real := (map (map B2R)).

Theorem tree_balance_float nc nt (d : @dataset FO) cfg (t : tree_node regression_leaf) B :
  wf_dataset nc nt d -> (Z.of_nat (length (labels d)) <= 2 ^ 40)%Z -> bpow radix2 (-400) <= B <= bpow radix2 400 -> within B (labels d) ->
  regression_tree_new d cfg = Ok t ->
  exists ps : list (list f64), mapM (fun row => tree_prediction row t) (feature_rows d) = Ok ps /\
    forall j, (j < nt)%nat -> Rabs (mean (target j (real ps)) - mean (target j (real (labels d)))) <= bpow radix2 (-51) * INR (length (labels d) + 2) * B.
Proof.
  intros W HN HB HL E. destruct (tree_errors P nc nt d cfg t B W HN HB HL E) as (ps & Eps & _ & HE). exists ps. split; [exact Eps|]. intros j Hj.
  specialize (HE j Hj).
  assert (Lp : length (labels d) = length ps).
  { pose proof (Forall2_length _ _ _ (proj1 (mapM_Forall2 _ _ _) Eps)) as Q. pose proof (wf_lengths _ _ _ W) as Q2. change (@F FO) with f64 in *. lia. }
  apply near_mean in HE; [|unfold slip; apply Rmult_le_pos; [apply Rmult_le_pos; [apply bpow_ge_0|apply pos_INR]|pose proof (bpow_gt_0 radix2 (-400)); lra]].
  rewrite (errors_mean j (labels d) ps Lp) in HE.
  assert (Z : mean (map (ProofDeepFloat.group_dev P j d t) (samples d)) = 0).
  { unfold ProofDeepFloat.group_dev. rewrite (mean_minus (ProofDeepFloat.entry P j)), !mean_map.
    rewrite regression_tree_new_eq in E. apply build_with_built in E.
    pose proof (@leaf_means_sum FO _ _ cfg nc nt (ProofDeepFloat.entry P j) 0%N d t E W) as SM.
    match goal with |- _ - ?z / _ = _ => replace z with (Rsum (map (ProofDeepFloat.entry P j) (samples d))) by (symmetry; exact SM) end. unfold Rdiv. ring. }
  rewrite Z, Rminus_0_r in HE. rewrite Rabs_minus_sym. exact HE.
Qed.

Theorem ensemble_balance_float nc nt (d : @dataset FO) cfg n (lr : f64) (m : regression_boost_model) B k :
  let N := length (labels d) in let B' := (1 + 4 * sqrt (INR N)) * B in let e := bpow radix2 (-48) * INR (N + 2) * B' in
  wf_dataset nc nt d -> (Z.of_nat N <= 2 ^ 40)%Z -> is_finite lr = true -> 0 <= B2R lr <= 2 ->
  bpow radix2 (-400) <= B <= bpow radix2 300 -> within B (labels d) ->
  regression_boost_train d cfg n lr = Ok m -> INR n * e <= B -> (k <= n)%nat ->
  exists ps, regression_boost_all_predictions (first_trees k m) d = Ok ps /\
    forall j, (j < nt)%nat -> Rabs (mean (target j (real ps)) - mean (target j (real (labels d)))) <= INR (k + 1) * e.
Proof.
  intros N B' e W HN Fl Hlr HB HL E Hn Hkn.
  assert (N1 : (1 <= N)%nat).
  { unfold N. rewrite (wf_lengths _ _ _ W). pose proof (wf_nonempty _ _ _ W) as H. destruct (feature_rows d); [now contradiction H|cbn; lia]. }
  destruct (sqrt_count N N1 HN) as [Q1 Q2].
  assert (B0 : 0 < B) by (pose proof (bpow_gt_0 radix2 (-400)); lra).
  assert (HBB : B <= B') by (unfold B'; replace B with (1 * B) at 1 by ring; apply Rmult_le_compat_r; lra).
  assert (HB' : bpow radix2 (-400) <= B' <= bpow radix2 400).
  { split; [lra|]. unfold B'. apply Rle_trans with (bpow radix2 23 * bpow radix2 300); [|rewrite <- bpow_plus; apply bpow_le; lia].
    apply Rmult_le_compat; try lra. replace (bpow radix2 23) with (8 * bpow radix2 20) by (change 23%Z with (3 + 20)%Z; rewrite bpow_plus; reflexivity). lra. }
  assert (HL' : within B' (labels d)).
  { eapply Forall_impl; [|exact HL]. intros v Hv. eapply Forall_impl; [|exact Hv]. intros x [Fx Bx]. split; [exact Fx|lra]. }
  assert (Run : forall i, (i <= n)%nat -> exists ps, regression_boost_all_predictions (first_trees i m) d = Ok ps /\ within B' ps).
  { intros i Hi. destruct (boosting_run P nc nt d cfg n lr m B i W HN Fl Hlr HB HL E Hn Hi) as (ps & A1 & A2 & _). eauto. }
  assert (Main : forall i, (i <= n)%nat -> exists ps, regression_boost_all_predictions (first_trees i m) d = Ok ps /\ length ps = length (labels d) /\
    forall j, (j < nt)%nat -> Rabs (mean (errors j (labels d) ps)) <= INR (i + 1) * e).
  2:{ destruct (Main k Hkn) as (ps & Eps & Lp & H). exists ps. split; [exact Eps|]. intros j Hj. specialize (H j Hj).
      rewrite (errors_mean j (labels d) ps (eq_sym Lp)) in H. rewrite Rabs_minus_sym. exact H. }
  induction i as [|i IH]; intros Hi.
  - destruct (regression_prefix_all nc nt d cfg n lr m 0 W E) as (ps & Eps & HF). exists ps. split; [exact Eps|].
    assert (Lp : length ps = length (labels d)) by (rewrite <- (Forall2_length _ _ _ HF); symmetry; exact (wf_lengths _ _ _ W)).
    split; [exact Lp|]. intros j Hj. rewrite (errors_mean j (labels d) ps (eq_sym Lp)).
    assert (Hg : forall p, In p ps -> p = m_initial_guess m).
    { intros p Hp. apply In_nth_error in Hp as [i Hp]. destruct (some_nth (feature_rows d) i) as (row & Hr).
      { rewrite (Forall2_length _ _ _ HF). exact (nth_lt _ _ _ Hp). }
      pose proof (proj2 (proj1 (Forall2_nth _ _ _) HF) i row p Hr Hp) as Ep. cbv beta in Ep.
      unfold regression_boost_predict in Ep. rewrite predict_instance_raw in Ep. cbn in Ep. now injection Ep as <-. }
    assert (Hne : labels d <> []) by (intros E0; unfold N in N1; rewrite E0 in N1; cbn in N1; lia).
    assert (T : tame (labels d)) by (apply (within_tame B); [eapply Rle_trans; [apply HB|apply bpow_le; lia]|exact HL]).
    set (ys := target j (real (labels d))).
    destruct (initial_guess_error nt d cfg n lr m j (wf_labels _ _ _ W) Hne E Hj T HN) as (v & Ev & Fv & Herr). fold ys in Herr.
    assert (Hv : nth j (m_initial_guess m) (B754_zero false : f64) = v) by exact (nth_error_nth _ _ _ Ev).
    assert (Hma : mean (map Rabs ys) <= B).
    { apply mean_le; [lra|]. intros x Hx. unfold ys, target in Hx. rewrite !map_map in Hx. apply in_map_iff in Hx as (y & <- & Hin).
      change 0 with (B2R (B754_zero false : f64)). rewrite map_nth. exact (proj2 (within_nth B (labels d) y j (Rlt_le _ _ B0) HL Hin)). }
    assert (Mp : mean (target j (real ps)) = B2R v).
    { unfold target. rewrite map_map, mean_map, (Rsum_map_ext _ (fun _ => B2R v)).
      - rewrite Rsum_map_const. field. apply not_0_INR. intros Q. apply (eq_trans (eq_sym Lp)) in Q. unfold N in N1. change (@F FO) with f64 in *. lia.
      - intros p Hp. rewrite (Hg p Hp). exact (eq_trans (map_nth (fun v : f64 => B2R v) (m_initial_guess m) (B754_zero false) j) (f_equal (fun v : f64 => B2R v) Hv)). }
    rewrite Mp, Rabs_minus_sym. eapply Rle_trans; [exact Herr|]. cbn [Nat.add INR]. rewrite Rmult_1_l.
    assert (HB2 : bpow radix2 (-400) <= B <= bpow radix2 400) by (split; [lra|]; eapply Rle_trans; [apply HB|apply bpow_le; lia]).
    pose proof (eta_B B HB2) as He. pose proof (uB_small B HB2) as [U1 _]. fold N. pose proof (pos_INR N) as N0. pose proof ulp1_pos as U0.
    unfold e. replace (bpow radix2 (-51)) with (4 * ulp1) by (unfold ulp1; change 4 with (bpow radix2 2); rewrite <- bpow_plus; reflexivity).
    replace (bpow radix2 (-48)) with (32 * ulp1) by (unfold ulp1; change 32 with (bpow radix2 5); rewrite <- bpow_plus; reflexivity).
    rewrite !plus_INR. cbn [INR].
    assert (S1 : 4 * ulp1 * (INR N + 1) * mean (map Rabs ys) <= 4 * ulp1 * (INR N + 1) * B) by (apply Rmult_le_compat_l; [apply Rmult_le_pos; lra|exact Hma]).
    assert (S2 : 32 * ulp1 * (INR N + (1 + 1)) * B <= 32 * ulp1 * (INR N + (1 + 1)) * B') by (apply Rmult_le_compat_l; [apply Rmult_le_pos; lra|exact HBB]).
    assert (S3 : 0 <= (28 * INR N + 59) * (ulp1 * B)) by (apply Rmult_le_pos; lra). lra.
  - destruct (IH ltac:(lia)) as (ps & Eps & Lp & H). destruct (Run i ltac:(lia)) as (ps2 & Eps2 & Hps).
    pose proof (ok_inj _ _ _ Eps2 Eps) as ->.
    destruct (balance_step nc nt d cfg n lr m i B' ps W HN Fl Hlr HB' HL' E Hi Eps Hps) as (ps' & Eps' & Lp' & _ & H').
    exists ps'. split; [exact Eps'|]. split; [exact Lp'|]. intros j Hj. specialize (H j Hj). specialize (H' j Hj). fold N e in H'.
    replace (S i + 1)%nat with (S (i + 1)) by lia. rewrite S_INR. lra.
Qed.
End Balance.
