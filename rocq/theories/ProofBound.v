(** How far a regression ensemble's answers can be from the mean label, in exact arithmetic (C71). *)
From Coq Require Import Reals Lra Permutation.
From Verif Require Import Base Num ModelCommon ModelTree ModelBoost Lib XR Spec SpecTree SpecExact SpecScore SpecFit SpecError SpecStage ProofReal ProofData
  ProofSplit ProofSplit2 ProofTree ProofTree3 ProofScore ProofSplitExact ProofSplitExact2 ProofTreeExact ProofScoreExact ProofBoost ProofBoost2 ProofLeaf ProofBoostExact ProofBalance ProofStage.
Local Open Scope R_scope.

Section Bound.
Variables (nc nt : nat) (d : @dataset xr_ops) (ls : list (list R)) (cfg : @tree_config xr_ops) (lr : R).
Hypotheses (W : wf_dataset nc nt d) (Hl : real_labels ls d) (Hk : (0 < nt)%nat) (Hlr : 0 <= lr <= 2).

Let rows := feature_rows d.
Let S_ j := INR (length ls) * variance (target j ls).

Lemma sumsq_nonneg l : 0 <= sumsq l.
Proof. apply Rsum_nonneg. intros x Hx. apply in_map_iff in Hx as (y & <- & _). apply Rle_0_sqr. Qed.

Lemma sumsq_in l x : In x l -> x * x <= sumsq l.
Proof.
  unfold sumsq. induction l as [|y l IH]; [easy|]. intros [->|H]; cbn [map]; rewrite Rsum_cons.
  - pose proof (sumsq_nonneg l) as N. unfold sumsq in N. lra.
  - specialize (IH H). pose proof (Rle_0_sqr y). unfold Rsqr in *. lra.
Qed.

(** The outputs [o] are no larger, in sum of squares, than what they were fitted to. *)
Lemma fit_smaller (C : list (R * R)) : Rsum (map (fun p => fst p * (fst p - snd p)) C) = 0 ->
  sumsq (map fst C) <= sumsq (map snd C) /\ sumsq (map (fun p => snd p - lr * fst p) C) <= sumsq (map snd C).
Proof.
  intros H.
  assert (A : sumsq (map snd C) = sumsq (map (fun p => snd p - fst p) C) + sumsq (map fst C) + -2 * Rsum (map (fun p => fst p * (fst p - snd p)) C)).
  { unfold sumsq. rewrite !map_map, <- Rsum_map_mult, <- !Rsum_map_plus. apply Rsum_map_ext. intros. ring. }
  assert (B : sumsq (map (fun p => snd p - lr * fst p) C) = sumsq (map snd C) + - (lr * (2 - lr)) * sumsq (map fst C) + 2 * lr * Rsum (map (fun p => fst p * (fst p - snd p)) C)).
  { unfold sumsq. rewrite !map_map, <- !Rsum_map_mult, <- !Rsum_map_plus. apply Rsum_map_ext. intros. ring. }
  rewrite H in A, B. pose proof (sumsq_nonneg (map (fun p => snd p - fst p) C)). pose proof (sumsq_nonneg (map fst C)) as N.
  split; [lra|]. rewrite B. assert (0 <= lr * (2 - lr)) by nra. nra.
Qed.

Lemma base_prediction m row : regression_boost_train d cfg 0 (Fin lr) = Ok m -> regression_boost_predict m row = Ok (map Fin (means nt ls)).
Proof.
  intros E. destruct (guess_real _ _ _ _ _ _ _ _ W Hl E) as (Hg & _ & HT). unfold regression_boost_predict. rewrite predict_instance_raw.
  destruct (m_trees m); [|discriminate]. rewrite Hg. reflexivity.
Qed.

Lemma predicts_const m ps q : predicts nt d m ps -> (forall row, regression_boost_predict m row = Ok (map Fin q)) -> forall p, In p ps -> p = q.
Proof.
  unfold predicts. intros H Hq p Hp. induction H as [|row x rs xs [A _] H IH]; [easy|]. destruct Hp as [->|Hp]; auto.
  rewrite Hq in A. injection A as A. apply (f_equal (map xval)) in A. rewrite !map_xval_Fin in A. congruence.
Qed.

Lemma residual_target j (xs ps : list (list R)) : (j < nt)%nat -> rectangular nt xs -> rectangular nt ps -> length ps = length xs ->
  target j (map2 vsub xs ps) = map (fun p => nth j (fst p) 0 - nth j (snd p) 0) (combine xs ps).
Proof.
  intros Hj. revert ps. induction xs as [|x xs IH]; intros [|p ps] Rx Rp HL; try discriminate; auto.
  pose proof (Forall_inv Rx) as H1. pose proof (Forall_inv Rp) as H2. cbv beta in H1, H2.
  cbn [map2 combine map target fst snd]. fold (target j (map2 vsub xs ps)). rewrite IH; auto; try (eapply Forall_inv_tail; eauto).
  f_equal. apply nth_map2; lia.
Qed.

Lemma bound n : forall m, regression_boost_train d cfg n (Fin lr) = Ok m ->
  (forall row, (nc <= length row)%nat -> exists p, regression_boost_predict m row = Ok (map Fin p) /\ length p = nt /\
     forall j, (j < nt)%nat -> Rabs (nth j p 0 - mean (target j ls)) <= INR n * lr * sqrt (S_ j)) /\
  (forall ps, predicts nt d m ps -> forall j, (j < nt)%nat -> sumsq (target j (map2 vsub ls ps)) <= S_ j).
Proof.
  destruct (real_rect nc nt d ls W Hl) as [Rl Hne]. pose proof (xr_len _ _ _ _ W Hl) as HLr. fold rows in HLr.
  induction n as [|n IH]; intros m' E'.
  - split.
    + intros row _. exists (means nt ls). split; [now apply base_prediction|]. split; [apply means_length|].
      intros j Hj. rewrite mean_nth by auto. replace (_ - _) with 0 by ring. rewrite Rabs_R0. cbn. lra.
    + intros ps HP j Hj. pose proof (predicts_const m' ps _ HP (fun row => base_prediction m' row E')) as Hc.
      pose proof (Forall2_rect _ _ _ _ HP) as Rp.
      assert (HL : length ps = length ls) by (rewrite <- (Forall2_length _ _ _ HP); exact HLr).
      rewrite (residual_target j ls ps Hj Rl Rp HL). unfold S_. rewrite <- (target_length j ls), sse_variance. right.
      unfold sumsq, sse, dev. rewrite map_map. transitivity (Rsum (map (fun p => (nth j (fst p) 0 - mean (target j ls)) * (nth j (fst p) 0 - mean (target j ls))) (combine ls ps))).
      * apply Rsum_map_ext. intros [x p] Hin. cbn [fst snd]. rewrite (Hc p (in_combine_r _ _ _ _ Hin)), mean_nth by auto. ring.
      * unfold target. rewrite map_map. rewrite <- (map_map fst (fun x => (nth j x 0 - mean (map (fun l => nth j l 0) ls)) * (nth j x 0 - mean (map (fun l => nth j l 0) ls)))).
        now rewrite map_fst_combine.
  - pose proof (regression_prefix d cfg (S n) n (Fin lr) m' ltac:(lia) E') as E. set (m := first_trees n m') in E.
    destruct (stage nc nt d ls cfg lr W Hl Hk n m m' E E') as (ps & t & HP & Ht & Eb & Wr & Hr & Hout & HP' & _ & _). cbv beta in Eb, Wr, Hr.
    destruct (IH m E) as [IH1 IH2]. specialize (IH2 ps HP).
    pose proof (Forall2_rect _ _ _ _ HP) as Rp.
    assert (HL : length ps = length ls) by (rewrite <- (Forall2_length _ _ _ HP); exact HLr).
    assert (Rr : rectangular nt (map2 vsub ls ps)).
    { apply Forall_forall. intros x Hx. apply In_nth_error in Hx as (i & Hi). rewrite nth_error_map2 in Hi.
      destruct (nth_error ls i) as [a|] eqn:Ha; [|discriminate]. destruct (nth_error ps i) as [b|] eqn:Hb; [|discriminate]. injection Hi as <-.
      unfold vsub. rewrite map2_length. unfold rectangular in Rl, Rp. rewrite Forall_forall in Rl, Rp.
      rewrite (Rl a), (Rp b) by (eapply nth_error_In; eauto). apply Nat.min_id. }
    assert (Fit : forall j, (j < nt)%nat -> sumsq (map (fun row => nth j (rout t row) 0) rows) <= S_ j /\
      sumsq (map (fun p => nth j (snd p) 0 - lr * nth j (rout t (fst p)) 0) (combine rows (map2 vsub ls ps))) <= S_ j).
    { intros j Hj. pose proof (stage_balance nc nt d ls cfg ps t Eb Wr Hr Hout (fun x => x) j Hj) as Bal. cbv beta in Bal. fold rows in Bal.
      destruct (fit_smaller (map (fun p => (nth j (rout t (fst p)) 0, nth j (snd p) 0)) (combine rows (map2 vsub ls ps)))) as [A B].
      { rewrite map_map. exact Bal. }
      rewrite !map_map in A, B. cbn [fst snd] in A, B.
      assert (Es : map (fun p : list xr * list R => nth j (snd p) 0) (combine rows (map2 vsub ls ps)) = target j (map2 vsub ls ps)).
      { rewrite <- (map_map snd (fun x => nth j x 0)), map_snd_combine; [reflexivity|]. rewrite map2_length, HL, Nat.min_id. exact HLr. }
      assert (Er : map (fun p : list xr * list R => nth j (rout t (fst p)) 0) (combine rows (map2 vsub ls ps)) = map (fun row => nth j (rout t row) 0) rows).
      { rewrite <- (map_map fst (fun x => nth j (rout t x) 0)), map_fst_combine; [reflexivity|]. rewrite map2_length, HL, Nat.min_id. exact HLr. }
      rewrite Es in A, B. rewrite Er in A. specialize (IH2 j Hj). lra. }
    assert (Eb2 := Eb). rewrite grad_boost_tree_new_eq in Eb2. apply build_with_built in Eb2. pose proof (real_rl _ _ Hr) as Erl. pose proof (eq_ind_r (fun l => real_labels l _) Hr Erl) as Hr2. cbv beta in Hr2.
    destruct (guess_real _ _ _ _ _ _ _ _ W Hl E') as (Hg & Hlr' & HT).
    assert (Em' : first_trees (S n) m' = m') by (unfold first_trees; rewrite <- HT, firstn_all; now destruct m').
    split.
    + intros row Hrow. destruct (IH1 row Hrow) as (p & Ep & Lp & Hp).
      destruct (looked_up_out nc nt cfg _ _ t row Eb2 Wr Hr2 Hrow) as [Eo Lo]. set (o := looked_up gl_val t row) in *.
      exists (vstep lr p o). split; [rewrite <- Em'; eapply next_prediction; eauto|]. split; [rewrite vstep_length; congruence|].
      intros j Hj. destruct (Fit j Hj) as [F1 _].
      assert (HO : nth j o 0 * nth j o 0 <= S_ j).
      { eapply Rle_trans; [|exact F1]. apply sumsq_in.
        destruct (proj1 (proj2 (lookup_total nc nt _ cfg (leaf_output_calculator_new Regression) row Wr Hrow)) t Eb) as (l & El & Hin).
        destruct (gb_leaves_reached nc nt _ cfg Regression t l Wr Eb Hin) as (row' & Hrow' & El'). cbn [feature_rows] in Hrow'. fold rows in Hrow'.
        apply in_map_iff. exists row'. split; auto. f_equal. apply rout_eq. rewrite <- Eo. unfold gb_out. xr. now rewrite El, El'. }
      specialize (Hp j Hj). rewrite S_INR.
      assert (Rabs (nth j o 0) <= sqrt (S_ j)).
      { rewrite <- sqrt_Rsqr_abs. apply sqrt_le_1_alt. exact HO. }
      unfold vstep. rewrite nth_map2 by lia.
      replace (nth j p 0 + lr * nth j o 0 - mean (target j ls)) with ((nth j p 0 - mean (target j ls)) + lr * nth j o 0) by ring.
      eapply Rle_trans; [apply Rabs_triang|]. rewrite Rabs_mult, (Rabs_pos_eq lr) by lra. nra.
    + intros ps' HP2 j Hj. pose proof (predicts_unique nt d m' _ _ HP' HP2) as ->.
      destruct (Fit j Hj) as [_ F2]. eapply Rle_trans; [|exact F2]. right. unfold rows.
      set (os := map (rout t) (feature_rows d)) in *. 
      transitivity (sumsq (map (fun p => nth j (snd p) 0 - lr * nth j (fst p) 0) (combine os (map2 vsub ls ps)))).
      2:{ unfold os. f_equal. clear. xr. generalize (map2 vsub ls ps). induction (feature_rows d) as [|r rs IH]; intros [|x l]; cbn; auto. now rewrite IH. }
      f_equal.
      assert (Ro : rectangular nt os) by (unfold os, rectangular; rewrite Forall_map, Forall_forall; intros; now apply Hout).
      assert (Lo : length os = length ls) by (unfold os; now rewrite map_length).
      clear -Rl Rp Ro Lo HL Hj. revert ls ps Rl Rp Lo HL. induction os as [|o os IH]; intros [|l ls] [|p ps] Rl Rp Lo HL; try discriminate; auto.
      pose proof (Forall_inv Rl) as H1. pose proof (Forall_inv Rp) as H2. pose proof (Forall_inv Ro) as H3. cbv beta in H1, H2, H3.
      cbn [map2 combine map target fst snd]. fold (target j (map2 vsub ls (map2 (vstep lr) ps os))).
      rewrite IH; auto; try (eapply Forall_inv_tail; eauto). f_equal.
      unfold vsub at 1. rewrite nth_map2 by (rewrite ?vstep_length; lia). unfold vstep. rewrite nth_map2 by lia.
      unfold vsub. rewrite nth_map2 by lia. ring.
Qed.
End Bound.

Theorem answers_bounded nc nt (d : @dataset xr_ops) ls cfg n lr m row :
  wf_dataset nc nt d -> real_labels ls d -> (0 < nt)%nat -> 0 <= lr <= 2 ->
  regression_boost_train d cfg n (Fin lr) = Ok m -> (nc <= length row)%nat ->
  exists p, regression_boost_predict m row = Ok (map Fin p) /\ length p = nt /\
    forall j, (j < nt)%nat -> Rabs (nth j p 0 - mean (target j ls)) <= INR n * lr * sqrt (INR (length ls) * variance (target j ls)).
Proof. intros W Hl Hk Hlr E Hr. exact (proj1 (bound nc nt d ls cfg lr W Hl Hk Hlr n m E) row Hr). Qed.
