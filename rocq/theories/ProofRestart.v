(** Regression boosting can be continued by boosting the residuals, in exact arithmetic (C105). *)
From Coq Require Import Reals Lra Lia.
From Verif Require Import Base Num ModelCommon ModelTree ModelBoost Lib XR Spec SpecTree SpecExact SpecScore SpecFit SpecError SpecClass SpecAffine ProofReal ProofSort ProofData
  ProofSplit ProofSplit2 ProofTree ProofTree3 ProofScore ProofScore2 ProofSplitExact ProofSplitExact2 ProofTreeExact ProofScoreExact ProofBoost ProofBoost2 ProofLeaf ProofBoostExact
  ProofBalance ProofClassExact ProofClassRun ProofShift.
Local Open Scope R_scope.

Definition vplus (a b : list R) : list R := map2 Rplus a b.

Lemma shift_vplus v l : shift v l = vplus l v.
Proof. unfold shift, vplus. now rewrite map2_combine. Qed.

Lemma vplus_length a b k : length a = k -> length b = k -> length (vplus a b) = k.
Proof. intros. unfold vplus. rewrite map2_length. lia. Qed.

Lemma vplus_zeros a k : length a = k -> vplus a (zeros k) = a.
Proof. intros <-. unfold vplus, zeros. induction a as [|x a IH]; auto. cbn [length repeat map2]. rewrite IH. f_equal. ring. Qed.

Lemma vstep_vplus lr a b o : length a = length b -> vstep lr (vplus a b) o = vplus a (vstep lr b o).
Proof.
  unfold vstep, vplus. revert b o. induction a as [|x a IH]; intros [|y b] [|z o] L; try discriminate; auto. cbn [map2]. f_equal; [ring|]. apply IH. auto.
Qed.

Lemma fold_vplus k lr os : forall a b, length a = k -> length b = k -> Forall (fun o => length o = k) os ->
  fold_left (vstep lr) os (vplus a b) = vplus a (fold_left (vstep lr) os b).
Proof.
  induction os as [|o os IH]; intros a b La Lb Ho; auto. inversion Ho; subst. cbn [fold_left]. rewrite vstep_vplus by congruence.
  apply IH; auto. rewrite vstep_length; congruence.
Qed.

Lemma vsub_vplus l a b : length a = length b -> vsub l (vplus a b) = vsub (vsub l a) b.
Proof.
  unfold vsub, vplus. revert a b. induction l as [|x l IH]; intros [|y a] [|z b] L; try discriminate; auto. cbn [map2]. f_equal; [ring|]. apply IH. auto.
Qed.

Lemma finite_outs k row ts : Forall (finite_out k row) ts ->
  exists os, Forall (fun o : list R => length o = k) os /\ Forall2 (fun t o => @gb_out xr_ops row t = Ok (map Fin o)) ts os.
Proof.
  induction 1 as [|t ts (o & Eo & Lo) _ (os & A & B)]; [exists []; auto|]. exists (o :: os). auto.
Qed.

(** More trees add what they predict from a zero guess. *)
Lemma raw_joined k lr g row ts us : length g = k -> Forall (finite_out k row) ts -> Forall (finite_out k row) us ->
  exists a b, @raw xr_ops _ gb_out (Fin lr) (map Fin g) row ts = Ok (map Fin a) /\ @raw xr_ops _ gb_out (Fin lr) (map Fin (zeros k)) row us = Ok (map Fin b) /\
    length a = k /\ length b = k /\ @raw xr_ops _ gb_out (Fin lr) (map Fin g) row (ts ++ us) = Ok (map Fin (vplus a b)).
Proof.
  intros Hg Ht Hu. destruct (finite_outs k row ts Ht) as (os & A & B). destruct (finite_outs k row us Hu) as (ps & C & D).
  exists (fold_left (vstep lr) os g), (fold_left (vstep lr) ps (zeros k)).
  split; [now apply (raw_real k)|]. split; [apply (raw_real k); auto; apply zeros_length|].
  destruct (fold_step_Fin k lr os g Hg A) as [_ La]. destruct (fold_step_Fin k lr ps (zeros k) (zeros_length k) C) as [_ Lb].
  split; [exact La|]. split; [exact Lb|].
  rewrite <- (fold_vplus k) by (auto; apply zeros_length). rewrite vplus_zeros by exact La. rewrite <- fold_left_app.
  apply (raw_real k); auto; [apply Forall_app; auto|now apply Forall2_app].
Qed.

Lemma means_zero nt ls ps : rectangular nt ls -> rectangular nt ps -> length ps = length ls -> ls <> [] ->
  (forall j, (j < nt)%nat -> mean (target j ps) = mean (target j ls)) -> means nt (map2 vsub ls ps) = zeros nt.
Proof.
  intros Rl Rp HL Hne H. apply (nth_ext _ _ 0 0); [rewrite means_length; symmetry; apply zeros_length|].
  intros j Hj. rewrite means_length in Hj. rewrite zeros_nth. unfold means.
  rewrite (nth_indep _ 0 (mean (target 0 (map2 vsub ls ps)))) by (rewrite map_length, seq_length; lia).
  rewrite (map_nth (fun j => mean (target j (map2 vsub ls ps)))), seq_nth by lia. cbn [Nat.add]. specialize (H j Hj).
  assert (ET : Rsum (target j (map2 vsub ls ps)) = Rsum (target j ls) - Rsum (target j ps) /\ length (map2 vsub ls ps) = length ls).
  { clear Hne H. revert ps Rp HL. induction Rl as [|l ls Ll Rl IH]; intros [|p ps] Rp HL; try discriminate; [unfold Rsum; cbn; split; [ring|auto]|].
    inversion Rp; subst. destruct (IH ps) as [E1 E2]; auto. cbn [map2 length]. split; [|f_equal; exact E2].
    unfold target in *. cbn [map]. rewrite !Rsum_cons. rewrite E1. unfold vsub. rewrite nth_map2 by lia. ring. }
  destruct ET as [ET EL]. unfold mean in *. rewrite ET. assert (L : forall x, length (target j x) = length x) by (intros; apply map_length). rewrite !L in *. rewrite EL, HL in *.
  unfold Rdiv in *. rewrite Rmult_minus_distr_r, H. ring.
Qed.

Section Restart.
Variables (nc nt : nat) (d : @dataset xr_ops) (ls : list (list R)) (cfg : @tree_config xr_ops) (n k : nat) (lr : R)
  (m r m' : @regression_boost_model xr_ops) (preds : list (list xr)).
Hypotheses (W : wf_dataset nc nt d) (Hl : real_labels ls d) (E : regression_boost_train d cfg n (Fin lr) = Ok m)
  (Ep : regression_boost_all_predictions m d = Ok preds)
  (Er : regression_boost_train (mkDS (feature_rows d) (differences (labels d) preds) (feature_columns d)) cfg k (Fin lr) = Ok r)
  (E' : regression_boost_train d cfg (n + k) (Fin lr) = Ok m').

Let D := mkDS (feature_rows d) (differences (labels d) preds) (feature_columns d).

Lemma restart_data : exists ps, preds = map (map Fin) ps /\ rectangular nt ps /\ length ps = length ls /\
  Forall2 (fun row p => regression_boost_predict m row = Ok (map Fin p) /\ length p = nt) (feature_rows d) ps /\
  wf_dataset nc nt D /\ real_labels (map2 vsub ls ps) D /\ means nt (map2 vsub ls ps) = zeros nt.
Proof.
  destruct (trained_predictions nc nt d ls cfg n lr m (feature_rows d) W Hl E) as (ps & HP). { intros row Hin. eapply row_long; eauto. }
  assert (Epreds : preds = map (map Fin) ps).
  { unfold regression_boost_all_predictions in Ep. rewrite all_predictions_eq in Ep. now apply (Forall2_real nt _ _ ps) in Ep. }
  pose proof (Forall2_rect _ _ _ _ HP) as Rp.
  assert (HL : length ps = length ls) by (rewrite <- (Forall2_length _ _ _ HP); eapply xr_len; eauto).
  exists ps. split; [exact Epreds|]. split; [exact Rp|]. split; [exact HL|]. split; [exact HP|].
  destruct (residual_data nc nt d ls ps W Hl HL Rp) as [Wr Hr]. unfold D. rewrite Epreds. split; [exact Wr|]. split; [exact Hr|].
  destruct (real_rect nc nt d ls W Hl) as [Rl Hne].
  destruct (ensemble_balance nc nt d ls cfg n lr m W Hl E) as (ps' & S & _ & HM).
  unfold regression_boost_all_predictions in Ep. rewrite all_predictions_eq in Ep. xr. rewrite S in Ep. injection Ep as Ep'. rewrite Epreds in Ep'. apply map_Fin_inj2 in Ep'. subst ps'.
  now apply means_zero.
Qed.

Lemma restart_trees : forall i, (i <= k)%nat -> firstn (n + i) (m_trees m') = m_trees m ++ firstn i (m_trees r).
Proof.
  destruct restart_data as (ps & Epreds & Rp & HL & HP & WD & LD & Hz).
  destruct (guess_real _ _ _ _ _ _ _ _ W Hl E) as (Hg & Hlr & HT).
  destruct (guess_real _ _ _ _ _ _ _ _ W Hl E') as (Hg' & Hlr' & HT').
  destruct (guess_real _ _ _ _ _ _ _ _ WD LD Er) as (Hgr & Hlrr & HTr). rewrite Hz in Hgr.
  assert (F0 : firstn n (m_trees m') = m_trees m).
  { pose proof (regression_prefix d cfg (n + k) n (Fin lr) m' ltac:(lia) E') as Q. rewrite E in Q. injection Q as ->. reflexivity. }
  induction i as [|i IH]; intros Hi; [rewrite Nat.add_0_r, app_nil_r; exact F0|]. specialize (IH ltac:(lia)).
  replace (n + S i)%nat with (S (n + i)) by lia.
  destruct (regression_stage d cfg (n + k) (Fin lr) m' (n + i) (wf_lengths _ _ _ W) E' ltac:(lia)) as (q1 & t1 & Q1 & _ & T1 & B1).
  destruct (regression_stage D cfg k (Fin lr) r i (wf_lengths _ _ _ WD) Er ltac:(lia)) as (q2 & t2 & Q2 & _ & T2 & B2).
  rewrite (firstn_snoc _ _ _ T1), (firstn_snoc _ _ _ T2), IH, app_assoc. f_equal. f_equal.
  unfold regression_boost_all_predictions in Q1, Q2. rewrite all_predictions_eq in Q1, Q2. cbn [D feature_rows] in Q2.
  assert (HB : exists bs, rectangular nt bs /\ length bs = length ps /\ q2 = map (map Fin) bs /\ q1 = map (map Fin) (map2 vplus ps bs)).
  { assert (HR : forall row, In row (feature_rows d) -> (nc <= length row)%nat) by (intros; eapply row_long; eauto).
    assert (EQ : forall row, (nc <= length row)%nat -> exists a b, regression_boost_predict m row = Ok (map Fin a) /\
      regression_boost_predict (first_trees i r) row = Ok (map Fin b) /\ length a = nt /\ length b = nt /\
      regression_boost_predict (first_trees (n + i) m') row = Ok (map Fin (vplus a b))).
    { intros row Hrow. unfold regression_boost_predict. setoid_rewrite predict_instance_raw. cbn [first_trees m_trees m_initial_guess m_learning_rate].
      rewrite Hg, Hg', Hgr, Hlr, Hlr', Hlrr, IH. apply raw_joined; [apply means_length| |].
      - rewrite <- (firstn_all (m_trees m)), HT. exact (trained_finite nc nt d _ cfg n lr m W Hl E n (le_n n) row Hrow).
      - exact (trained_finite nc nt D _ cfg k lr r WD LD Er i ltac:(lia) row Hrow). }
    clear -HP Q1 Q2 HR EQ. revert q1 q2 Q1 Q2 HR. induction HP as [|row p rows ps [P1 P2] HP IHP]; intros q1 q2 Q1 Q2 HR.
    - injection Q1 as <-. injection Q2 as <-. exists []. repeat split; auto. constructor.
    - destruct (EQ row) as (a & b & A1 & A2 & A3 & A4 & A5); [apply HR; now left|].
      cbn [mapM] in Q1, Q2. rewrite A5 in Q1. rewrite A2 in Q2. cbn [bind] in Q1, Q2.
      apply bind_Ok in Q1 as (q1' & Q1 & F1). apply bind_Ok in Q2 as (q2' & Q2 & F2). injection F1 as <-. injection F2 as <-.
      destruct (IHP _ _ Q1 Q2) as (bs & B1 & B2 & -> & ->); [intros; apply HR; now right|].
      rewrite P1 in A1. injection A1 as A1. apply (f_equal (map xval)) in A1. rewrite !map_xval_Fin in A1. subst a.
      exists (b :: bs). split; [constructor; auto|]. split; [cbn; f_equal; exact B2|]. split; reflexivity. }
  destruct HB as (bs & Rb & Lb & -> & ->). cbn [D labels feature_rows feature_columns] in B2.
  assert (ED : differences (labels d) (map (map Fin) (map2 vplus ps bs)) = differences (differences (labels d) preds) (map (map Fin) bs)).
  { rewrite Epreds. unfold real_labels in Hl. xr. rewrite Hl. rewrite !differences_Fin. f_equal. clear -Rp Rb Lb HL. revert ps bs Rp Rb Lb HL.
    induction ls as [|l ls' IH]; intros [|p ps] [|b bs] Rp Rb Lb HL; try discriminate; auto. inversion Rp; inversion Rb; subst. cbn [map2]. f_equal; [|apply IH; auto].
    apply vsub_vplus. congruence. }
  rewrite ED in B1. rewrite B2 in B1. now injection B1 as <-.
Qed.

Theorem regression_restart :
  m_trees m' = m_trees m ++ m_trees r /\ m_initial_guess m' = m_initial_guess m /\ m_initial_guess r = map Fin (repeat 0 nt) /\
  forall row, (nc <= length row)%nat -> exists a b, regression_boost_predict m row = Ok (map Fin a) /\ regression_boost_predict r row = Ok (map Fin b) /\
    length a = nt /\ length b = nt /\ regression_boost_predict m' row = Ok (map Fin (shift b a)).
Proof.
  destruct restart_data as (ps & Epreds & Rp & HL & HP & WD & LD & Hz).
  destruct (guess_real _ _ _ _ _ _ _ _ W Hl E) as (Hg & Hlr & HT).
  destruct (guess_real _ _ _ _ _ _ _ _ W Hl E') as (Hg' & Hlr' & HT').
  destruct (guess_real _ _ _ _ _ _ _ _ WD LD Er) as (Hgr & Hlrr & HTr). rewrite Hz in Hgr.
  pose proof (restart_trees k (le_n k)) as T. rewrite <- HT', <- HTr, !firstn_all in T.
  split; [exact T|]. split; [congruence|]. split; [exact Hgr|]. intros row Hrow.
  destruct (raw_joined nt lr (means nt ls) row (m_trees m) (m_trees r) (means_length nt ls)) as (a & b & A & B & La & Lb & C).
  - rewrite <- (firstn_all (m_trees m)), HT. exact (trained_finite nc nt d _ cfg n lr m W Hl E n (le_n n) row Hrow).
  - rewrite <- (firstn_all (m_trees r)), HTr. exact (trained_finite nc nt D _ cfg k lr r WD LD Er k (le_n k) row Hrow).
  - exists a, b. rewrite shift_vplus. unfold regression_boost_predict. setoid_rewrite predict_instance_raw. rewrite Hg, Hg', Hgr, Hlr, Hlr', Hlrr, T. auto.
Qed.

End Restart.

(** All three trainings succeed for the configurations that the programs use. *)
Theorem restart_succeeds nc nt d ls cfg n k lr :
  wf_dataset nc nt d -> real_labels ls d -> standard cfg -> tc_number_of_classes cfg = N.of_nat nt -> (Z.of_nat nt <= 2 ^ 53)%Z ->
  exists m preds r m', regression_boost_train d cfg n (Fin lr) = Ok m /\ regression_boost_all_predictions m d = Ok preds /\
    regression_boost_train (mkDS (feature_rows d) (differences (labels d) preds) (feature_columns d)) cfg k (Fin lr) = Ok r /\
    regression_boost_train d cfg (n + k) (Fin lr) = Ok m'.
Proof.
  intros W Hl Hst Hc Hz.
  destruct (regression_train_total xr_laws nc nt d cfg n (Fin lr) W Hst Hc Hz) as (m & E & _).
  destruct (regression_train_total xr_laws nc nt d cfg (n + k) (Fin lr) W Hst Hc Hz) as (m' & E' & _).
  destruct (trained_predictions nc nt d ls cfg n lr m (feature_rows d) W Hl E) as (ps & HP). { intros row Hin. eapply row_long; eauto. }
  assert (Ep : regression_boost_all_predictions m d = Ok (map (map Fin) ps)).
  { unfold regression_boost_all_predictions. rewrite all_predictions_eq. clear -HP. induction HP as [|row p rows ps [P _] HP IH]; auto. cbn [mapM map]. rewrite P. cbn [bind]. now rewrite IH. }
  destruct (restart_data nc nt d ls cfg n lr m _ W Hl E Ep) as (_ & _ & _ & _ & _ & WD & _).
  destruct (regression_train_total xr_laws nc nt _ cfg k (Fin lr) WD Hst Hc Hz) as (r & Er & _).
  exists m, (map (map Fin) ps), r, m'. auto.
Qed.
