(** A regression ensemble that stops making progress answers the same for ever, in exact arithmetic (C67). *)
From Coq Require Import Reals Lra Lia.
From Verif Require Import Base Num ModelCommon ModelTree ModelBoost Lib XR Spec SpecTree SpecExact SpecScore SpecFit SpecError SpecStage SpecAffine ProofReal ProofData
  ProofSplit ProofSplit2 ProofTree ProofTree3 ProofScore ProofSplitExact ProofSplitExact2 ProofTreeExact ProofScoreExact ProofBoost ProofBoost2 ProofLeaf ProofBoostExact ProofBalance
  ProofShift ProofStage ProofRestart.
Local Open Scope R_scope.

Lemma vstep_zero k lr p : length p = k -> vstep lr p (zeros k) = p.
Proof. intros <-. unfold vstep, zeros. induction p as [|x p IH]; auto. cbn [length repeat map2]. f_equal; [ring|exact IH]. Qed.

Lemma steps_zero k lr i : forall p, length p = k -> fold_left (vstep lr) (repeat (zeros k) i) p = p.
Proof. induction i as [|i IH]; intros p H; auto. cbn [repeat fold_left]. rewrite vstep_zero by auto. now apply IH. Qed.

Lemma nth_firstn_lt {A} (l : list A) i n : (i < n)%nat -> nth_error (firstn n l) i = nth_error l i.
Proof. revert i n. induction l as [|x l IH]; intros [|i] [|n] H; try lia; auto. cbn. apply IH. lia. Qed.

Section Stall.
Variables (nc nt : nat) (d : @dataset xr_ops) (ls : list (list R)) (cfg : @tree_config xr_ops) (lr : R).
Hypotheses (W : wf_dataset nc nt d) (Hl : real_labels ls d) (Hk : (0 < nt)%nat).

Lemma stalled_trees n k m m' m2 e : lr <> 0 -> lr <> 2 ->
  regression_boost_train d cfg n (Fin lr) = Ok m -> regression_boost_train d cfg (S n) (Fin lr) = Ok m' ->
  regression_boost_score m d = Ok (Fin e) -> regression_boost_score m' d = Ok (Fin e) ->
  regression_boost_train d cfg (n + k) (Fin lr) = Ok m2 ->
  exists t, m_trees m2 = m_trees m ++ repeat t k /\ forall row, (nc <= length row)%nat -> @gb_out xr_ops row t = Ok (map Fin (zeros nt)).
Proof.
  intros H0 H2 E E' S S' E2.
  assert (Hpre : forall j, (j <= k)%nat -> regression_boost_train d cfg (n + j) (Fin lr) = Ok (first_trees (n + j) m2)).
  { intros j Hj. exact (regression_prefix d cfg (n + k) (n + j) (Fin lr) m2 ltac:(lia) E2). }
  destruct (stage_error nc nt d ls cfg lr W Hl Hk n m m' E E') as (t & ps & os & e0 & Ht & Eb & HP & HO & Ro & HP' & HM & S1 & S2).
  rewrite S in S1. injection S1 as <-. rewrite S' in S2. injection S2 as S2.
  assert (Hnt : 0 < INR nt) by (apply lt_0_INR; lia).
  assert (Hnz : lr * (2 - lr) <> 0) by (intros H; apply Rmult_integral in H as [H|H]; lra).
  assert (HV : total_variance nt os = 0).
  { assert (Hv : total_variance nt os / INR nt = 0). { apply Rmult_eq_reg_l with (lr * (2 - lr)); auto. lra. }
    apply (f_equal (fun x => x * INR nt)) in Hv. unfold Rdiv in Hv. rewrite Rmult_assoc, Rinv_l, Rmult_1_r in Hv by lra. lra. }
  destruct (real_rect nc nt d ls W Hl) as [Rl Hne]. pose proof (xr_len _ _ _ _ W Hl) as HLr.
  assert (HLo : length os = length ls) by (rewrite <- (Forall2_length _ _ _ HO); exact HLr).
  assert (HLp : length ps = length ls) by (rewrite <- (Forall2_length _ _ _ HP); exact HLr).
  assert (Ho : os <> []) by (intros H; rewrite H in HLo; destruct ls; [congruence|discriminate]).
  pose proof (zero_variance nt d ls Hk os Ho Ro HM HV) as HZ.
  pose proof (Forall2_rect _ _ _ _ HP) as Rp.
  exists t. split.
  - assert (G : forall j, (j <= k)%nat -> predicts nt d (first_trees (n + j) m2) ps /\ firstn (n + j) (m_trees m2) = m_trees m ++ repeat t j).
    { induction j as [|j IH]; intros Hj.
      - pose proof (Hpre 0%nat ltac:(lia)) as P. rewrite Nat.add_0_r in *. rewrite E in P. injection P as P. split; [rewrite <- P; exact HP|]. cbn [repeat]. rewrite app_nil_r.
        rewrite P. reflexivity.
      - destruct (IH ltac:(lia)) as [IH1 IH2]. pose proof (Hpre j ltac:(lia)) as P1. pose proof (Hpre (Datatypes.S j) Hj) as P2. rewrite Nat.add_succ_r in *.
        destruct (stage_error nc nt d ls cfg lr W Hl Hk _ _ _ P1 P2) as (t2 & ps2 & os2 & e2 & T2 & Eb2 & Q1 & Q2 & _ & Q3 & _).
        rewrite (predicts_unique _ _ _ _ _ IH1 Q1) in *. rewrite Eb in Eb2. injection Eb2 as <-. rewrite (outputs_unique _ _ _ _ HO Q2) in Q3.
        rewrite (vstep_zeros nt lr Hk) in Q3; auto; [|lia]. split; [exact Q3|].
        cbn [first_trees m_trees] in T2. rewrite nth_firstn_lt in T2 by lia. rewrite (firstn_snoc _ _ _ T2), IH2, <- app_assoc. f_equal. rewrite <- repeat_cons. reflexivity. }
    destruct (G k (le_n k)) as [_ G2]. destruct (guess_real _ _ _ _ _ _ _ _ W Hl E2) as (_ & _ & HT2). rewrite <- HT2, firstn_all in G2. exact G2.
  - intros row Hrow.
    destruct (residual_data nc nt d ls ps W Hl HLp Rp) as [Wr _].
    assert (Ed : mkDS (feature_rows d) (differences (labels d) (map (map Fin) ps)) (feature_columns d) =
       mkDS (O := xr_ops) (feature_rows d) (map (map Fin) (map2 vsub ls ps)) (feature_columns d)).
    { f_equal. unfold real_labels in Hl. xr. rewrite Hl. apply differences_Fin. }
    rewrite Ed in Wr. clear Ed.
    pose proof (proj1 (proj2 (lookup_total nc nt _ cfg (leaf_output_calculator_new Regression) row Wr Hrow)) t Eb) as (l & Fl & Il).
    destruct (gb_leaves_reached nc nt _ cfg Regression t l Wr Eb Il) as (row' & Hin & Fl'). cbn [feature_rows] in Hin.
    unfold gb_out. rewrite Fl. cbn [bind].
    assert (HF : forall rows os, outputs t rows os -> (forall o, In o os -> o = repeat 0 nt) -> In row' rows -> gl_output l = Some (map Fin (zeros nt))).
    { clear -Fl'. intros rows os H. induction H as [|r o rs os (l' & A & B) H IH]; intros HZ Hin; [destruct Hin|destruct Hin as [->|Hin]].
      - rewrite Fl' in A. injection A as <-. rewrite B, (HZ o (or_introl eq_refl)). reflexivity.
      - apply IH; auto. intros; apply HZ; now right. }
    rewrite (HF _ _ HO HZ Hin). reflexivity.
Qed.

Theorem stalled_answers n k m m' m2 e row : lr <> 2 ->
  regression_boost_train d cfg n (Fin lr) = Ok m -> regression_boost_train d cfg (S n) (Fin lr) = Ok m' ->
  regression_boost_score m d = Ok (Fin e) -> regression_boost_score m' d = Ok (Fin e) ->
  regression_boost_train d cfg (n + k) (Fin lr) = Ok m2 -> (nc <= length row)%nat ->
  regression_boost_predict m2 row = regression_boost_predict m row.
Proof.
  intros H2 E E' S S' E2 Hrow.
  destruct (guess_real _ _ _ _ _ _ _ _ W Hl E) as (Hg & Hlr & HT).
  destruct (guess_real _ _ _ _ _ _ _ _ W Hl E2) as (Hg2 & Hlr2 & HT2).
  unfold regression_boost_predict. rewrite !predict_instance_raw, Hg, Hg2, Hlr, Hlr2.
  assert (Fm : Forall (finite_out nt row) (m_trees m)) by (rewrite <- (firstn_all (m_trees m)), HT; exact (trained_finite nc nt d _ cfg n lr m W Hl E n (le_n n) row Hrow)).
  assert (F2 : Forall (finite_out nt row) (m_trees m2)) by (rewrite <- (firstn_all (m_trees m2)), HT2; exact (trained_finite nc nt d _ cfg _ lr m2 W Hl E2 _ (le_n _) row Hrow)).
  destruct (finite_outs nt row _ Fm) as (os & A & B).
  destruct (Req_dec lr 0) as [->|H0].
  - destruct (finite_outs nt row _ F2) as (os2 & A2 & B2).
    rewrite (raw_real nt 0 _ row _ os (means_length nt ls) A B), (raw_real nt 0 _ row _ os2 (means_length nt ls) A2 B2).
    assert (Z : forall os p, length p = nt -> Forall (fun o : list R => length o = nt) os -> fold_left (vstep 0) os p = p).
    { clear. induction os as [|o os IH]; intros p Lp Ho; auto. inversion Ho; subst. cbn [fold_left].
      assert (Z1 : vstep 0 p o = p).
      { clear -H1. unfold vstep. revert o H1. induction p as [|x p IH]; intros [|y o] H1; try discriminate; auto. cbn [map2]. f_equal; [ring|]. apply IH. auto. }
      rewrite Z1. apply IH; auto. }
    now rewrite !Z by (auto; apply means_length).
  - destruct (stalled_trees n k m m' m2 e H0 H2 E E' S S' E2) as (t & T & Z). rewrite T.
    rewrite (raw_real nt lr _ row _ os (means_length nt ls) A B).
    rewrite (raw_real nt lr _ row _ (os ++ repeat (zeros nt) k) (means_length nt ls)).
    + rewrite fold_left_app, steps_zero; auto. destruct (fold_step_Fin nt lr os _ (means_length nt ls) A) as [_ L]. exact L.
    + apply Forall_app. split; auto. apply Forall_forall. intros o Ho. apply repeat_spec in Ho. subst. apply zeros_length.
    + apply Forall2_app; auto. specialize (Z row Hrow). clear -Z. induction k as [|k IH]; constructor; auto.
Qed.

End Stall.
