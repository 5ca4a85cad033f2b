(** What one boosting stage does to the training error, in exact arithmetic (C67). *)
From Coq Require Import Reals Lra Permutation.
From Verif Require Import Base Num ModelCommon ModelTree ModelBoost Lib XR Spec SpecTree SpecExact SpecScore SpecFit SpecError SpecStage ProofReal ProofData
  ProofSplit ProofSplit2 ProofTree ProofTree3 ProofScore ProofSplitExact ProofSplitExact2 ProofTreeExact ProofScoreExact ProofBoost ProofBoost2 ProofLeaf ProofBoostExact ProofBalance.
Local Open Scope R_scope.

Lemma Forall2_map_r {A B} (P : A -> B -> Prop) (g : A -> B) l : (forall x, In x l -> P x (g x)) -> Forall2 P l (map g l).
Proof. induction l as [|x l IH]; intros H; constructor; [apply H; now left|]. apply IH. intros; apply H; now right. Qed.

Section Stage.
Variables (nc nt : nat) (d : @dataset xr_ops) (ls : list (list R)) (cfg : @tree_config xr_ops) (lr : R).
Hypotheses (W : wf_dataset nc nt d) (Hl : real_labels ls d) (Hk : (0 < nt)%nat).

Let rows := feature_rows d.
Let rd ps := mkDS (O := xr_ops) (feature_rows d) (map (map Fin) (map2 vsub ls ps)) (feature_columns d).

Definition predicts (m : @regression_boost_model xr_ops) (ps : list (list R)) : Prop :=
  Forall2 (fun row p => regression_boost_predict m row = Ok (map Fin p) /\ length p = nt) rows ps.

Lemma predicts_unique m ps ps' : predicts m ps -> predicts m ps' -> ps' = ps.
Proof.
  unfold predicts. intros H. revert ps'. induction H as [|row p rs' ps [A _] H IH]; intros ps' H'; inversion H' as [|? p' ? ps2 [A' _] H2]; subst; auto.
  f_equal; [|now apply IH]. rewrite A in A'. injection A' as A'. apply (f_equal (map xval)) in A'. rewrite !map_xval_Fin in A'. congruence.
Qed.

(** The tree of stage [n]. *)
Lemma stage n m m' :
  regression_boost_train d cfg n (Fin lr) = Ok m -> regression_boost_train d cfg (S n) (Fin lr) = Ok m' ->
  exists ps t, predicts m ps /\ nth_error (m_trees m') n = Some t /\
    grad_boost_tree_new (rd ps) cfg (leaf_output_calculator_new Regression) = Ok t /\
    wf_dataset nc nt (rd ps) /\ real_labels (map2 vsub ls ps) (rd ps) /\
    (forall row, In row rows -> @gb_out xr_ops row t = Ok (map Fin (rout t row)) /\ length (rout t row) = nt) /\
    predicts m' (map2 (vstep lr) ps (map (rout t) rows)) /\
    regression_boost_score m d = Ok (Fin (Rsum (map (fun p => sq nt 0 [] (snd p)) (combine rows (map2 vsub ls ps))) / INR nt / INR (length ls))) /\
    regression_boost_score m' d = Ok (Fin (Rsum (map (fun p => sq nt lr (rout t (fst p)) (snd p)) (combine rows (map2 vsub ls ps))) / INR nt / INR (length ls))).
Proof.
  intros E E'. destruct (last_stage nc nt d ls cfg n lr m m' W Hl Hk E E') as (ps & t & rd' & HL & Rp & Erd & Wr & Hr & HP & Eb & Hout & S1 & S2).
  destruct (guess_real _ _ _ _ _ _ _ _ W Hl E') as (Hg & Hlr & HT).
  destruct (regression_stage d cfg (S n) (Fin lr) m' n (wf_lengths _ _ _ W) E' ltac:(lia)) as (preds & t' & Ep & _ & Ht & Eb').
  assert (Em : first_trees n m' = m).
  { pose proof (regression_prefix d cfg (S n) n (Fin lr) m' ltac:(lia) E') as P. rewrite P in E. now injection E. }
  unfold regression_boost_all_predictions in Ep. rewrite all_predictions_eq, Em in Ep. apply (Forall2_real nt _ _ ps) in Ep; auto. subst preds rd'.
  assert (ED : mkDS (feature_rows d) (differences (labels d) (map (map Fin) ps)) (feature_columns d) = rd ps).
  { unfold rd. f_equal. etransitivity; [|apply differences_Fin]. now rewrite <- Hl. }
  xr. rewrite ED in Eb'. assert (t' = t) by (unfold rd in Eb'; congruence). subst t'.
  assert (Hrows : forall row, In row rows -> (nc <= length row)%nat) by (intros; eapply row_long; eauto).
  exists ps, t. split; [exact HP|]. split; [exact Ht|]. split; [exact Eb|]. split; [exact Wr|]. split; [exact Hr|].
  split; [auto|]. split; [|split; [exact S1|exact S2]].
  assert (Em' : first_trees (S n) m' = m') by (unfold first_trees; rewrite <- HT, firstn_all; now destruct m').
  unfold predicts in *. fold rows in HP. rewrite <- Em in HP. revert HP Hrows. clearbody rows. clear -Ht Hlr Em' Hout E'.
  intros HP. induction HP as [|row p rows ps [A B] HP IH]; intros Hrows; cbn [map map2]; constructor.
  - destruct (Hout row) as [Ho Lo]; [apply Hrows; now left|]. split; [rewrite <- Em'; eapply next_prediction; eauto|].
    rewrite vstep_length; congruence.
  - apply IH. intros; apply Hrows; now right.
Qed.

(** The outputs of the tree and the residuals it was fitted to. *)
Lemma stage_balance ps t : 
  grad_boost_tree_new (rd ps) cfg (leaf_output_calculator_new Regression) = Ok t -> wf_dataset nc nt (rd ps) -> real_labels (map2 vsub ls ps) (rd ps) ->
  (forall row, In row rows -> @gb_out xr_ops row t = Ok (map Fin (rout t row)) /\ length (rout t row) = nt) ->
  forall (f : R -> R) j, (j < nt)%nat ->
  Rsum (map (fun p => f (nth j (rout t (fst p)) 0) * (nth j (rout t (fst p)) 0 - nth j (snd p) 0)) (combine rows (map2 vsub ls ps))) = 0.
Proof.
  intros Eb Wr Hr Hout f j Hj. rewrite grad_boost_tree_new_eq in Eb. apply build_with_built in Eb. pose proof (real_rl _ _ Hr) as Erl. rewrite <- Erl in Hr.
  pose proof (balanced nc nt _ gl_val (mk_gb_val nc nt) cfg _ _ t f j Eb Wr Hr Hj) as Bal.
  assert (Ers : rs (rd ps) = combine rows (map2 vsub ls ps)).
  { unfold rd, rs, samples, rows. cbn [feature_rows labels]. generalize (map2 vsub ls ps). xr. generalize (feature_rows d). clear.
    induction l as [|r rows IH]; intros [|x l]; cbn; auto. unfold rp at 1. cbn. rewrite map_xval_Fin. f_equal. apply IH. }
  rewrite Ers in Bal. etransitivity; [|exact Bal]. apply Rsum_map_ext. intros [row y] Hin. cbn [fst snd]. apply in_combine_l in Hin.
  destruct (Hout row Hin) as [Eo _].
  assert (Hrow : (nc <= length row)%nat) by (eapply row_long; eauto).
  destruct (looked_up_out nc nt cfg _ _ t row Eb Wr Hr Hrow) as [Eo' _]. rewrite (rout_eq _ _ _ Eo'). reflexivity.
Qed.

Lemma rout_mean ps t : length ps = length ls -> rectangular nt ps -> rectangular nt ls -> length rows = length ls ->
  (forall j, (j < nt)%nat -> Rsum (target j ps) = Rsum (target j ls)) ->
  (forall (f : R -> R) j, (j < nt)%nat ->
  Rsum (map (fun p => f (nth j (rout t (fst p)) 0) * (nth j (rout t (fst p)) 0 - nth j (snd p) 0)) (combine rows (map2 vsub ls ps))) = 0) ->
  forall j, (j < nt)%nat -> Rsum (target j (map (rout t) rows)) = 0.
Proof.
  intros HL Rp Rl HLr HM Bal j Hj. specialize (Bal (fun _ => 1) j Hj). cbv beta in Bal. specialize (HM j Hj).
  assert (K : Rsum (target j (map (rout t) rows)) =
    Rsum (map (fun p => 1 * (nth j (rout t (fst p)) 0 - nth j (snd p) 0)) (combine rows (map2 vsub ls ps))) + (Rsum (target j ls) - Rsum (target j ps))).
  { clear -HL HLr Rl Rp Hj. clearbody rows. revert ps ls HL HLr Rl Rp.
    induction rows as [|row rs' IH]; intros [|p ps] [|l ls] HL HLr Rl Rp; try discriminate; [cbn; ring|].
    injection HL as HL. injection HLr as HLr. pose proof (Forall_inv Rl) as H1. pose proof (Forall_inv Rp) as H2. cbv beta in H1, H2.
    cbn [combine map map2 fst snd target]. rewrite !Rsum_cons.
    fold (target j ls). fold (target j ps). fold (target j (map (rout t) rs')).
    rewrite (IH ps ls) by (auto; eapply Forall_inv_tail; eauto).
    assert (Hv : nth j (vsub l p) 0 = nth j l 0 - nth j p 0) by (apply nth_map2; lia). rewrite Hv. ring. }
  rewrite K, Bal, HM. ring.
Qed.

(** Sum of squares of vectors that average to zero. *)
Lemma variance_centred l : l <> [] -> Rsum l = 0 -> INR (length l) * variance l = Rsum (map (fun x => x * x) l).
Proof.
  intros Hne H. rewrite sse_variance. unfold sse, dev. assert (M : mean l = 0) by (unfold mean; rewrite H; unfold Rdiv; ring).
  rewrite M. apply Rsum_map_ext. intros. ring.
Qed.

Lemma sq_total os : os <> [] -> (forall j, (j < nt)%nat -> Rsum (target j os) = 0) ->
  INR (length os) * total_variance nt os = Rsum (map (fun o => Rsum (map (fun j => nth j o 0 * nth j o 0) (seq 0 nt))) os).
Proof.
  intros Hne H. rewrite (Rsum_swap (fun o j => nth j o 0 * nth j o 0) os (seq 0 nt)). unfold total_variance. rewrite <- Rsum_map_mult.
  apply Rsum_map_ext. intros j Hj. apply in_seq in Hj.
  assert (Hn : target j os <> []) by (intros E; apply map_eq_nil in E; contradiction).
  pose proof (variance_centred (target j os) Hn (H j ltac:(lia))) as V. rewrite target_length in V. rewrite V. unfold target. now rewrite map_map.
Qed.

Theorem stage_error n m m' :
  regression_boost_train d cfg n (Fin lr) = Ok m -> regression_boost_train d cfg (S n) (Fin lr) = Ok m' ->
  exists t ps os e, nth_error (m_trees m') n = Some t /\
    grad_boost_tree_new (rd ps) cfg (leaf_output_calculator_new Regression) = Ok t /\
    predicts m ps /\ outputs t rows os /\ rectangular nt os /\ predicts m' (map2 (vstep lr) ps os) /\
    (forall j, (j < nt)%nat -> mean (target j os) = 0) /\
    regression_boost_score m d = Ok (Fin e) /\
    regression_boost_score m' d = Ok (Fin (e - lr * (2 - lr) * (total_variance nt os / INR nt))).
Proof.
  intros E E'. destruct (stage n m m' E E') as (ps & t & HP & Ht & Eb & Wr & Hr & Hout & HP' & S1 & S2).
  destruct (real_rect nc nt d ls W Hl) as [Rl Hne]. pose proof (xr_len _ _ _ _ W Hl) as HLr. fold rows in HLr.
  pose proof (Forall2_rect _ _ _ _ HP) as Rp.
  assert (HL : length ps = length ls) by (rewrite <- (Forall2_length _ _ _ HP); exact HLr).
  pose proof (stage_balance ps t Eb Wr Hr Hout) as Bal.
  assert (HM : forall j, (j < nt)%nat -> Rsum (target j ps) = Rsum (target j ls)).
  { destruct (ensemble_balance nc nt d ls cfg n lr m W Hl E) as (ps2 & E2 & _ & M2).
    assert (ps2 = ps).
    { pose proof (eq_trans (eq_sym E2) (Forall2_mapM _ _ _ _ _ HP)) as E3. clear E2. injection E3 as E2. apply (f_equal (map (map xval))) in E2.
      rewrite !map_map in E2. rewrite !(map_ext _ _ (fun l => map_xval_Fin l)), !map_id in E2. congruence. }
    subst ps2. intros j Hj. specialize (M2 j Hj). unfold mean in M2. rewrite !target_length, HL in M2.
    assert (INR (length ls) <> 0) by (apply not_0_INR; destruct ls; [congruence|discriminate]).
    apply (f_equal (fun x => x * INR (length ls))) in M2. unfold Rdiv in M2. rewrite !Rmult_assoc, !Rinv_l, !Rmult_1_r in M2 by auto. exact M2. }
  pose proof (rout_mean ps t HL Rp Rl HLr HM Bal) as HZ.
  exists t, ps, (map (rout t) rows), (Rsum (map (fun p => sq nt 0 [] (snd p)) (combine rows (map2 vsub ls ps))) / INR nt / INR (length ls)).
  split; [exact Ht|]. split; [exact Eb|]. split; [exact HP|]. split.
  { unfold outputs. apply Forall2_map_r. intros row Hin. destruct (Hout row Hin) as [Eo _]. unfold gb_out in Eo.
    apply bind_Ok in Eo as (l & Ef & El). exists l. split; auto. destruct (gl_output l); [|discriminate]. cbn in El. now injection El as ->. }
  split. { unfold rectangular. rewrite Forall_map, Forall_forall. intros row Hin. now apply Hout. }
  split; [exact HP'|]. split. { intros j Hj. unfold mean. rewrite (HZ j Hj). unfold Rdiv. ring. }
  split; [exact S1|]. rewrite S2. do 2 f_equal.
  assert (Hnt : INR nt <> 0) by (apply not_0_INR; lia).
  assert (Hn : INR (length ls) <> 0) by (apply not_0_INR; destruct ls; [congruence|discriminate]).
  assert (Hno : map (rout t) rows <> []) by (intros H; apply map_eq_nil in H; rewrite H in HLr; destruct ls; [congruence|discriminate]).
  pose proof (sq_total (map (rout t) rows) Hno HZ) as V. xr. rewrite map_length, map_map in V. replace (length rows) with (length ls) in V by (symmetry; exact HLr).
  assert (K : Rsum (map (fun p => sq nt lr (rout t (fst p)) (snd p)) (combine rows (map2 vsub ls ps))) =
    Rsum (map (fun p => sq nt 0 [] (snd p)) (combine rows (map2 vsub ls ps)))
    - lr * (2 - lr) * Rsum (map (fun row => Rsum (map (fun j => nth j (rout t row) 0 * nth j (rout t row) 0) (seq 0 nt))) rows)).
  { unfold sq.
    set (C := combine rows (map2 vsub ls ps)).
    rewrite (Rsum_swap (fun p j => (nth j (snd p) 0 - lr * nth j (rout t (fst p)) 0) * (nth j (snd p) 0 - lr * nth j (rout t (fst p)) 0)) C (seq 0 nt)).
    rewrite (Rsum_swap (fun p j => (nth j (snd p) 0 - 0 * nth j [] 0) * (nth j (snd p) 0 - 0 * nth j [] 0)) C (seq 0 nt)).
    rewrite (Rsum_swap (fun row j => nth j (rout t row) 0 * nth j (rout t row) 0) rows (seq 0 nt)).
    unfold Rminus at 3. rewrite Ropp_mult_distr_l, <- Rsum_map_mult, <- Rsum_map_plus. apply Rsum_map_ext. intros j Hj. apply in_seq in Hj.
    assert (Er : rows = map fst C).
    { unfold C. rewrite map_fst_combine; auto. rewrite map2_length. lia. }
    rewrite Er at 1. rewrite map_map.
    specialize (Bal (fun x => 2 * lr * x) j ltac:(lia)). cbv beta in Bal. fold C in Bal.
    transitivity (Rsum (map (fun p => (nth j (snd p) 0 - 0 * nth j [] 0) * (nth j (snd p) 0 - 0 * nth j [] 0)) C)
      + (- (lr * (2 - lr))) * Rsum (map (fun p => nth j (rout t (fst p)) 0 * nth j (rout t (fst p)) 0) C)
      + Rsum (map (fun p => 2 * lr * nth j (rout t (fst p)) 0 * (nth j (rout t (fst p)) 0 - nth j (snd p) 0)) C)); [|rewrite Bal; ring].
    rewrite <- Rsum_map_mult, <- !Rsum_map_plus. apply Rsum_map_ext. intros p _. ring. }
  rewrite K, <- V. field. auto.
Qed.

(** No progress once, no progress ever. *)
Lemma zero_variance os : os <> [] -> rectangular nt os -> (forall j, (j < nt)%nat -> mean (target j os) = 0) -> total_variance nt os = 0 ->
  forall o, In o os -> o = repeat 0 nt.
Proof.
  intros Hne Rr HM HV o Ho.
  assert (Hn : INR (length os) <> 0) by (apply not_0_INR; destruct os; [congruence|discriminate]).
  assert (HZ : forall j, (j < nt)%nat -> Rsum (target j os) = 0).
  { intros j Hj. specialize (HM j Hj). unfold mean in HM. rewrite target_length in HM.
    apply (f_equal (fun x => x * INR (length os))) in HM. unfold Rdiv in HM. rewrite Rmult_assoc, Rinv_l, Rmult_1_r in HM by auto. lra. }
  pose proof (sq_total os Hne HZ) as V. rewrite HV, Rmult_0_r in V. symmetry in V.
  assert (V1 : Rsum (map (fun j => nth j o 0 * nth j o 0) (seq 0 nt)) = 0).
  { apply (Rsum_zero_all (map (fun o => Rsum (map (fun j => nth j o 0 * nth j o 0) (seq 0 nt))) os)); auto.
    - intros x Hx. apply in_map_iff in Hx as (o' & <- & _). apply Rsum_nonneg. intros y Hy. apply in_map_iff in Hy as (j & <- & _). apply Rle_0_sqr.
    - apply in_map_iff. eauto. }
  assert (Lo : length o = nt) by exact (proj1 (Forall_forall _ _) Rr o Ho).
  apply (nth_ext _ _ 0 0); [now rewrite repeat_length|]. intros j Hj. rewrite nth_repeat.
  assert (Z : nth j o 0 * nth j o 0 = 0).
  { apply (Rsum_zero_all _ ltac:(intros x Hx; apply in_map_iff in Hx as (i & <- & _); apply Rle_0_sqr) V1).
    apply in_map_iff. exists j. split; auto. apply in_seq. lia. }
  apply Rmult_integral in Z. tauto.
Qed.

Lemma vstep_zeros ps os : length os = length ps -> rectangular nt ps -> (forall o, In o os -> o = repeat 0 nt) -> map2 (vstep lr) ps os = ps.
Proof.
  revert os. induction ps as [|p ps IH]; intros [|o os] HL Rp Ho; try discriminate; auto. cbn [map2].
  pose proof (Forall_inv Rp) as Lp. cbv beta in Lp. f_equal.
  - rewrite (Ho o (or_introl eq_refl)). unfold vstep. apply (nth_ext _ _ 0 0); [rewrite map2_length, repeat_length; lia|].
    intros j Hj. rewrite map2_length, repeat_length in Hj. rewrite nth_map2 by (rewrite ?repeat_length; lia). rewrite nth_repeat. ring.
  - apply IH; [now injection HL|eapply Forall_inv_tail; eauto|]. intros; apply Ho; now right.
Qed.

Lemma outputs_unique t rs' os os' : outputs t rs' os -> outputs t rs' os' -> os' = os.
Proof.
  unfold outputs. intros H. revert os'. induction H as [|row o rs' os (l & A & B) H IH]; intros os' H'; inversion H' as [|? o' ? os2 (l' & A' & B') H2]; subst; auto.
  f_equal; [|now apply IH]. rewrite A in A'. injection A' as <-. rewrite B in B'. injection B' as B'. apply (f_equal (map xval)) in B'. rewrite !map_xval_Fin in B'. congruence.
Qed.

Theorem stalled n k m m' m2 e :
  regression_boost_train d cfg n (Fin lr) = Ok m -> regression_boost_train d cfg (S n) (Fin lr) = Ok m' ->
  regression_boost_score m d = Ok (Fin e) -> regression_boost_score m' d = Ok (Fin e) ->
  regression_boost_train d cfg (n + k) (Fin lr) = Ok m2 -> regression_boost_score m2 d = Ok (Fin e).
Proof.
  intros E E' S S' E2.
  assert (Hpre : forall j, (j <= k)%nat -> regression_boost_train d cfg (n + j) (Fin lr) = Ok (first_trees (n + j) m2)).
  { intros j Hj. exact (regression_prefix d cfg (n + k) (n + j) (Fin lr) m2 ltac:(lia) E2). }
  destruct (stage_error n m m' E E') as (t & ps & os & e0 & Ht & Eb & HP & HO & Ro & HP' & HM & S1 & S2).
  rewrite S in S1. injection S1 as <-. rewrite S' in S2. injection S2 as S2.
  assert (Hnt : 0 < INR nt) by (apply lt_0_INR; lia).
  destruct (Req_dec (lr * (2 - lr)) 0) as [Hz|Hnz].
  - (* the rate is 0 or 2 *)
    assert (G : forall j, (j <= k)%nat -> regression_boost_score (first_trees (n + j) m2) d = Ok (Fin e)).
    { induction j as [|j IH]; intros Hj.
      - pose proof (Hpre 0%nat ltac:(lia)) as P. rewrite Nat.add_0_r in *. rewrite E in P. injection P as <-. exact S.
      - specialize (IH ltac:(lia)). pose proof (Hpre j ltac:(lia)) as P1. pose proof (Hpre (Datatypes.S j) Hj) as P2. rewrite Nat.add_succ_r in *.
        destruct (stage_error _ _ _ P1 P2) as (t2 & ps2 & os2 & e2 & _ & _ & _ & _ & _ & _ & _ & T1 & T2).
        rewrite IH in T1. injection T1 as <-. rewrite T2. do 2 f_equal. rewrite Hz. ring. }
    specialize (G k (le_n k)). pose proof (Hpre k (le_n k)) as P. rewrite E2 in P. injection P as P. rewrite <- P in G. exact G.
  - (* the tree gives 0 on every training row *)
    assert (HV : total_variance nt os = 0).
    { assert (Hv : total_variance nt os / INR nt = 0). { apply Rmult_eq_reg_l with (lr * (2 - lr)); auto. lra. }
      apply (f_equal (fun x => x * INR nt)) in Hv. unfold Rdiv in Hv. rewrite Rmult_assoc, Rinv_l, Rmult_1_r in Hv by lra. lra. }
    destruct (real_rect nc nt d ls W Hl) as [Rl Hne]. pose proof (xr_len _ _ _ _ W Hl) as HLr. fold rows in HLr.
    assert (HLo : length os = length ls) by (rewrite <- (Forall2_length _ _ _ HO); exact HLr).
    assert (HLp : length ps = length ls) by (rewrite <- (Forall2_length _ _ _ HP); exact HLr).
    assert (Ho : os <> []) by (intros H; rewrite H in HLo; destruct ls; [congruence|discriminate]).
    pose proof (zero_variance os Ho Ro HM HV) as HZ.
    pose proof (Forall2_rect _ _ _ _ HP) as Rp.
    assert (G : forall j, (j <= k)%nat -> predicts (first_trees (n + j) m2) ps).
    { induction j as [|j IH]; intros Hj.
      - pose proof (Hpre 0%nat ltac:(lia)) as P. rewrite Nat.add_0_r in *. rewrite E in P. injection P as P. rewrite <- P. exact HP.
      - specialize (IH ltac:(lia)). pose proof (Hpre j ltac:(lia)) as P1. pose proof (Hpre (Datatypes.S j) Hj) as P2. rewrite Nat.add_succ_r in *.
        destruct (stage_error _ _ _ P1 P2) as (t2 & ps2 & os2 & e2 & _ & Eb2 & Q1 & Q2 & _ & Q3 & _).
        rewrite (predicts_unique _ _ _ IH Q1) in *. rewrite Eb in Eb2. injection Eb2 as <-. rewrite (outputs_unique _ _ _ _ HO Q2) in Q3.
        rewrite vstep_zeros in Q3; auto. lia. }
    specialize (G k (le_n k)). pose proof (Hpre k (le_n k)) as P. rewrite E2 in P. injection P as P. rewrite <- P in G.
    rewrite (boost_score_exact nt m2 d ls ps Hk Hl Hne Rl G HLr). rewrite <- (boost_score_exact nt m d ls ps Hk Hl Hne Rl HP HLr). exact S.
Qed.

Theorem outside_range n m m' : lr <= 0 \/ 2 <= lr ->
  regression_boost_train d cfg n (Fin lr) = Ok m -> regression_boost_train d cfg (S n) (Fin lr) = Ok m' ->
  exists e e', regression_boost_score m d = Ok (Fin e) /\ regression_boost_score m' d = Ok (Fin e') /\ e <= e'.
Proof.
  intros Hr E E'. destruct (stage_error n m m' E E') as (t & ps & os & e & _ & _ & _ & _ & _ & _ & _ & S1 & S2).
  eexists _, _. split; [exact S1|]. split; [exact S2|].
  assert (0 <= total_variance nt os / INR nt).
  { apply Rmult_le_pos; [apply total_variance_nonneg|]. left. apply Rinv_0_lt_compat, lt_0_INR. lia. }
  assert (lr * (2 - lr) <= 0). { destruct Hr; [|]; nra. }
  nra.
Qed.
End Stage.

(** The statement with its own vocabulary. *)
Theorem stage_error' nc nt (d : @dataset xr_ops) ls cfg n lr m m' :
  wf_dataset nc nt d -> real_labels ls d -> (0 < nt)%nat ->
  regression_boost_train d cfg n (Fin lr) = Ok m -> regression_boost_train d cfg (S n) (Fin lr) = Ok m' ->
  exists t os e, nth_error (m_trees m') n = Some t /\ outputs t (feature_rows d) os /\ rectangular nt os /\
    (forall j, (j < nt)%nat -> mean (target j os) = 0) /\
    regression_boost_score m d = Ok (Fin e) /\
    regression_boost_score m' d = Ok (Fin (e - lr * (2 - lr) * (total_variance nt os / INR nt))).
Proof.
  intros W Hl Hk E E'. destruct (stage_error nc nt d ls cfg lr W Hl Hk n m m' E E') as (t & ps & os & e & A & _ & _ & B & C & _ & D & S1 & S2).
  exists t, os, e. auto 10.
Qed.

Theorem rates_mirrored nc nt (d : @dataset xr_ops) ls cfg lr m m' m2 :
  wf_dataset nc nt d -> real_labels ls d -> (0 < nt)%nat ->
  regression_boost_train d cfg 0 (Fin lr) = Ok m -> regression_boost_train d cfg 1 (Fin lr) = Ok m' ->
  regression_boost_train d cfg 1 (Fin (2 - lr)) = Ok m2 -> regression_boost_score m2 d = regression_boost_score m' d.
Proof.
  intros W Hl Hk E E' E2.
  pose proof (regression_prefix d cfg 1 0 (Fin (2 - lr)) m2 ltac:(lia) E2) as E20.
  destruct (stage_error nc nt d ls cfg lr W Hl Hk 0 m m' E E') as (t & ps & os & e & _ & Eb & HP & HO & _ & _ & _ & S1 & S2).
  destruct (stage_error nc nt d ls cfg (2 - lr) W Hl Hk 0 _ m2 E20 E2) as (t2 & ps2 & os2 & e2 & _ & Eb2 & HP2 & HO2 & _ & _ & _ & S12 & S22).
  destruct (real_rect nc nt d ls W Hl) as [Rl Hne]. pose proof (xr_len _ _ _ _ W Hl) as HLr.
  assert (Hp : ps2 = ps).
  { destruct (guess_real _ _ _ _ _ _ _ _ W Hl E) as (Hg & _ & HT). destruct (guess_real _ _ _ _ _ _ _ _ W Hl E2) as (Hg2 & _ & _).
    assert (P : forall row, regression_boost_predict m row = regression_boost_predict (first_trees 0 m2) row).
    { intros row. unfold regression_boost_predict. rewrite !predict_instance_raw. cbn [first_trees m_trees m_initial_guess m_learning_rate firstn].
      assert (m_trees m = []) as -> by (destruct (m_trees m); [reflexivity|discriminate]). rewrite Hg, Hg2. reflexivity. }
    apply (predicts_unique nt d m); [exact HP|]. unfold predicts in *. eapply Forall2_impl; [|exact HP2]. cbv beta. intros row p [A B]. now rewrite P. }
  subst ps2. rewrite Eb in Eb2. injection Eb2 as <-. rewrite (outputs_unique _ _ _ _ HO HO2) in S22.
  pose proof (boost_score_exact nt m d ls ps Hk Hl Hne Rl HP HLr) as F1. rewrite S1 in F1. injection F1 as ->.
  pose proof (boost_score_exact nt _ d ls ps Hk Hl Hne Rl HP2 HLr) as F2. rewrite S12 in F2. injection F2 as ->.
  rewrite S2, S22. do 2 f_equal. ring.
Qed.
