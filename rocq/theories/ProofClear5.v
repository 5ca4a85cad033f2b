(** A regression ensemble whose decisions are clear: binary64, from labels with a little noise, and exact arithmetic
    from the true labels agree up to the noise and rounding (C91, C93). *)
From Coq Require Import Reals Lra Lia ZArith.
From Flocq Require Import Core.
From Flocq Require Import IEEE754.BinarySingleNaN.
From Verif Require Import Base Num ModelCommon ModelTree ModelBoost Lib Spec SpecTree F64 XR SpecExact SpecInt SpecNear SpecNode SpecScore SpecPredict SpecClear ProofReal ProofRound ProofError ProofData ProofTree
  ProofScore ProofBoost ProofTreeExact ProofBoostExact ProofInt ProofInt2 ProofNear3 ProofNode SpecFitFloat ProofSort ProofFitFloat ProofPredict ProofLeaf ProofAnswers ProofClear ProofClear2 ProofClear3 ProofClear4.
Local Open Scope R_scope.

Lemma start_algebra (u v z q c e : R) : Rabs (v - q) <= c + e -> Rabs (u - z) <= c -> Rabs (u - v - (z - q)) <= 2 * c + e.
Proof. intros H H'. replace (u - v - (z - q)) with ((u - z) + - (v - q)) by ring. eapply Rle_trans; [apply Rabs_triang|]. rewrite Rabs_Ropp. lra. Qed.

Lemma mean_near (a b : list R) (c : R) : 0 <= c -> Forall2 (fun x y => Rabs (x - y) <= c) a b -> Rabs (mean a - mean b) <= c.
Proof.
  intros c0 H. destruct a as [|x0 a0]; [inversion H; subst; rewrite Rminus_diag_eq, Rabs_R0 by reflexivity; exact c0|].
  set (l := x0 :: a0) in *. assert (Hl : l <> []) by discriminate. clearbody l.
  assert (Hs : Rabs (Rsum l - Rsum b) <= INR (length l) * c).
  { clear Hl. induction H as [|x y l b Hxy H IH]; [cbn; rewrite Rminus_diag_eq, Rabs_R0 by reflexivity; lra|].
    rewrite !Rsum_cons. change (length (x :: l)) with (S (length l)). rewrite S_INR.
    replace (x + Rsum l - (y + Rsum b)) with ((x - y) + (Rsum l - Rsum b)) by ring. eapply Rle_trans; [apply Rabs_triang|]. lra. }
  unfold mean. rewrite <- (Forall2_length _ _ _ H).
  assert (0 < INR (length l)) by (apply lt_0_INR; destruct l; [now contradiction Hl|cbn; lia]).
  unfold Rdiv. rewrite <- Rmult_minus_distr_r, Rabs_mult, (Rabs_pos_eq (/ _)) by (left; now apply Rinv_0_lt_compat).
  apply Rmult_le_reg_r with (INR (length l)); [assumption|]. rewrite Rmult_assoc, Rinv_l, Rmult_1_r by lra. lra.
Qed.

Lemma nth_near (a : list f64) (b : list R) c j : 0 <= c -> Forall2 (fun (x : f64) y => Rabs (B2R x - y) <= c) a b -> Rabs (B2R (nth j a (B754_zero false)) - nth j b 0) <= c.
Proof.
  intros c0 H. revert j. induction H as [|x y a b Hxy H IH]; intros [|j]; cbn [nth]; auto; cbn [B2R]; rewrite Rminus_diag_eq, Rabs_R0 by reflexivity; exact c0.
Qed.

Lemma unpair_nth {A C} (a : list A) (b : list C) i x y : nth_error (combine a b) i = Some (x, y) -> nth_error a i = Some x /\ nth_error b i = Some y.
Proof. revert b i. induction a as [|u a IH]; intros [|v b] [|i] H; try discriminate; cbn in *; [injection H as -> ->; auto|auto]. Qed.

Lemma Forall2_map_both {A B C D} (f : A -> C) (g : B -> D) (R : C -> D -> Prop) a b : Forall2 (fun x y => R (f x) (g y)) a b -> Forall2 R (map f a) (map g b).
Proof. induction 1; cbn [map]; constructor; auto. Qed.

Section Run.
Context (P : platform).
Local Notation FO := (f64_ops P).
Context (nc nt : nat) (d : @dataset FO) (x0 : @dataset xr_ops) (xs : list (list R)) (cfg : @tree_config FO) (cfg' : @tree_config xr_ops) (n : nat) (lr : f64)
  (m : @regression_boost_model FO) (me : @regression_boost_model xr_ops) (B nu : R).
Let N := length (labels d).
Let B' := (1 + 4 * sqrt (INR N)) * B.
Let e := bpow radix2 (-48) * INR (N + 2) * B'.
Let margin := 2 * real_gain_error nt N (4 * B') + 128 * INR nt * B' * (sqrt (INR N) * (2 * nu + INR (n + 2) * e)).
Hypothesis W : @wf_dataset FO nc nt d.
Hypothesis r_Wx : @wf_dataset xr_ops nc nt x0.
Hypothesis Fx0 : feature_rows x0 = map (map exact_value) (feature_rows d).
Hypothesis r_Hl : real_labels xs x0.
Hypothesis Hnu : 0 <= nu <= B.
Hypothesis Hnoise : Forall2 (Forall2 (fun (y : f64) z => Rabs (B2R y - z) <= nu)) (labels d) xs.
Hypothesis HN : (Z.of_nat N <= 2 ^ 20)%Z.
Hypothesis Fl : is_finite lr = true.
Hypothesis Hlr : 0 <= B2R lr <= 2.
Hypothesis HB : bpow radix2 (-400) <= B <= bpow radix2 300.
Hypothesis HL : within B (labels d).
Hypothesis Hnt : (Z.of_nat nt <= 2 ^ 40)%Z.
Hypothesis Sc : standard cfg.
Hypothesis Sc' : standard cfg'.
Hypothesis C : tc_number_of_classes cfg = N.of_nat nt.
Hypothesis C' : tc_number_of_classes cfg' = N.of_nat nt.
Hypothesis M : tc_max_levels cfg' = tc_max_levels cfg.
Hypothesis E : @regression_boost_train FO d cfg n lr = Ok m.
Hypothesis Ex : @regression_boost_train xr_ops x0 cfg' n (Fin (B2R lr)) = Ok me.
Hypothesis Hn : INR n * e <= B.
Hypothesis Hclear : forall row k, In row (feature_rows d) -> (k < n)%nat -> clear_stage margin nc nt (tc_max_levels cfg) x0 me k (map exact_value row).

Lemma r_N1 : (1 <= N)%nat.
Proof. unfold N. rewrite (wf_lengths _ _ _ W). pose proof (wf_nonempty _ _ _ W) as H. destruct (feature_rows d); [now contradiction H|cbn; lia]. Qed.

Lemma r_N40 : (Z.of_nat N <= 2 ^ 40)%Z.
Proof. eapply Z.le_trans; [exact HN|]. lia. Qed.

Lemma r_root : 1 <= sqrt (INR N) <= bpow radix2 10.
Proof.
  split; [exact (proj1 (sqrt_count N r_N1 r_N40))|].
  rewrite <- (sqrt_square (bpow radix2 10)) by apply bpow_ge_0. apply sqrt_le_1_alt. rewrite <- bpow_plus. change (10 + 10)%Z with 20%Z.
  rewrite INR_IZR_INZ, <- (IZR_Zpower radix2 20) by lia. apply IZR_le. exact HN.
Qed.

Lemma r_B0 : 0 < B.
Proof. pose proof (bpow_gt_0 radix2 (-400)). lra. Qed.

Lemma r_BB : B <= B' /\ 5 * B <= B' /\ 4 * (sqrt (INR N) * B) <= B'.
Proof.
  destruct r_root as [Q1 _]. pose proof r_B0 as B0. unfold B'. assert (0 <= (sqrt (INR N) - 1) * B) by (apply Rmult_le_pos; lra). lra.
Qed.

Lemma r_HB' : bpow radix2 (-400) <= B' <= bpow radix2 398.
Proof.
  destruct r_BB as [H1 _]. split; [lra|]. destruct (sqrt_count N r_N1 r_N40) as [Q1 Q2]. pose proof r_B0 as B0.
  unfold B'. apply Rle_trans with (bpow radix2 23 * bpow radix2 300); [|rewrite <- bpow_plus; apply bpow_le; lia].
  apply Rmult_le_compat; try lra. replace (bpow radix2 23) with (8 * bpow radix2 20) by (change 23%Z with (3 + 20)%Z; rewrite bpow_plus; reflexivity). lra.
Qed.

Lemma r_HB4 : bpow radix2 (-400) <= B' <= bpow radix2 400.
Proof. destruct r_HB' as [H1 H2]. split; [exact H1|]. eapply Rle_trans; [exact H2|apply bpow_le; lia]. Qed.

Lemma r_HL' : within B' (labels d).
Proof. destruct r_BB as [H1 _]. eapply Forall_impl; [|exact HL]. intros v Hv. eapply Forall_impl; [|exact Hv]. intros x [Fx Bx]. split; [exact Fx|lra]. Qed.

Lemma r_e : e = (32 * INR N + 64) * (ulp1 * B').
Proof.
  unfold e. replace (bpow radix2 (-48)) with (32 * ulp1) by (unfold ulp1; change 32 with (bpow radix2 5); rewrite <- bpow_plus; reflexivity).
  rewrite plus_INR. cbn [INR]. ring.
Qed.

Lemma r_N0 : 1 <= INR N.
Proof. apply (le_INR 1). exact r_N1. Qed.

Lemma r_e96 : 96 * (ulp1 * B') <= e.
Proof. pose proof (uB_small B' r_HB4) as [U1 U2]. pose proof r_N0. rewrite r_e. apply Rmult_le_compat_r; lra. Qed.

Lemma r_e0 : 0 < e.
Proof. pose proof (uB_small B' r_HB4) as [U1 U2]. pose proof r_e96. lra. Qed.

(** Accumulated error of stage [k]. *)
Lemma r_eps k : (k < n)%nat ->
  sqrt (INR N) * (2 * nu + INR (k + 1) * e + 3 * (ulp1 * B')) <= sqrt (INR N) * (2 * nu + INR (k + 2) * e) /\
  sqrt (INR N) * (2 * nu + INR (k + 2) * e) <= sqrt (INR N) * (2 * nu + INR (n + 2) * e) /\ sqrt (INR N) * (2 * nu + INR (k + 2) * e) <= B'.
Proof.
  intros Hk. destruct r_root as [Q1 Q2]. pose proof r_e96 as H96. pose proof r_e0 as e0. pose proof (uB_small B' r_HB4) as [U1 U2].
  assert (Hkn : INR k + 1 <= INR n) by (replace (INR k + 1) with (INR (k + 1)) by (rewrite plus_INR; reflexivity); apply le_INR; lia).
  rewrite !plus_INR. cbn [INR]. pose proof (pos_INR k) as K0.
  split; [apply Rmult_le_compat_l; lra|]. split.
  - apply Rmult_le_compat_l; [lra|]. apply Rplus_le_compat_l. apply Rmult_le_compat_r; lra.
  - destruct r_BB as (_ & _ & H4).
    assert (He : bpow radix2 10 * e <= B' / 16).
    { unfold e. assert (HN2 : INR (N + 2) <= bpow radix2 21).
      { rewrite INR_IZR_INZ, <- (IZR_Zpower radix2 21) by lia. apply IZR_le. change (Zpower radix2 21) with (2 ^ 21)%Z. lia. }
      replace (bpow radix2 10 * (bpow radix2 (-48) * INR (N + 2) * B')) with ((bpow radix2 10 * bpow radix2 (-48) * INR (N + 2)) * B') by ring.
      apply Rle_trans with ((bpow radix2 10 * bpow radix2 (-48) * bpow radix2 21) * B').
      - apply Rmult_le_compat_r; [pose proof r_B0; lra|]. apply Rmult_le_compat_l; [|exact HN2]. apply Rmult_le_pos; apply bpow_ge_0.
      - rewrite <- !bpow_plus. replace (B' / 16) with (bpow radix2 (-4) * B') by (change (bpow radix2 (-4)) with (/ 16); field).
        apply Rmult_le_compat_r; [pose proof r_B0; lra|]. apply bpow_le. lia. }
    assert (sqrt (INR N) * ((INR k + (1 + 1)) * e) <= sqrt (INR N) * (INR n * e) + sqrt (INR N) * e).
    { rewrite <- Rmult_plus_distr_l. apply Rmult_le_compat_l; [lra|]. assert (INR k * e + e <= INR n * e); [|lra]. replace (INR k * e + e) with ((INR k + 1) * e) by ring. apply Rmult_le_compat_r; lra. }
    assert (sqrt (INR N) * (INR n * e) <= sqrt (INR N) * B) by (apply Rmult_le_compat_l; lra).
    assert (sqrt (INR N) * e <= bpow radix2 10 * e) by (apply Rmult_le_compat_r; lra). pose proof r_B0.
    assert (sqrt (INR N) * (2 * nu) <= 2 * (sqrt (INR N) * B)) by (replace (2 * (sqrt (INR N) * B)) with (sqrt (INR N) * (2 * B)) by ring; apply Rmult_le_compat_l; lra).
    rewrite Rmult_plus_distr_l. lra.
Qed.

Lemma r_margin k : (k < n)%nat ->
  2 * real_gain_error nt N (4 * B') + 2 * (16 * INR nt * (4 * B') * (sqrt (INR N) * (2 * nu + INR (k + 1) * e + 3 * (ulp1 * B')))) <= margin.
Proof.
  intros Hk. destruct (r_eps k Hk) as (H1 & H2 & _). unfold margin. apply Rplus_le_compat_l.
  replace (2 * (16 * INR nt * (4 * B') * (sqrt (INR N) * (2 * nu + INR (k + 1) * e + 3 * (ulp1 * B'))))) with
    (128 * INR nt * B' * (sqrt (INR N) * (2 * nu + INR (k + 1) * e + 3 * (ulp1 * B')))) by ring.
  apply Rmult_le_compat_l; [|eapply Rle_trans; [exact H1|exact H2]]. destruct r_BB as [H _]. pose proof r_B0. pose proof (pos_INR nt).
  apply Rmult_le_pos; [apply Rmult_le_pos; lra|lra].
Qed.

Lemma exact_prefix k (rows : list (list xr)) : (k <= n)%nat -> (forall row, In row rows -> (nc <= length row)%nat) ->
  exists pe, Forall2 (fun row p => @regression_boost_predict xr_ops (first_trees k me) row = Ok (map Fin p) /\ length p = nt) rows pe.
Proof.
  intros Hk Hr. destruct (guess_real nc nt x0 xs cfg' n (Fin (B2R lr)) me r_Wx r_Hl Ex) as (Hg & Hlrx & _).
  apply (predictions_real nt (first_trees k me) (means nt xs) (B2R lr)); [exact Hg|exact Hlrx|apply means_length|].
  intros row Hin. exact (trained_finite nc nt x0 xs cfg' n (B2R lr) me r_Wx r_Hl Ex k Hk row (Hr row Hin)).
Qed.

Lemma exact_start (row : list xr) p : @regression_boost_predict xr_ops (first_trees 0 me) row = Ok (map Fin p) -> p = means nt xs.
Proof.
  intros H. destruct (guess_real nc nt x0 xs cfg' n (Fin (B2R lr)) me r_Wx r_Hl Ex) as (Hg & _ & _).
  unfold regression_boost_predict in H. rewrite predict_instance_raw in H. cbn in H. injection H as H. apply Fin_inj. rewrite <- H. exact Hg.
Qed.

Lemma r_rowx row : In row (feature_rows x0) -> (nc <= length row)%nat.
Proof. intros H. exact (ProofLeaf.row_long nc nt x0 row r_Wx H). Qed.

Lemma start_gap (row : list f64) p q j : (nc <= length row)%nat -> (j < nt)%nat ->
  @regression_boost_predict FO (first_trees 0 m) row = Ok p -> @regression_boost_predict xr_ops (first_trees 0 me) (map exact_value row) = Ok (map Fin q) ->
  is_finite (nth j p (B754_zero false) : f64) = true /\ Rabs (B2R (nth j p (B754_zero false) : f64) - nth j q 0) <= nu + e.
Proof.
  intros Hr Hj Hp Hq. destruct (answers_near_run P nc nt d cfg n lr m B 0 row W r_N40 Fl Hlr HB HL E Hn ltac:(lia) Hr) as (p0 & Ep & _ & H).
  assert (p0 = p) by exact (ok_inj _ _ _ Ep Hp). subst p0. destruct (H j Hj) as (F1 & F2 & _). split; [exact F1|].
  rewrite (exact_start _ _ Hq). unfold means.
  assert (Hw : nth j (map (fun j => mean (target j xs)) (seq 0 nt)) 0 = mean (target j xs)).
  { apply nth_error_nth. rewrite nth_error_map, (nth_error_nth' _ 0%nat) by now rewrite seq_length. rewrite seq_nth by exact Hj. reflexivity. }
  rewrite Hw. cbn [INR] in F2. fold N B' e in F2.
  assert (Hm : Rabs (mean (target j (map (map B2R) (labels d))) - mean (target j xs)) <= nu).
  { apply mean_near; [apply Hnu|]. unfold target. rewrite map_map. apply Forall2_map_both. eapply Forall2_impl; [|exact Hnoise]. intros y z Hyz. cbv beta.
    change 0 with (B2R (B754_zero false : f64)) at 1. rewrite map_nth. apply nth_near; [apply Hnu|exact Hyz]. }
  set (mx := mean (target j xs)) in *. set (mf := mean (target j (map (map B2R) (labels d)))) in *. set (u := B2R (nth j p (B754_zero false))) in *.
  replace (u - mx) with ((u - mf) + (mf - mx)) by ring. eapply Rle_trans; [apply Rabs_triang|]. lra.
Qed.

(** On the training rows, the two runs stay close. *)
Lemma run_gap k : (k <= n)%nat -> exists ps pe, @regression_boost_all_predictions FO (first_trees k m) d = Ok ps /\ within B' ps /\
  Forall2 (fun row p => @regression_boost_predict xr_ops (first_trees k me) row = Ok (map Fin p) /\ length p = nt) (feature_rows x0) pe /\
  forall j, (j < nt)%nat -> rms (gap j (labels d) ps xs pe) <= 2 * nu + INR (k + 1) * e.
Proof.
  pose proof r_e0 as e0. induction k as [|k IH]; intros Hk.
  - destruct (boosting_run P nc nt d cfg n lr m B 0 W r_N40 Fl Hlr HB HL E Hn Hk) as (ps & Eps & Hps & _).
    destruct (exact_prefix 0 (feature_rows x0) Hk r_rowx) as (pe & HP). exists ps, pe. split; [exact Eps|]. split; [exact Hps|]. split; [exact HP|].
    intros j Hj. cbn [Nat.add INR]. rewrite Rmult_1_l. apply rms_bound; [|lra]. intros x Hx. unfold gap in Hx. apply in_map_iff in Hx as ([[y p] [z q]] & <- & Hin). cbn [fst snd].
    apply In_nth_error in Hin as [i Hi].
    assert (HF : Forall2 (fun row p => @regression_boost_predict FO (first_trees 0 m) row = Ok p) (feature_rows d) ps).
    { unfold regression_boost_all_predictions in Eps. rewrite all_predictions_eq in Eps. now apply mapM_Forall2 in Eps. }
    destruct (unpair_nth _ _ _ _ _ Hi) as [Hi' Hi'']. destruct (unpair_nth _ _ _ _ _ Hi') as [Hi0 Hi1]. destruct (unpair_nth _ _ _ _ _ Hi'') as [Hi3 Hi2].
    destruct (some_nth (feature_rows d) i) as (row & Hrow). { rewrite (Forall2_length _ _ _ HF). exact (nth_lt _ _ _ Hi1). }
    assert (Hin : In row (feature_rows d)) by exact (nth_error_In _ _ Hrow).
    pose proof (ProofLeaf.row_long nc nt d row W Hin) as Hrl.
    assert (Ep : @regression_boost_predict FO (first_trees 0 m) row = Ok p) by exact (proj2 (proj1 (Forall2_nth _ _ _) HF) i row p Hrow Hi1).
    assert (Hrow' : nth_error (feature_rows x0) i = Some (map exact_value row)) by (rewrite Fx0; exact (map_nth_error (map exact_value) _ _ Hrow)).
    destruct (proj2 (proj1 (Forall2_nth _ _ _) HP) i _ q Hrow' Hi2) as [Eq _].
    pose proof (proj2 (start_gap row p q j Hrl Hj Ep Eq)) as Hs0.
    pose proof (nth_near y z nu j (proj1 Hnu) (proj2 (proj1 (Forall2_nth _ _ _) Hnoise) i y z Hi0 Hi3)) as Hs1.
    exact (start_algebra _ _ _ _ _ _ Hs0 Hs1).
  - destruct (IH ltac:(lia)) as (ps & pe & Eps & Hps & HP & Hgap).
    destruct (boosting_run P nc nt d cfg n lr m B (S k) W r_N40 Fl Hlr HB HL E Hn Hk) as (ps' & Eps' & Hps' & _).
    destruct (exact_prefix (S k) (feature_rows x0) Hk r_rowx) as (pe' & HP'). exists ps', pe'. split; [exact Eps'|]. split; [exact Hps'|]. split; [exact HP'|].
    assert (Hkn : (k < n)%nat) by lia.
    destruct (regression_stage d cfg n lr m k (wf_lengths _ _ _ W) E Hkn) as (_ & t & _ & _ & Ht & _).
    destruct (regression_stage x0 cfg' n (Fin (B2R lr)) me k (wf_lengths _ _ _ r_Wx) Ex Hkn) as (_ & te & _ & _ & Hte & _).
    destruct (r_eps k Hkn) as (H1 & H2 & H3). intros j Hj.
    assert (a0 : 0 <= 2 * nu + INR (k + 1) * e) by (assert (0 <= INR (k + 1) * e) by (apply Rmult_le_pos; [apply pos_INR|lra]); lra).
    pose proof (stage_step P nc nt d x0 xs cfg cfg' n k lr m me B' ps pe t te (2 * nu + INR (k + 1) * e) margin W r_Wx Fx0 r_Hl HN r_HB' r_HL' Fl Hlr Hnt Sc Sc' C C' M E Ex Hkn Eps Hps HP Ht Hte a0 Hgap
      (Rle_trans _ _ _ H1 H3) (r_margin k Hkn) ps' pe' j) as S.
    assert (Hc : forall row, In row (feature_rows d) -> clear_path margin nc nt (tc_max_levels cfg) (X x0 pe) te (map exact_value row)).
    { intros row Hin. exact (Hclear row k Hin Hkn _ te (Epe nt x0 k me pe HP) Hte). }
    specialize (S Hc Eps' HP' Hj). eapply Rle_trans; [exact S|]. fold N. 
    assert (HS : INR (Datatypes.S k + 1) = INR (k + 1) + 1) by (change (Datatypes.S k + 1)%nat with (Datatypes.S (k + 1)); apply S_INR). rewrite HS.
    pose proof (uB_small B' r_HB4) as [U1 U2]. pose proof r_N0.
    assert ((24 * INR N + 52) * (ulp1 * B') <= e) by (rewrite r_e; apply Rmult_le_compat_r; lra). lra.
Qed.

(** Any row that meets only clear decisions. *)
Lemma run_row (row : list f64) : (nc <= length row)%nat ->
  (forall k, (k < n)%nat -> clear_stage margin nc nt (tc_max_levels cfg) x0 me k (map exact_value row)) ->
  (forall k t te, (k < n)%nat -> nth_error (m_trees m) k = Some t -> nth_error (m_trees me) k = Some te ->
     exists ps rest, @regression_boost_all_predictions xr_ops (first_trees k me) x0 = Ok ps /\
       map exact_question (@path FO _ row t) = @path xr_ops _ (map exact_value row) te ++ rest /\
       (rest = [] \/ forall s s', In s (samples_like (map exact_value row) te (mkDS (feature_rows x0) (differences (labels x0) ps) (feature_columns x0))) ->
          In s' (samples_like (map exact_value row) te (mkDS (feature_rows x0) (differences (labels x0) ps) (feature_columns x0))) -> snd s = snd s')) /\
  forall k, (k <= n)%nat -> exists p q, @regression_boost_predict FO (first_trees k m) row = Ok p /\ @regression_boost_predict xr_ops (first_trees k me) (map exact_value row) = Ok (map Fin q) /\
    length p = nt /\ length q = nt /\
    forall j, (j < nt)%nat -> is_finite (nth j p (B754_zero false) : f64) = true /\ Rabs (B2R (nth j p (B754_zero false) : f64) - nth j q 0) <= INR (4 * k + 1) * sqrt (INR N) * nu + 2 * sqrt (INR N) * INR ((k + 1) * (k + 1)) * e.
Proof.
  intros Hr Hc. split.
  - intros k t te Hkn Ht Hte. destruct (run_gap k ltac:(lia)) as (ps & pe & Eps & Hps & HP & Hgap). destruct (r_eps k Hkn) as (H1 & H2 & H3).
    pose proof r_e0 as e0. assert (a0 : 0 <= 2 * nu + INR (k + 1) * e) by (assert (0 <= INR (k + 1) * e) by (apply Rmult_le_pos; [apply pos_INR|lra]); lra).
    pose proof (Hc k Hkn _ te (Epe nt x0 k me pe HP) Hte) as Hc'.
    destruct (stage_follow P nc nt d x0 xs cfg cfg' n k lr m me B' ps pe t te (2 * nu + INR (k + 1) * e) margin W r_Wx Fx0 r_Hl HN r_HB' r_HL' Hnt Sc Sc' C C' M E Ex Hkn Eps Hps HP Ht Hte a0 Hgap
      (Rle_trans _ _ _ H1 H3) (r_margin k Hkn) row Hc') as (rest & Hp & Hrest).
    exists (map (map Fin) pe), rest. split; [exact (Epe nt x0 k me pe HP)|]. split; [exact Hp|exact Hrest].
  - assert (Hr' : (nc <= length (map exact_value row))%nat) by now rewrite map_length.
    destruct r_root as [Q1 _]. pose proof r_e0 as e0. pose proof r_e96 as e96. pose proof (uB_small B' r_HB4) as [U1 U2]. pose proof r_N0 as N0.
    assert (Hnb : INR n * ulp1 <= / 96).
    { assert (H : INR n * (96 * (ulp1 * B')) <= INR n * e) by (apply Rmult_le_compat_l; [apply pos_INR|exact e96]). pose proof r_B0. destruct r_BB as [HBB _].
      apply Rmult_le_reg_r with (96 * B'); [lra|]. replace (/ 96 * (96 * B')) with B' by field. apply Rle_trans with (INR n * e); [|lra]. eapply Rle_trans; [|exact H]. right. ring. }
    assert (Hn60 : 9 * INR n + 3 <= bpow radix2 60).
    { pose proof ulp1_53 as U. assert (INR n <= bpow radix2 53 / 96).
      { apply Rmult_le_reg_r with ulp1; [exact ulp1_pos|]. replace (bpow radix2 53 / 96 * ulp1) with (/ 96) by (rewrite <- (Rmult_1_l (/ 96)), <- U; field). exact Hnb. }
      replace (bpow radix2 60) with (128 * bpow radix2 53) by (change 60%Z with (7 + 53)%Z; rewrite bpow_plus; reflexivity).
      assert (1 <= bpow radix2 53) by (change 1 with (bpow radix2 0); apply bpow_le; lia). lra. }
    induction k as [|k IH]; intros Hk.
    + destruct (regression_prefix_ok nc nt d cfg n lr m row 0 W E Hr) as (p & Ep & Lp).
      destruct (exact_prefix 0 [map exact_value row] Hk) as (qs & HQ). { intros r [<-|[]]. exact Hr'. }
      assert (exists q, @regression_boost_predict xr_ops (first_trees 0 me) (map exact_value row) = Ok (map Fin q) /\ length q = nt) as (q & Eq & Lq).
      { destruct qs as [|q qs]; [now inversion HQ|]. exists q. now inversion HQ. }
      exists p, q. split; [exact Ep|]. split; [exact Eq|]. split; [exact Lp|]. split; [exact Lq|].
      intros j Hj. destruct (start_gap row p q j Hr Hj Ep Eq) as [F1 F2]. split; [exact F1|]. eapply Rle_trans; [exact F2|]. cbn [Nat.add Nat.mul INR].
      assert (e <= sqrt (INR N) * e) by (replace e with (1 * e) at 1 by ring; apply Rmult_le_compat_r; lra).
      assert (nu <= sqrt (INR N) * nu) by (replace nu with (1 * nu) at 1 by ring; apply Rmult_le_compat_r; lra). lra.
    + destruct (IH ltac:(lia)) as (p & q & Ep & Eq & Lp & Lq & Hpq). assert (Hkn : (k < n)%nat) by lia.
      destruct (regression_stage d cfg n lr m k (wf_lengths _ _ _ W) E Hkn) as (_ & t & _ & _ & Ht & _).
      destruct (regression_stage x0 cfg' n (Fin (B2R lr)) me k (wf_lengths _ _ _ r_Wx) Ex Hkn) as (_ & te & _ & _ & Hte & _).
      destruct (run_gap k ltac:(lia)) as (ps & pe & Eps & Hps & HP & Hgap). destruct (r_eps k Hkn) as (H1 & H2 & H3).
      assert (a0 : 0 <= 2 * nu + INR (k + 1) * e) by (assert (0 <= INR (k + 1) * e) by (apply Rmult_le_pos; [apply pos_INR|lra]); lra).
      pose proof (Hc k Hkn _ te (Epe nt x0 k me pe HP) Hte) as Hc'.
      destruct (stage_outputs P nc nt d x0 xs cfg cfg' n k lr m me B' ps pe t te (2 * nu + INR (k + 1) * e) margin W r_Wx Fx0 r_Hl HN r_HB' r_HL' Hnt Sc Sc' C C' M E Ex Hkn Eps Hps HP Ht Hte a0 Hgap
        (Rle_trans _ _ _ H1 H3) (r_margin k Hkn) row Hr Hc') as (o & oe & Eo & Eoe & Loe & Hout).
      destruct (regression_prefix_ok nc nt d cfg n lr m row (S k) W E Hr) as (p' & Ep' & Lp').
      destruct (guess_real nc nt x0 xs cfg' n (Fin (B2R lr)) me r_Wx r_Hl Ex) as (_ & Hlrx & _).
      pose proof (next_prediction nt x0 cfg' n (B2R lr) me k te (map exact_value row) q oe Ex Hlrx Hte Eq Lq Eoe Loe) as Enext.
      exists p', (vstep (B2R lr) q oe). split; [exact Ep'|]. split; [exact Enext|]. split; [exact Lp'|]. split; [rewrite vstep_length; lia|].
      intros j Hj. destruct (Hpq j Hj) as [Fp Hd]. destruct (Hout j Hj) as (Fo & Ho & HM & Hoe & Heps).
      destruct (regression_step nc nt d cfg n lr m k t row p p' o j W E Hr Ht Ep Ep' Eo Hj) as (_ & _ & Estep).
      assert (Estep' : (nth j p' (B754_zero false) : f64) = Bplus mode_NE (nth j p (B754_zero false) : f64) (Bmult mode_NE lr (nth j o (B754_zero false) : f64))) by exact Estep.
      rewrite Estep'. unfold vstep. rewrite nth_map2 by lia. rewrite Hoe.
      destruct (answers_near_run P nc nt d cfg n lr m B k row W r_N40 Fl Hlr HB HL E Hn ltac:(lia) Hr) as (p0 & Ep0 & _ & Hrun).
      assert (p0 = p) by exact (ok_inj _ _ _ Ep0 Ep). subst p0. destruct (Hrun j Hj) as (_ & _ & Hpb). fold N B' in Hpb.
      set (Mf := mean _) in Ho, HM, Heps. set (Mx := mean _) in Hoe, Heps |- *.
      pose proof (leaf_error_small P nt d cfg cfg' n k B' HN r_HB' C C' M Hkn) as [L0 L1].
      set (v := nth j o (B754_zero false) : f64) in *. set (x := nth j p (B754_zero false) : f64) in *.
      assert (Ho4 : Rabs (B2R v) <= 4 * B').
      { replace (B2R v) with ((B2R v - Mf) + Mf) by ring. eapply Rle_trans; [apply Rabs_triang|]. lra. }
      assert (K0 : 0 <= INR k) by apply pos_INR. assert (KN : INR k <= INR n) by (apply le_INR; lia).
      destruct (add_output B' (9 * INR k + 2) x lr v r_HB4 Fp Fl Fo Hlr ltac:(lra) Hpb Ho4) as [Fx Hx]. split; [exact Fx|].
      set (z := B2R (Bplus mode_NE x (Bmult mode_NE lr v))) in *.
      replace (z - (nth j q 0 + B2R lr * Mx)) with ((z - (B2R x + B2R lr * B2R v)) + ((B2R x - nth j q 0) + B2R lr * ((B2R v - Mf) + (Mf - Mx)))) by ring.
      eapply Rle_trans; [apply Rabs_triang|]. pose proof (Rabs_triang (B2R x - nth j q 0) (B2R lr * ((B2R v - Mf) + (Mf - Mx)))) as Ht1.
      pose proof (Rabs_triang (B2R v - Mf) (Mf - Mx)) as Ht2.
      assert (Hl : Rabs (B2R lr * ((B2R v - Mf) + (Mf - Mx))) <= 2 * (leaf_error P d B' + sqrt (INR N) * (2 * nu + INR (k + 2) * e))).
      { rewrite Rabs_mult, (Rabs_pos_eq (B2R lr)) by lra. apply Rmult_le_compat; [lra|apply Rabs_pos|lra|]. fold N in Heps. lra. }
      assert (Hle : (9 * INR k + 2 + 19) * (ulp1 * B') + 2 * leaf_error P d B' <= (INR k + 1) * e).
      { unfold leaf_error. fold N. rewrite r_e. replace ((9 * INR k + 2 + 19) * (ulp1 * B') + 2 * ((12 * (INR N + 1) + 1) * (ulp1 * B'))) with ((9 * INR k + 24 * INR N + 47) * (ulp1 * B')) by ring.
        replace ((INR k + 1) * ((32 * INR N + 64) * (ulp1 * B'))) with (((INR k + 1) * (32 * INR N + 64)) * (ulp1 * B')) by ring.
        apply Rmult_le_compat_r; [lra|]. assert (0 <= INR k * INR N) by (apply Rmult_le_pos; lra). lra. }
      assert (HS : INR ((Datatypes.S k + 1) * (Datatypes.S k + 1)) = INR ((k + 1) * (k + 1)) + 2 * INR k + 3) by (change (Datatypes.S k + 1)%nat with (Datatypes.S (k + 1)); rewrite !mult_INR, S_INR, !plus_INR; change (INR 1) with 1; ring). rewrite HS.
      assert (HK : INR (4 * Datatypes.S k + 1) = INR (4 * k + 1) + 4) by (replace (4 * Datatypes.S k + 1)%nat with (4 * k + 1 + 4)%nat by lia; rewrite plus_INR; cbn [INR]; ring). rewrite HK.
      rewrite plus_INR in Hl. cbn [INR] in Hl.
      assert (A1 : (INR k + 1) * e <= sqrt (INR N) * ((INR k + 1) * e)) by (replace ((INR k + 1) * e) with (1 * ((INR k + 1) * e)) at 1 by ring; apply Rmult_le_compat_r; [apply Rmult_le_pos; lra|lra]).
      assert (A2 : 0 <= sqrt (INR N) * (INR k * e)) by (apply Rmult_le_pos; [lra|apply Rmult_le_pos; lra]).
      assert (A3 : 0 <= sqrt (INR N) * e) by (apply Rmult_le_pos; lra).
      lra.
Qed.

End Run.

Lemma Forall2_map_r {A B} (f : A -> B) (R : A -> B -> Prop) l : (forall x, R x (f x)) -> Forall2 R l (map f l).
Proof. intros H. induction l; cbn [map]; constructor; auto. Qed.

Theorem clear_ensemble_from (P : platform) (nc nt : nat) (d : @dataset (f64_ops P)) (x0 : @dataset xr_ops) (xs : list (list R)) (cfg : @tree_config (f64_ops P)) (cfg' : @tree_config xr_ops) (n : nat)
    (lr : f64) (m : @regression_boost_model (f64_ops P)) (me : @regression_boost_model xr_ops) (B nu : R) (row : list f64) :
  let N := length (labels d) in
  let B' := (1 + 4 * sqrt (INR N)) * B in
  let e := bpow radix2 (-48) * INR (N + 2) * B' in
  let margin := 2 * real_gain_error nt N (4 * B') + 128 * INR nt * B' * (sqrt (INR N) * (2 * nu + INR (n + 2) * e)) in
  @wf_dataset (f64_ops P) nc nt d -> @wf_dataset xr_ops nc nt x0 -> feature_rows x0 = map (map exact_value) (feature_rows d) -> real_labels xs x0 ->
  0 <= nu <= B -> Forall2 (Forall2 (fun (y : f64) z => Rabs (B2R y - z) <= nu)) (labels d) xs -> (Z.of_nat N <= 2 ^ 20)%Z -> is_finite lr = true -> 0 <= B2R lr <= 2 ->
  bpow radix2 (-400) <= B <= bpow radix2 300 -> within B (labels d) -> (Z.of_nat nt <= 2 ^ 40)%Z ->
  standard cfg -> standard cfg' -> tc_number_of_classes cfg = N.of_nat nt -> tc_number_of_classes cfg' = N.of_nat nt ->
  tc_max_levels cfg' = tc_max_levels cfg ->
  @regression_boost_train (f64_ops P) d cfg n lr = Ok m -> @regression_boost_train xr_ops x0 cfg' n (Fin (B2R lr)) = Ok me ->
  INR n * e <= B -> (nc <= length row)%nat ->
  (forall x k, In x (row :: feature_rows d) -> (k < n)%nat -> clear_stage margin nc nt (tc_max_levels cfg) x0 me k (map exact_value x)) ->
  (forall k t te, nth_error (m_trees m) k = Some t -> nth_error (m_trees me) k = Some te ->
     exists ps, regression_boost_all_predictions (first_trees k me) x0 = Ok ps /\
       same_questions row t (mkDS (feature_rows x0) (differences (labels x0) ps) (feature_columns x0)) te) /\
  exists p q, @regression_boost_predict (f64_ops P) m row = Ok p /\ @regression_boost_predict xr_ops me (map exact_value row) = Ok (map Fin q) /\
    length p = nt /\ length q = nt /\
    forall j, (j < nt)%nat -> is_finite (nth j p (B754_zero false) : f64) = true /\ Rabs (B2R (nth j p (B754_zero false) : f64) - nth j q 0) <=
      INR (4 * n + 1) * sqrt (INR N) * nu + 2 * sqrt (INR N) * INR ((n + 1) * (n + 1)) * e.
Proof.
  intros N B' e margin W Wx Fx0 Hl Hnu Hnoise HN Fl Hlr HB HL Hnt Sc Sc' C C' M E Ex Hn Hr Hc.
  destruct (run_row P nc nt d x0 xs cfg cfg' n lr m me B nu W Wx Fx0 Hl Hnu Hnoise HN Fl Hlr HB HL Hnt Sc Sc' C C' M E Ex Hn (fun x k Hx => Hc x k (or_intror Hx)) row Hr (fun k => Hc row k (or_introl eq_refl))) as [H1 H2].
  destruct (regression_shape nt d cfg n lr m (wf_labels _ _ _ W) E) as (Lm & _).
  split.
  - intros k t te Ht Hte. assert (Hk : (k < n)%nat) by (rewrite <- Lm; apply nth_error_Some; congruence).
    destruct (H1 k t te Hk Ht Hte) as (ps & rest & Eps & Hp & Hrest). exists ps. split; [exact Eps|]. exists rest. split; [exact Hp|exact Hrest].
  - destruct (H2 n (Nat.le_refl n)) as (p & q & Ep & Eq & Lp & Lq & H). exists p, q.
    assert (F1 : first_trees n m = m) by (unfold first_trees; rewrite firstn_all2 by lia; now destruct m).
    assert (F2 : first_trees n me = me).
    { destruct (regression_shape nt x0 cfg' n (Fin (B2R lr)) me (wf_labels _ _ _ Wx) Ex) as (Le & _).
      unfold first_trees. rewrite firstn_all2 by lia. now destruct me. }
    rewrite F1 in Ep. rewrite F2 in Eq. split; [exact Ep|]. split; [exact Eq|]. split; [exact Lp|]. split; [exact Lq|]. exact H.
Qed.

Theorem clear_ensemble (P : platform) (nc nt : nat) (d : @dataset (f64_ops P)) (cfg : @tree_config (f64_ops P)) (cfg' : @tree_config xr_ops) (n : nat)
    (lr : f64) (m : @regression_boost_model (f64_ops P)) (me : @regression_boost_model xr_ops) (B : R) (row : list f64) :
  let N := length (labels d) in
  let B' := (1 + 4 * sqrt (INR N)) * B in
  let e := bpow radix2 (-48) * INR (N + 2) * B' in
  let margin := 2 * real_gain_error nt N (4 * B') + 128 * INR nt * B' * (sqrt (INR N) * INR (n + 2) * e) in
  @wf_dataset (f64_ops P) nc nt d -> (Z.of_nat N <= 2 ^ 20)%Z -> is_finite lr = true -> 0 <= B2R lr <= 2 ->
  bpow radix2 (-400) <= B <= bpow radix2 300 -> within B (labels d) -> (Z.of_nat nt <= 2 ^ 40)%Z ->
  standard cfg -> standard cfg' -> tc_number_of_classes cfg = N.of_nat nt -> tc_number_of_classes cfg' = N.of_nat nt ->
  tc_max_levels cfg' = tc_max_levels cfg ->
  @regression_boost_train (f64_ops P) d cfg n lr = Ok m -> @regression_boost_train xr_ops (exact_data d) cfg' n (Fin (B2R lr)) = Ok me ->
  INR n * e <= B -> (nc <= length row)%nat ->
  (forall x k, In x (row :: feature_rows d) -> (k < n)%nat -> clear_stage margin nc nt (tc_max_levels cfg) (exact_data d) me k (map exact_value x)) ->
  (forall k t te, nth_error (m_trees m) k = Some t -> nth_error (m_trees me) k = Some te ->
     exists ps, regression_boost_all_predictions (first_trees k me) (exact_data d) = Ok ps /\
       same_questions row t (mkDS (feature_rows (exact_data d)) (differences (labels (exact_data d)) ps) (feature_columns (exact_data d))) te) /\
  exists p q, @regression_boost_predict (f64_ops P) m row = Ok p /\ @regression_boost_predict xr_ops me (map exact_value row) = Ok (map Fin q) /\
    length p = nt /\ length q = nt /\
    forall j, (j < nt)%nat -> is_finite (nth j p (B754_zero false) : f64) = true /\ Rabs (B2R (nth j p (B754_zero false) : f64) - nth j q 0) <= 2 * sqrt (INR N) * INR ((n + 1) * (n + 1)) * e.
Proof.
  intros N B' e margin W HN Fl Hlr HB HL Hnt Sc Sc' C C' M E Ex Hn Hr Hc.
  assert (Hm : margin = 2 * real_gain_error nt N (4 * B') + 128 * INR nt * B' * (sqrt (INR N) * (2 * 0 + INR (n + 2) * e))) by (unfold margin; ring).
  assert (Hl : real_labels (real_values d) (exact_data d)).
  { apply (bounded_real_labels P B). intros l x Hi Hx. unfold within in HL. rewrite Forall_forall in HL. pose proof (HL l Hi) as H. rewrite Forall_forall in H. exact (H x Hx). }
  assert (B0 : 0 <= B) by (pose proof (bpow_gt_0 radix2 (-400)); lra).
  assert (Hz : Forall2 (Forall2 (fun (y : f64) z => Rabs (B2R y - z) <= 0)) (labels d) (real_values d)).
  { unfold real_values. apply Forall2_map_r. intros y. apply Forall2_map_r. intros v. rewrite Rminus_diag_eq, Rabs_R0 by reflexivity. lra. }
  rewrite Hm in Hc.
  destruct (clear_ensemble_from P nc nt d (exact_data d) (real_values d) cfg cfg' n lr m me B 0 row W (exact_wf P nc nt d W) eq_refl Hl (conj (Rle_refl 0) B0) Hz
    HN Fl Hlr HB HL Hnt Sc Sc' C C' M E Ex Hn Hr Hc) as (H1 & p & q & Ep & Eq & Lp & Lq & H). split; [exact H1|]. exists p, q. repeat (split; [assumption|]).
  intros j Hj. destruct (H j Hj) as [F1 F2]. split; [exact F1|]. rewrite Rmult_0_r, Rplus_0_l in F2. exact F2.
Qed.
