(** Rounding errors of the variance computations in binary64 for labels of bounded size. *)
From Coq Require Import Reals Lra Lia ZArith.
From Flocq Require Import Core Relative.
From Flocq Require Import IEEE754.BinarySingleNaN.
From Verif Require Import Base Num F64 ModelCommon ModelTree Lib Spec SpecExact ProofReal ProofScoreF64 ProofRound ProofError ProofPredict ProofSplit ProofSplitExact ProofScan.
Local Open Scope R_scope.

Section Near.
Context (P : platform) (N : nat) (B : R).
Hypothesis (HN : (1 <= N)%nat).
Hypothesis (HN' : (Z.of_nat N <= 2 ^ 20)%Z).
Hypothesis (HB : bpow radix2 (-400) <= B <= bpow radix2 400).
Local Existing Instance f64_ops.

Let U := B * B.
Let NR := INR N.
Let dS := 2 * ulp1 * NR * B.
Let dQ := 4 * ulp1 * NR * U.

Lemma NR_pos : 1 <= NR.
Proof. apply (le_INR 1). exact HN. Qed.

Lemma NR_le : NR <= bpow radix2 20.
Proof. unfold NR. rewrite INR_IZR_INZ, <- (IZR_Zpower radix2 20) by lia. apply IZR_le. exact HN'. Qed.

Lemma uNN : ulp1 * (NR * NR) <= / 8192.
Proof.
  pose proof NR_pos. pose proof NR_le. pose proof ulp1_pos.
  apply Rle_trans with (ulp1 * (bpow radix2 20 * bpow radix2 20)).
  - apply Rmult_le_compat_l; [lra|]. apply Rmult_le_compat; lra.
  - rewrite <- bpow_plus. unfold ulp1. rewrite <- bpow_plus. change (bpow radix2 (-53 + (20 + 20))) with (/ 8192). lra.
Qed.

Lemma uN : ulp1 * NR <= / 8192.
Proof.
  pose proof NR_pos. pose proof uNN. pose proof ulp1_pos. eapply Rle_trans; [|exact uNN].
  apply Rmult_le_compat_l; [lra|]. rewrite <- (Rmult_1_l NR) at 1. apply Rmult_le_compat_r; lra.
Qed.

Lemma B_pos : 0 < B.
Proof. pose proof (bpow_gt_0 radix2 (-400)). lra. Qed.

Lemma U_range : bpow radix2 (-800) <= U <= bpow radix2 800.
Proof.
  pose proof (bpow_gt_0 radix2 (-400)). pose proof B_pos. unfold U.
  change (-800)%Z with (-400 + -400)%Z. change 800%Z with (400 + 400)%Z. rewrite !bpow_plus. split; apply Rmult_le_compat; lra.
Qed.

Lemma U_pos : 0 < U.
Proof. pose proof (bpow_gt_0 radix2 (-800)). pose proof U_range. lra. Qed.

Lemma eta_U : eta1 <= / 1000 * (ulp1 * U).
Proof.
  assert (H : 1024 * eta1 <= ulp1 * bpow radix2 (-800)).
  { change 1024 with (bpow radix2 10). unfold eta1, ulp1. rewrite <- !bpow_plus. apply bpow_le. lia. }
  pose proof U_range. pose proof ulp1_pos. pose proof eta1_pos.
  assert (ulp1 * bpow radix2 (-800) <= ulp1 * U) by (apply Rmult_le_compat_l; lra). lra.
Qed.

Lemma eta_B : eta1 <= / 1000 * (ulp1 * B).
Proof.
  assert (H : 1024 * eta1 <= ulp1 * bpow radix2 (-400)).
  { change 1024 with (bpow radix2 10). unfold eta1, ulp1. rewrite <- !bpow_plus. apply bpow_le. lia. }
  pose proof ulp1_pos. pose proof eta1_pos.
  assert (ulp1 * bpow radix2 (-400) <= ulp1 * B) by (apply Rmult_le_compat_l; lra). lra.
Qed.

(** Rounding a number of at most [b]. *)
Lemma round_le x b e : Rabs x <= b -> b <= bpow radix2 e -> (-1074 <= e < 1024)%Z ->
  Rabs (rnd x) < bpow radix2 1024 /\ Rabs (rnd x - x) <= ulp1 * b + eta1.
Proof.
  intros H1 H2 H3. split; [apply pow_le_emax with (e := e); lra || lia|].
  pose proof (rnd_error x). pose proof ulp1_pos. assert (ulp1 * Rabs x <= ulp1 * b) by (apply Rmult_le_compat_l; lra). lra.
Qed.

Lemma dist_trans x y z a b : Rabs (x - y) <= a -> Rabs (y - z) <= b -> Rabs (x - z) <= a + b.
Proof. intros H1 H2. replace (x - z) with ((x - y) + (y - z)) by ring. eapply Rle_trans; [apply Rabs_triang|lra]. Qed.

Lemma near_size x y a b : Rabs (x - y) <= a -> Rabs y <= b -> Rabs x <= a + b.
Proof. intros H1 H2. replace x with ((x - y) + y) by ring. eapply Rle_trans; [apply Rabs_triang|lra]. Qed.

Lemma NB_le : 2 * (NR * B) <= bpow radix2 421.
Proof.
  pose proof NR_pos. pose proof NR_le. pose proof B_pos. change 421%Z with (1 + (20 + 400))%Z. rewrite !(bpow_plus radix2).
  change (bpow radix2 1) with 2. apply Rmult_le_compat_l; [lra|]. apply Rmult_le_compat; lra.
Qed.

Lemma NU_le : 2 * (NR * U) <= bpow radix2 821.
Proof.
  pose proof NR_pos. pose proof NR_le. pose proof U_pos. pose proof U_range. change 821%Z with (1 + (20 + 800))%Z. rewrite !(bpow_plus radix2).
  change (bpow radix2 1) with 2. apply Rmult_le_compat_l; [lra|]. apply Rmult_le_compat; lra.
Qed.

Lemma op_step (x y : R) (c : nat) s : (c < 2 * N)%nat -> Rabs (x - s) <= INR c * dS -> Rabs (s + y) <= NR * B ->
  Rabs (rnd (x + y)) < bpow radix2 1024 /\ Rabs (rnd (x + y) - (s + y)) <= INR (S c) * dS.
Proof.
  intros Hc H Hs. pose proof NR_pos as H1. pose proof uN as H2. pose proof B_pos as H3. pose proof ulp1_pos as H4. pose proof eta_B as H5.
  assert (Hc' : INR c <= 2 * NR). { unfold NR. change 2 with (INR 2). rewrite <- mult_INR. apply le_INR. lia. }
  assert (HNB : 0 <= NR * B) by (apply Rmult_le_pos; lra).
  assert (HdS : 0 <= dS) by (unfold dS; rewrite Rmult_assoc; apply Rmult_le_pos; lra).
  assert (Hcd : INR c * dS <= / 1000 * (NR * B)).
  { apply Rle_trans with (2 * NR * dS); [apply Rmult_le_compat_r; lra|]. unfold dS.
    replace (2 * NR * (2 * ulp1 * NR * B)) with (4 * (ulp1 * NR) * (NR * B)) by ring. apply Rmult_le_compat_r; lra. }
  assert (Hxy : Rabs (x + y - (s + y)) <= INR c * dS) by (replace (x + y - (s + y)) with (x - s) by ring; exact H).
  pose proof (near_size _ _ _ _ Hxy Hs) as Hb.
  destruct (round_le (x + y) (INR c * dS + NR * B) 421 Hb) as [R1 R2]; [pose proof NB_le; lra|lia|].
  split; [exact R1|]. eapply Rle_trans; [exact (dist_trans _ _ _ _ _ R2 Hxy)|]. rewrite S_INR.
  assert (H6 : ulp1 * (INR c * dS) <= / 1000 * (ulp1 * (NR * B))) by (apply Rle_trans with (ulp1 * (/ 1000 * (NR * B))); [apply Rmult_le_compat_l; lra|lra]).
  assert (H7 : ulp1 * B <= ulp1 * (NR * B)).
  { apply Rmult_le_compat_l; [lra|]. rewrite <- (Rmult_1_l B) at 1. apply Rmult_le_compat_r; lra. }
  assert (E : dS = 2 * (ulp1 * (NR * B))) by (unfold dS; ring). rewrite (Rmult_plus_distr_l ulp1). lra.
Qed.

Lemma sq_bound (y : R) : Rabs y <= B -> 0 <= y * y <= U.
Proof.
  intros H. pose proof (Rabs_pos y). split; [apply Rle_0_sqr|]. replace (y * y) with (Rabs y * Rabs y) by (rewrite <- Rabs_mult; apply Rabs_pos_eq, Rle_0_sqr).
  unfold U. apply Rmult_le_compat; lra.
Qed.

Lemma square_near (y : f64) : is_finite y = true -> Rabs (B2R y) <= B ->
  is_finite (Bmult mode_NE y y) = true /\ Rabs (B2R (Bmult mode_NE y y) - B2R y * B2R y) <= ulp1 * U + eta1.
Proof.
  intros Fy Hy. pose proof (sq_bound _ Hy) as H. pose proof U_range.
  destruct (round_le (B2R y * B2R y) U 800) as [R1 R2]; [rewrite Rabs_pos_eq; lra|lra|lia|].
  destruct (mult_value y y Fy Fy R1) as [F1 V1]. split; [exact F1|]. now rewrite V1.
Qed.

(** [x] is near [q], [z] is near [w] which is a square or its opposite. *)
Lemma sq_step (x z : R) (c : nat) q w : (c < 2 * N)%nat -> Rabs (x - q) <= INR c * dQ -> Rabs (z - w) <= ulp1 * U + eta1 ->
  Rabs (q + w) <= NR * U ->
  Rabs (rnd (x + z)) < bpow radix2 1024 /\ Rabs (rnd (x + z) - (q + w)) <= INR (S c) * dQ.
Proof.
  intros Hc H Hz Hs. pose proof NR_pos as H1. pose proof uN as H2. pose proof U_pos as H3. pose proof ulp1_pos as H4. pose proof eta_U as H5.
  pose proof ulp1_small as H0.
  assert (Hc' : INR c <= 2 * NR). { unfold NR. change 2 with (INR 2). rewrite <- mult_INR. apply le_INR. lia. }
  assert (HNB : U <= NR * U) by (rewrite <- (Rmult_1_l U) at 1; apply Rmult_le_compat_r; lra).
  assert (HdS : 0 <= dQ) by (unfold dQ; rewrite Rmult_assoc; apply Rmult_le_pos; [lra|apply Rmult_le_pos; lra]).
  assert (Hcd : INR c * dQ <= / 1000 * (NR * U)).
  { apply Rle_trans with (2 * NR * dQ); [apply Rmult_le_compat_r; lra|]. unfold dQ.
    replace (2 * NR * (4 * ulp1 * NR * U)) with (8 * (ulp1 * NR) * (NR * U)) by ring. apply Rmult_le_compat_r; lra. }
  assert (HuU : ulp1 * U <= / 1000 * U) by (apply Rmult_le_compat_r; lra).
  assert (Hxy : Rabs (x + z - (q + w)) <= INR c * dQ + (ulp1 * U + eta1)).
  { replace (x + z - (q + w)) with ((x - q) + (z - w)) by ring. eapply Rle_trans; [apply Rabs_triang|lra]. }
  pose proof (near_size _ _ _ _ Hxy Hs) as Hb.
  assert (Hb' : Rabs (x + z) <= 2 * (NR * U)) by lra.
  destruct (round_le (x + z) (2 * (NR * U)) 821 Hb') as [R1 R2]; [pose proof NU_le; lra|lia|].
  split; [exact R1|]. eapply Rle_trans; [exact (dist_trans _ _ _ _ _ R2 Hxy)|]. rewrite S_INR.
  assert (H7 : ulp1 * U <= ulp1 * (NR * U)) by (apply Rmult_le_compat_l; lra).
  assert (E : dQ = 4 * (ulp1 * (NR * U))) by (unfold dQ; ring). lra.
Qed.

(** The variance from a sum [S] and a sum of squares [Q] of [m] labels that are slightly off. *)
Lemma var_near (S Q : f64) (m : nat) (s q : R) :
  (1 <= m <= N)%nat -> is_finite S = true -> is_finite Q = true ->
  Rabs (B2R S - s) <= 2 * NR * dS -> Rabs (B2R Q - q) <= 2 * NR * dQ -> Rabs s <= INR m * B -> 0 <= q <= INR m * U ->
  let mu := Bdiv mode_NE S (f64_of_Z (Z.of_nat m)) in
  let v := Bdiv mode_NE (Bminus mode_NE Q (Bmult mode_NE (f64_of_Z (Z.of_nat m)) (Bmult mode_NE mu mu))) (f64_of_Z (Z.of_nat m)) in
  is_finite v = true /\ Rabs (B2R v) <= 2 * U /\
  Rabs (B2R v - (q - INR m * (s / INR m * (s / INR m))) / INR m) <= 27 * (ulp1 * (NR * NR) / INR m) * U.
Proof.
  intros Hm FS FQ HS HQ Hs Hq mu v. pose proof NR_pos as H1. pose proof uNN as H2. pose proof U_pos as H3. pose proof B_pos as H3'.
  pose proof ulp1_pos as H4. pose proof eta_U as H5. pose proof eta_B as H5'. pose proof ulp1_small as H0. pose proof U_range as HU. pose proof eta1_pos as He.
  destruct (of_Z_exact (Z.of_nat m)) as (m1 & m2 & _); [lia|]. rewrite <- INR_IZR_INZ in m1.
  set (M := INR m) in *. assert (HM : 1 <= M) by (apply (le_INR 1); lia). assert (HMN : M <= NR) by (apply le_INR; lia).
  assert (HMi : 0 < / M) by (apply Rinv_0_lt_compat; lra).
  set (X := ulp1 * (NR * NR) / M).
  assert (HX1 : ulp1 <= X).
  { unfold X. apply Rmult_le_reg_r with M; [lra|]. unfold Rdiv. rewrite Rmult_assoc, Rinv_l, Rmult_1_r by lra.
    apply Rmult_le_compat_l; [lra|]. apply Rle_trans with NR; [lra|]. rewrite <- (Rmult_1_l NR) at 1. apply Rmult_le_compat_r; lra. }
  assert (HX2 : X <= / 8192).
  { eapply Rle_trans; [|exact H2]. unfold X, Rdiv. rewrite <- (Rmult_1_r (ulp1 * (NR * NR))) at 2.
    apply Rmult_le_compat_l; [apply Rmult_le_pos; [lra|apply Rmult_le_pos; lra]|]. rewrite <- Rinv_1. apply Rinv_le; lra. }
  assert (EX : M * X = ulp1 * (NR * NR)) by (unfold X; field; lra).
  assert (HXU : X * U <= / 8192 * U) by (apply Rmult_le_compat_r; lra).
  assert (HXB : X * B <= / 8192 * B) by (apply Rmult_le_compat_r; lra).
  assert (HuU : ulp1 * U <= X * U) by (apply Rmult_le_compat_r; lra).
  assert (HuB : ulp1 * B <= X * B) by (apply Rmult_le_compat_r; lra).
  assert (HuU0 : 0 < ulp1 * U) by (apply Rmult_lt_0_compat; lra). assert (HuB0 : 0 < ulp1 * B) by (apply Rmult_lt_0_compat; lra).
  assert (HuXU : ulp1 * (X * U) <= / 8192 * (ulp1 * U)).
  { replace (ulp1 * (X * U)) with (X * (ulp1 * U)) by ring. apply Rmult_le_compat_r; lra. }
  assert (HuXB : ulp1 * (X * B) <= / 8192 * (ulp1 * B)).
  { replace (ulp1 * (X * B)) with (X * (ulp1 * B)) by ring. apply Rmult_le_compat_r; lra. }
  assert (ES : 2 * NR * dS = M * (4 * (X * B))).
  { unfold dS. replace (M * (4 * (X * B))) with (4 * (M * X) * B) by ring. rewrite EX. ring. }
  assert (EQ : 2 * NR * dQ = M * (8 * (X * U))).
  { unfold dQ. replace (M * (8 * (X * U))) with (8 * (M * X) * U) by ring. rewrite EX. ring. }
  rewrite ES in HS. rewrite EQ in HQ.
  assert (Hdiv : forall a b, Rabs a <= M * b -> Rabs (a / M) <= b).
  { intros a b H. unfold Rdiv. rewrite Rabs_mult, (Rabs_pos_eq (/ M)) by lra. apply Rmult_le_reg_r with M; [lra|].
    rewrite Rmult_assoc, Rinv_l, Rmult_1_r by lra. lra. }
  (* the mean *)
  set (mean := s / M). assert (Hmean : Rabs mean <= B) by (apply Hdiv; exact Hs).
  assert (D1 : Rabs (B2R S / M - mean) <= 4 * (X * B)).
  { replace (B2R S / M - mean) with ((B2R S - s) / M) by (unfold mean; field; lra). apply Hdiv. lra. }
  pose proof (near_size _ _ _ _ D1 Hmean) as B1.
  assert (H400 : 4 * bpow radix2 400 = bpow radix2 402) by (change 402%Z with (2 + 400)%Z; rewrite bpow_plus; reflexivity).
  assert (H800 : 4 * bpow radix2 800 = bpow radix2 802) by (change 802%Z with (2 + 800)%Z; rewrite bpow_plus; reflexivity).
  destruct (round_le _ _ 402 B1) as [R1 R2]; [lra|lia|].
  destruct (div_value S (f64_of_Z (Z.of_nat m)) FS) as [F1 V1]; [rewrite m1; lra|rewrite m1; exact R1|]. rewrite m1 in V1. fold mu in F1, V1.
  pose proof (dist_trans _ _ _ _ _ R2 D1) as E1. rewrite <- V1 in E1.
  assert (E1' : Rabs (B2R mu - mean) <= 6 * (X * B)) by lra. clear R1 R2 E1.
  pose proof (near_size _ _ _ _ E1' Hmean) as B2.
  (* its square *)
  assert (Hmm : 0 <= mean * mean <= U) by (apply sq_bound; exact Hmean).
  assert (D2 : Rabs (B2R mu * B2R mu - mean * mean) <= 13 * (X * U)).
  { replace (B2R mu * B2R mu - mean * mean) with ((B2R mu - mean) * (B2R mu + mean)) by ring. rewrite Rabs_mult.
    apply Rle_trans with (6 * (X * B) * (2 * B + / 100 * B)).
    - apply Rmult_le_compat; try apply Rabs_pos; [lra|]. eapply Rle_trans; [apply Rabs_triang|]. lra.
    - replace (6 * (X * B) * (2 * B + / 100 * B)) with ((12 + 6 * / 100) * (X * U)) by (unfold U; ring).
      apply Rmult_le_compat_r; lra. }
  assert (Hmm' : Rabs (mean * mean) <= U) by (rewrite Rabs_pos_eq; lra).
  pose proof (near_size _ _ _ _ D2 Hmm') as B3.
  destruct (round_le _ _ 802 B3) as [R1 R2]; [lra|lia|].
  destruct (mult_value mu mu F1 F1 R1) as [F2 V2]. set (sq := Bmult mode_NE mu mu) in *.
  pose proof (dist_trans _ _ _ _ _ R2 D2) as E2. rewrite <- V2 in E2.
  assert (E2' : Rabs (B2R sq - mean * mean) <= 15 * (X * U)) by lra. clear R1 R2 E2.
  (* times the count *)
  assert (HMU : U <= M * U) by (rewrite <- (Rmult_1_l U) at 1; apply Rmult_le_compat_r; lra).
  assert (HMXU : M * (X * U) <= / 8192 * (M * U)) by (replace (M * (X * U)) with (X * (M * U)) by ring; apply Rmult_le_compat_r; lra).
  assert (HMuU : M * (ulp1 * U) <= M * (X * U)) by (apply Rmult_le_compat_l; lra).
  assert (HMuU1 : ulp1 * U <= M * (ulp1 * U)) by (rewrite <- (Rmult_1_l (ulp1 * U)) at 1; apply Rmult_le_compat_r; lra).
  assert (HMuXU : ulp1 * (M * (X * U)) <= / 8192 * (M * (ulp1 * U))).
  { replace (ulp1 * (M * (X * U))) with (M * (ulp1 * (X * U))) by ring. replace (/ 8192 * (M * (ulp1 * U))) with (M * (/ 8192 * (ulp1 * U))) by ring.
    apply Rmult_le_compat_l; lra. }
  assert (HuMU : ulp1 * (M * U) = M * (ulp1 * U)) by ring.
  assert (HMU' : 2 * (M * U) <= bpow radix2 821).
  { eapply Rle_trans; [|exact NU_le]. apply Rmult_le_compat_l; [lra|]. apply Rmult_le_compat_r; lra. }
  assert (D3 : Rabs (M * B2R sq - M * (mean * mean)) <= 15 * (M * (X * U))).
  { rewrite <- Rmult_minus_distr_l, Rabs_mult, (Rabs_pos_eq M) by lra. replace (15 * (M * (X * U))) with (M * (15 * (X * U))) by ring.
    apply Rmult_le_compat_l; lra. }
  assert (Hmmm : 0 <= M * (mean * mean) <= M * U) by (split; [apply Rmult_le_pos; lra|apply Rmult_le_compat_l; lra]).
  assert (Hmmm' : Rabs (M * (mean * mean)) <= M * U) by (rewrite Rabs_pos_eq; lra).
  pose proof (near_size _ _ _ _ D3 Hmmm') as B4.
  destruct (round_le _ _ 821 B4) as [R1 R2]; [lra|lia|].
  destruct (mult_value (f64_of_Z (Z.of_nat m)) sq m2 F2) as [F3 V3]; [rewrite m1; exact R1|]. rewrite m1 in V3.
  set (pf := Bmult mode_NE (f64_of_Z (Z.of_nat m)) sq) in *.
  pose proof (dist_trans _ _ _ _ _ R2 D3) as E3. rewrite <- V3 in E3.
  assert (E3' : Rabs (B2R pf - M * (mean * mean)) <= 15 * (M * (X * U)) + (1 + / 100) * (M * (ulp1 * U))) by lra. clear R1 R2 E3.
  (* the numerator *)
  set (num := q - M * (mean * mean)). assert (Hnum : Rabs num <= M * U) by (unfold num; apply Rabs_le; lra).
  assert (D4 : Rabs (B2R Q - B2R pf - num) <= 23 * (M * (X * U)) + (1 + / 100) * (M * (ulp1 * U))).
  { replace (B2R Q - B2R pf - num) with ((B2R Q - q) + - (B2R pf - M * (mean * mean))) by (unfold num; ring).
    eapply Rle_trans; [apply Rabs_triang|]. rewrite Rabs_Ropp. lra. }
  pose proof (near_size _ _ _ _ D4 Hnum) as B5.
  assert (B5' : Rabs (B2R Q - B2R pf) <= (1 + / 100) * (M * U)) by lra.
  destruct (round_le _ _ 821 B5') as [R1 R2]; [lra|lia|].
  destruct (minus_value Q pf FQ F3 R1) as [F4 V4]. set (nf := Bminus mode_NE Q pf) in *.
  pose proof (dist_trans _ _ _ _ _ R2 D4) as E4. rewrite <- V4 in E4.
  assert (E4' : Rabs (B2R nf - num) <= M * (23 * (X * U) + (2 + / 10) * (ulp1 * U))) by lra. clear R1 R2 E4.
  (* divided by the count *)
  assert (D5 : Rabs (B2R nf / M - num / M) <= 23 * (X * U) + (2 + / 10) * (ulp1 * U)).
  { replace (B2R nf / M - num / M) with ((B2R nf - num) / M) by (field; lra). apply Hdiv. exact E4'. }
  assert (HV : Rabs (num / M) <= U) by (apply Hdiv; lra).
  pose proof (near_size _ _ _ _ D5 HV) as B6.
  assert (B6' : Rabs (B2R nf / M) <= (1 + / 100) * U) by lra.
  destruct (round_le _ _ 802 B6') as [R1 R2]; [lra|lia|].
  destruct (div_value nf (f64_of_Z (Z.of_nat m)) F4) as [F5 V5]; [rewrite m1; lra|rewrite m1; exact R1|]. rewrite m1 in V5. fold v in F5, V5.
  pose proof (dist_trans _ _ _ _ _ R2 D5) as E5. rewrite <- V5 in E5. fold mean num.
  assert (E5' : Rabs (B2R v - num / M) <= 27 * (X * U)) by lra.
  split; [exact F5|]. split; [pose proof (near_size _ _ _ _ E5' HV); lra|].
  replace (27 * X * U) with (27 * (X * U)) by ring. exact E5'.
Qed.

(** One side of the weighted sum. *)
Lemma side_near (a : nat) (v : f64) V : (1 <= a <= N)%nat -> is_finite v = true -> Rabs V <= U ->
  Rabs (B2R v) <= 2 * U -> Rabs (B2R v - V) <= 27 * (ulp1 * (NR * NR) / INR a) * U ->
  let p := Bmult mode_NE (Bdiv mode_NE (f64_of_Z (Z.of_nat a)) (f64_of_Z (Z.of_nat N))) v in
  is_finite p = true /\ Rabs (B2R p) <= 3 * U /\ Rabs (B2R p - INR a / NR * V) <= 27 * (ulp1 * NR) * U + 5 * (ulp1 * U).
Proof.
  intros Ha Fv HV Bv Ev p. pose proof NR_pos as H1. pose proof U_pos as H3. pose proof U_range as HU.
  pose proof ulp1_pos as H4. pose proof eta_U as H5. pose proof eta1_pos as He. pose proof ulp1_small as H0.
  destruct (weight_error (Z.of_nat a) (Z.of_nat N)) as (Fw & Bw & Ew); [lia|lia|]. rewrite <- !INR_IZR_INZ in Ew. fold NR in Ew.
  set (w := Bdiv mode_NE (f64_of_Z (Z.of_nat a)) (f64_of_Z (Z.of_nat N))) in *.
  assert (Ha1 : 1 <= INR a) by (apply (le_INR 1); lia).
  assert (HW : 0 <= INR a / NR) by (apply Rmult_le_pos; [lra|left; apply Rinv_0_lt_compat; lra]).
  assert (HuU : ulp1 * U <= / 1000 * U) by (apply Rmult_le_compat_r; lra).
  assert (HuuU : ulp1 * (ulp1 * U) <= / 1000 * (ulp1 * U)) by (apply Rmult_le_compat_r; [apply Rmult_le_pos; lra|lra]).
  assert (Hew : eta1 <= / 1000 * ulp1).
  { assert (H : 1024 * eta1 <= ulp1) by (change 1024 with (bpow radix2 10); unfold eta1, ulp1; rewrite <- bpow_plus; apply bpow_le; lia). lra. }
  assert (HeU : eta1 * U <= / 1000 * (ulp1 * U)) by (rewrite <- Rmult_assoc; apply Rmult_le_compat_r; lra).
  assert (D : Rabs (B2R w * B2R v - INR a / NR * V) <= 27 * (ulp1 * NR) * U + (2 + / 100) * (ulp1 * U)).
  { replace (B2R w * B2R v - INR a / NR * V) with ((B2R w - INR a / NR) * B2R v + INR a / NR * (B2R v - V)) by ring.
    eapply Rle_trans; [apply Rabs_triang|]. rewrite !Rabs_mult, (Rabs_pos_eq (INR a / NR)) by lra.
    assert (Rabs (B2R w - INR a / NR) * Rabs (B2R v) <= (ulp1 + eta1) * (2 * U)) by (apply Rmult_le_compat; try apply Rabs_pos; lra).
    assert (INR a / NR * Rabs (B2R v - V) <= INR a / NR * (27 * (ulp1 * (NR * NR) / INR a) * U)) by (apply Rmult_le_compat_l; lra).
    assert (INR a / NR * (27 * (ulp1 * (NR * NR) / INR a) * U) = 27 * (ulp1 * NR) * U) by (field; lra). lra. }
  assert (Bp : Rabs (B2R w * B2R v) <= 2 * U).
  { rewrite Rabs_mult. rewrite <- (Rmult_1_l (2 * U)). apply Rmult_le_compat; try apply Rabs_pos; lra. }
  assert (H800 : 4 * bpow radix2 800 = bpow radix2 802) by (change 802%Z with (2 + 800)%Z; rewrite bpow_plus; reflexivity).
  destruct (round_le _ _ 802 Bp) as [R1 R2]; [lra|lia|].
  destruct (mult_value w v Fw Fv R1) as [F1 V1]. fold p in F1, V1. rewrite <- V1 in R2.
  split; [exact F1|]. split; [pose proof (near_size _ _ _ _ R2 Bp); lra|].
  pose proof (dist_trans _ _ _ _ _ R2 D). lra.
Qed.

Lemma loss_near (a b : nat) (v w : f64) V W : (1 <= a)%nat -> (1 <= b)%nat -> (a + b = N)%nat ->
  is_finite v = true -> is_finite w = true -> Rabs V <= U -> Rabs W <= U -> Rabs (B2R v) <= 2 * U -> Rabs (B2R w) <= 2 * U ->
  Rabs (B2R v - V) <= 27 * (ulp1 * (NR * NR) / INR a) * U -> Rabs (B2R w - W) <= 27 * (ulp1 * (NR * NR) / INR b) * U ->
  let l := loss64 (Z.of_nat a) (Z.of_nat b) v w in
  is_finite l = true /\ Rabs (B2R l - (INR a / INR (a + b) * V + INR b / INR (a + b) * W)) <= 75 * (ulp1 * NR) * U.
Proof.
  intros Ha Hb Hab Fv Fw HV HW Bv Bw Ev Ew. unfold loss64. rewrite plus_Z by lia. rewrite <- Nat2Z.inj_add. rewrite Hab. fold NR.
  destruct (side_near a v V ltac:(lia) Fv HV Bv Ev) as (F1 & B1 & E1). destruct (side_near b w W ltac:(lia) Fw HW Bw Ew) as (F2 & B2 & E2).
  set (p := Bmult mode_NE (Bdiv mode_NE (f64_of_Z (Z.of_nat a)) (f64_of_Z (Z.of_nat N))) v) in *.
  set (q := Bmult mode_NE (Bdiv mode_NE (f64_of_Z (Z.of_nat b)) (f64_of_Z (Z.of_nat N))) w) in *.
  pose proof NR_pos as H1. pose proof U_pos as H3. pose proof U_range as HU. pose proof ulp1_pos as H4. pose proof eta_U as H5.
  assert (D : Rabs (B2R p + B2R q - (INR a / NR * V + INR b / NR * W)) <= 54 * (ulp1 * NR) * U + 10 * (ulp1 * U)).
  { replace (B2R p + B2R q - (INR a / NR * V + INR b / NR * W)) with ((B2R p - INR a / NR * V) + (B2R q - INR b / NR * W)) by ring.
    eapply Rle_trans; [apply Rabs_triang|]. lra. }
  assert (Bs : Rabs (B2R p + B2R q) <= 6 * U) by (eapply Rle_trans; [apply Rabs_triang|lra]).
  assert (H800 : 8 * bpow radix2 800 = bpow radix2 803) by (change 803%Z with (3 + 800)%Z; rewrite bpow_plus; reflexivity).
  destruct (round_le _ _ 803 Bs) as [R1 R2]; [lra|lia|].
  destruct (plus_value p q F1 F2 R1) as [F3 V3]. split; [exact F3|]. rewrite V3.
  eapply Rle_trans; [exact (dist_trans _ _ _ _ _ R2 D)|].
  assert (ulp1 * U <= ulp1 * NR * U).
  { apply Rmult_le_compat_r; [lra|]. rewrite <- (Rmult_1_r ulp1) at 1. apply Rmult_le_compat_l; lra. }
  assert (0 <= ulp1 * U) by (apply Rmult_le_pos; lra). lra.
Qed.

Lemma Rsum_abs l : Rabs (Rsum l) <= Rsum (map Rabs l).
Proof.
  induction l as [|y l IH]; cbn [map]; rewrite ?Rsum_cons; [cbn [Rsum fold_right]; rewrite Rabs_R0; lra|].
  eapply Rle_trans; [apply Rabs_triang|]. lra.
Qed.

(** Summing [k] numbers whose exact values are at most [U]. *)
Lemma sum_near (c : R) (f : nat -> f64) (g : nat -> R) (k : nat) : 1 <= c <= 75 -> (Z.of_nat k <= 2 ^ 40)%Z ->
  (forall t, (t < k)%nat -> is_finite (f t) = true /\ Rabs (g t) <= U /\ Rabs (B2R (f t) - g t) <= c * (ulp1 * NR) * U) ->
  let r := @fsum (f64_ops P) (map f (seq 0 k)) in
  is_finite r = true /\ Rabs (B2R r - Rsum (map g (seq 0 k))) <= INR k * (3 * ulp1 * (INR k * U) + 3 * (c * (ulp1 * NR) * U)) /\
  Rabs (Rsum (map g (seq 0 k))) <= INR k * U.
Proof.
  intros Hc Hk H r. pose proof NR_pos as H1. pose proof U_pos as H3. pose proof U_range as HU. pose proof ulp1_pos as H4. pose proof eta_U as H5.
  pose proof uN as H6. pose proof (pos_INR k) as Pk.
  assert (HG : Rsum (map (fun t => Rabs (g t)) (seq 0 k)) <= INR k * U).
  { rewrite <- (seq_length k 0) at 2. rewrite <- Rsum_map_const. apply Rsum_map_le. intros t Ht. apply in_seq in Ht. apply H. lia. }
  assert (HuU0 : 0 <= ulp1 * U) by (apply Rmult_le_pos; lra).
  assert (HuN : ulp1 <= ulp1 * NR) by (rewrite <- (Rmult_1_r ulp1) at 1; apply Rmult_le_compat_l; lra).
  assert (HuNU : ulp1 * U <= c * (ulp1 * NR) * U).
  { apply Rmult_le_compat_r; [lra|]. apply Rle_trans with (1 * (ulp1 * NR)); [lra|]. apply Rmult_le_compat_r; lra. }
  assert (Hcu : c * (ulp1 * NR) * U <= 1 * U).
  { apply Rmult_le_compat_r; [lra|]. apply Rle_trans with (75 * (ulp1 * NR)); [apply Rmult_le_compat_r; lra|lra]. }
  assert (Hkk : INR k <= bpow radix2 40).
  { rewrite INR_IZR_INZ, <- (IZR_Zpower radix2 40) by lia. apply IZR_le. exact Hk. }
  destruct (accumulate 0 (INR k * U) (c * (ulp1 * NR) * U)) with (terms := map (fun t => (f t, g t)) (seq 0 k)) (s := @fsum0 (f64_ops P)) (E := 0) (k := 0%nat)
    as [F1 E1].
  - lra.
  - split; [apply Rmult_le_pos; lra|]. apply Rle_trans with (bpow radix2 40 * bpow radix2 800); [apply Rmult_le_compat; lra|].
    rewrite <- bpow_plus. apply bpow_le. lia.
  - split; [lra|]. apply Rle_trans with (bpow radix2 800); [lra|apply bpow_le; lia].
  - reflexivity.
  - change (B2R (@fsum0 (f64_ops P))) with 0. rewrite Rminus_0_r, Rabs_R0. cbn [INR]. lra.
  - rewrite Rabs_R0, Rplus_0_l, map_map. cbn [snd]. exact HG.
  - rewrite map_length, seq_length. exact Hk.
  - apply Forall_map, Forall_forall. intros t Ht. apply in_seq in Ht. cbn [fst snd]. destruct (H t) as (A1 & A2 & A3); [lia|]. split; [exact A1|lra].
  - rewrite map_length, seq_length in E1. rewrite (fold_left_pairs (Bplus mode_NE) fst) in F1, E1. rewrite !map_map in F1, E1. cbn [fst snd Nat.add] in F1, E1.
    split; [exact F1|]. split.
    + rewrite Rplus_0_l in E1. rewrite (map_map (fun t => (f t, g t)) snd) in E1. cbn [snd] in E1. eapply Rle_trans; [exact E1|]. right. ring.
    + eapply Rle_trans; [apply Rsum_abs|]. rewrite map_map. exact HG.
Qed.

(** The difference of the two sums. *)
Lemma gain_near (k : nat) (tv l : f64) T L : (Z.of_nat k <= 2 ^ 40)%Z -> is_finite tv = true -> is_finite l = true ->
  Rabs T <= INR k * U -> Rabs L <= INR k * U ->
  Rabs (B2R tv - T) <= INR k * (3 * ulp1 * (INR k * U) + 3 * (27 * (ulp1 * NR) * U)) ->
  Rabs (B2R l - L) <= INR k * (3 * ulp1 * (INR k * U) + 3 * (75 * (ulp1 * NR) * U)) ->
  is_finite (Bminus mode_NE tv l) = true /\ B2R (Bminus mode_NE tv l) = rnd (B2R tv - B2R l) /\
  Rabs (B2R (Bminus mode_NE tv l) - (T - L)) <= 320 * (INR k + 1) * (INR k + NR) * U * ulp1.
Proof.
  intros Hk Ft Fl HT HL Et El. pose proof NR_pos as H1. pose proof U_pos as H3. pose proof U_range as HU. pose proof ulp1_pos as H4. pose proof eta_U as H5.
  pose proof uN as H6. pose proof (pos_INR k) as Pk. pose proof (count_small k Hk) as Hck.
  assert (Hkk : INR k <= bpow radix2 40).
  { rewrite INR_IZR_INZ, <- (IZR_Zpower radix2 40) by lia. apply IZR_le. exact Hk. }
  assert (HkU : 0 <= INR k * U) by (apply Rmult_le_pos; lra).
  assert (Hkk1 : INR k * (ulp1 * (INR k * U)) <= / 8192 * (INR k * U)) by (rewrite <- Rmult_assoc, (Rmult_comm (INR k) ulp1); apply Rmult_le_compat_r; lra).
  assert (HkN : INR k * (ulp1 * NR * U) <= / 8192 * (INR k * U)).
  { replace (INR k * (ulp1 * NR * U)) with (ulp1 * NR * (INR k * U)) by ring. apply Rmult_le_compat_r; lra. }
  set (z1 := INR k * (ulp1 * (INR k * U))) in *. set (z2 := INR k * (ulp1 * NR * U)) in *.
  assert (D : Rabs (B2R tv - B2R l - (T - L)) <= 6 * z1 + 306 * z2).
  { replace (B2R tv - B2R l - (T - L)) with ((B2R tv - T) + - (B2R l - L)) by ring.
    eapply Rle_trans; [apply Rabs_triang|]. rewrite Rabs_Ropp. unfold z1, z2. lra. }
  assert (HTL : Rabs (T - L) <= 2 * (INR k * U)) by (unfold Rminus; eapply Rle_trans; [apply Rabs_triang|]; rewrite Rabs_Ropp; lra).
  pose proof (near_size _ _ _ _ D HTL) as Bd. assert (Bd' : Rabs (B2R tv - B2R l) <= 4 * (INR k * U)) by lra.
  destruct (round_le _ _ 842 Bd') as [R1 R2]; [|lia|].
  { change 842%Z with (2 + (40 + 800))%Z. rewrite !(bpow_plus radix2). change (bpow radix2 2) with 4. apply Rmult_le_compat_l; [lra|]. apply Rmult_le_compat; lra. }
  destruct (minus_value tv l Ft Fl R1) as [F1 V1]. split; [exact F1|]. split; [exact V1|]. rewrite V1.
  eapply Rle_trans; [exact (dist_trans _ _ _ _ _ R2 D)|].
  replace (320 * (INR k + 1) * (INR k + NR) * U * ulp1) with (320 * z1 + 320 * z2 + 320 * (ulp1 * (INR k * U)) + 320 * (NR * (ulp1 * U))) by (unfold z1, z2; ring).
  assert (0 <= z1) by (unfold z1; apply Rmult_le_pos; [lra|apply Rmult_le_pos; lra]).
  assert (0 <= z2) by (unfold z2; apply Rmult_le_pos; [lra|apply Rmult_le_pos; [apply Rmult_le_pos; lra|lra]]).
  assert (0 <= ulp1 * (INR k * U)) by (apply Rmult_le_pos; lra).
  assert (ulp1 * U <= NR * (ulp1 * U)) by (rewrite <- (Rmult_1_l (ulp1 * U)) at 1; apply Rmult_le_compat_r; [apply Rmult_le_pos; lra|lra]).
  assert (0 <= ulp1 * U) by (apply Rmult_le_pos; lra). lra.
Qed.
End Near.
